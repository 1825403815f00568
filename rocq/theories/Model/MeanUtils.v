(** Model of photons/mean_photon_utils.hpp and mean_photon_types.hpp. A group-bounds
    indexer (pointer, vector or one-dimensional DataBox) is a list; reading past its
    end is [UB]. *)
From Coq Require Import ZArith List Bool.
From Verif Require Import Base.Outcome Base.Ops Model.Constants Model.ThermalPhotons.
Import ListNotations.
Open Scope ops_scope.

(** OpacityAveraging, mean_photon_types.hpp 25 *)
Definition Rosseland : Z := 0.
Definition Planck : Z := 1.

Section MeanUtils.
  Context {T : Type} {O : Ops T}.

  (** wien_tail_x, mean_photon_types.hpp 32 *)
  Definition wien_tail_x : T := #80.

  (** ToLog, 36-40; FromLog, 42-43 *)
  Definition ToLog (x : T) : T := Olog10 (Oabs x + #10 * Onum_min).
  Definition FromLog (lx : T) : T := Opow #10 lx.

  (** GroupBoundAt, 47-56 *)
  Definition GroupBoundAt (gb : list T) (group : Z) : result T :=
    if (group <? 0)%Z then UB else load gb (Z.to_nat group).

  (** the loop 75-82: signed overflow of lower + upper is undefined; [fuel] bounds the
      iterations and is never exhausted (proved) *)
  Fixpoint group_search (fuel : nat) (gb : list T) (nu : T) (lower upper : Z) : result Z :=
    if (1 <? upper - lower)%Z then
      match fuel with
      | 0%nat => UB
      | S k =>
        if int_fits (lower + upper) then
          let middle := Z.quot (lower + upper) 2 in
          b <- GroupBoundAt gb middle ;;
          if nu <? b then group_search k gb nu lower middle
          else group_search k gb nu middle upper
        else UB
      end
    else Ok lower.

  (** GroupOfNuImpl, 62-84 *)
  Definition GroupOfNuImpl (gb : list T) (ngroups : Z) (nu : T) : result Z :=
    b0 <- GroupBoundAt gb 0 ;;
    if nu <=? b0 then Ok 0%Z else
    bn <- GroupBoundAt gb ngroups ;;
    if Ogeb nu bn then Ok (ngroups - 1)%Z else
    group_search (Z.to_nat ngroups) gb nu 0 ngroups.

  (** SetGroupBounds, 86-94; ExportGroupBounds, 97-104 *)
  Definition SetGroupBounds (gb : list T) (ngroups : Z) : result (list T) :=
    for_int (ngroups + 1) (fun g out => b <- GroupBoundAt gb (Z.of_nat g) ;; Ok (out ++ [b])) [].

  (** one pass of the loop of ValidateGroupBounds, 114-136 *)
  Definition validate_bound (gb : list T) (ngroups : Z) (g : nat) : result unit :=
    bound <- GroupBoundAt gb (Z.of_nat g) ;;
    if Oisnan bound then Error else
    if Oisinf bound && (bound <? #0) then Error else
    _ <- (if Nat.eqb g 0 then
            if negb (Ogeb bound #0) then Error else Ok tt
          else
            prev <- GroupBoundAt gb (Z.of_nat g - 1) ;;
            if negb (Ogtb bound prev) then Error else Ok tt) ;;
    if negb (Oisfinite bound) && negb (Z.of_nat g =? ngroups)%Z then Error else Ok tt.

  (** ValidateGroupBounds, 106-137 *)
  Definition ValidateGroupBounds (gb : list T) (ngroups : Z) : result unit :=
    if (ngroups <=? 0)%Z then Error else
    for_int (ngroups + 1) (fun g _ => validate_bound gb ngroups g) tt.

  Section WithPC.
    Context (pc : PhysConst T).

    (** nu_thermal_min, nu_thermal_max, 149-150 *)
    Definition nu_thermal_min (temp : T) : T := Odec 1 (-3) * pc_kb pc * temp / pc_h pc.
    Definition nu_thermal_max (temp : T) : T := #1000 * pc_kb pc * temp / pc_h pc.

    (** the sampled window (nu_sample_min, nu_sample_max), 152-173 *)
    Definition sample_window (temp nuMin nuMax : T) : T * T :=
      let tmin := nu_thermal_min temp in
      let tmax := nu_thermal_max temp in
      let is_lower_extreme := Oeqb nuMin #0 || (nuMin <? Odec 1 (-1) * tmin) in
      let is_upper_extreme := negb (Oisfinite nuMax) || Ogtb nuMax (#10 * tmax) in
      let lo := if is_lower_extreme then tmin else nuMin in
      let hi := if is_upper_extreme then tmax else nuMax in
      if Ogeb lo hi then
        if Oisfinite nuMax && Ogtb nuMax #0 then (Odec 5 (-1) * nuMax, nuMax)
        else (Odec 1 (-1) * tmax, tmax)
      else (lo, hi).

    (** dlnu and the sampled frequency, 176-181 *)
    Definition sample_dlnu (w : T * T) (N : Z) : T := (ToLog (snd w) - ToLog (fst w)) / #N.
    Definition sample_nu (w : T * T) (N : Z) (inu : nat) : T :=
      FromLog (ToLog (fst w) + (#(Z.of_nat inu) + Odec 5 (-1)) * sample_dlnu w N).

    (** ForEachGroupFrequencySample, 139-184 *)
    Definition ForEachGroupFrequencySample {S : Type} (temp nuMin nuMax : T) (N : Z)
      (op : T -> T -> S -> result S) (s : S) : result S :=
      let w := sample_window temp nuMin nuMax in
      for_int N (fun inu s => let nu := sample_nu w N inu in op nu (nu * sample_dlnu w N) s) s.

    (** ThermalWeightsAtNu, 186-202: (B, dBdT) *)
    Definition ThermalWeightsAtNu (temp nu : T) : T * T :=
      let x := pc_h pc * nu / (pc_kb pc * temp) in
      if x <? wien_tail_x then (planck_nu pc temp nu, planck_dT pc temp nu)
      else
        let emx := Oexp (- x) in
        ((#2 * pc_h pc * nu * nu * nu / (pc_c pc * pc_c pc)) * emx,
         #2 * pc_h pc * pc_h pc * nu * nu * nu * nu * emx /
           (temp * temp * pc_c pc * pc_c pc * pc_kb pc)).
  End WithPC.
End MeanUtils.
