(** C57. Refining the frequency grid makes the averages exact. *)
From Coquelicot Require Import Coquelicot.
From Coq Require Import Reals ZArith List Lia Lra Bool Classical_Prop.
From Verif Require Import Proofs.C57 Base.Outcome Base.Ops Inst.ER Inst.ERTac Model.Constants Model.RadTypes Model.MeanUtils
  Model.MeanPhotons Model.MeanNeutrinos Spec.Physics Spec.Opacities Spec.Tables Spec.Groups Spec.Means Spec.Refinement Inst.RConsts
  Proofs.InterpFacts Proofs.TableFacts Proofs.PlanckFacts Proofs.MeanExact Proofs.MeanTotal Proofs.MeanNodes Proofs.C31 Proofs.C34 Proofs.C54
  Proofs.Refine Proofs.RefineMeans.
Import ListNotations.
Open Scope R_scope.

(** Photons, absorption and scattering, every coefficient that is a continuous function of the
    frequency: with enough samples the stored means are, at every node and for every group, the
    Planck and the Rosseland average over the sampled band to one part in 10^33. The limit of
    accuracy is the Wien form of the spectrum beyond h nu = 80 kT. *)
Theorem C57_photon :
  forall (pc : PhysConst R) (coef : ER -> ER -> ER -> result ER) (a : R -> R -> R -> R),
  positive_hkc pc -> real_coefficient coef a -> (forall rho T, 0 < rho -> 0 < T -> regular (a rho T)) ->
  forall (gR gT : rgrid) (gb : list ER) (ng : Z), rg_ok gR -> rg_ok gT ->
  partition (edge (fun x => x) gb) (Z.to_nat ng) -> (ng < Z.of_nat (length gb))%Z ->
  forall (dbg : bool) (opc : RuntimePC ER), (dbg = true -> RuntimePC_eqb (RuntimePC_of (finpc pc)) opc = true) ->
  exists N0, forall N, (N0 <= N)%Z -> exists m, photon_mean pc dbg opc coef gR gT gb ng N = Ok m /\
    at_every_node gR gT ng (fun rho T g =>
      let B := Planck_B (pc_h pc) (pc_kb pc) (pc_c pc) in
      let dB := fun nu => Derive (fun t => B t nu) T in
      let band := group_band pc gb T g in
      exists P Q, answers m rho T g P Q /\
      (bright (B T) band -> 0 < total (fun nu => a rho T nu / rho * B T nu) band ->
         agrees P (Planck_average (B T) rho (a rho T) band)) /\
      (opaque dB rho (a rho T) band -> agrees Q (Rosseland_average dB rho (a rho T) band))).
Proof. exact C57_photon_proof. Qed.
Print Assumptions C57_photon.

(** ... and the number of samples it takes: if N cells resolve the two integrands of an average
    to the fraction eta, the stored mean is the average to 3 eta + 10^-32. *)
Theorem C57_photon_rate :
  forall (pc : PhysConst R) (coef : ER -> ER -> ER -> result ER) (a : R -> R -> R -> R),
  positive_hkc pc -> real_coefficient coef a -> (forall rho T, 0 < rho -> 0 < T -> regular (a rho T)) ->
  forall (gR gT : rgrid) (gb : list ER) (ng N : Z), rg_ok gR -> rg_ok gT ->
  partition (edge (fun x => x) gb) (Z.to_nat ng) -> (ng < Z.of_nat (length gb))%Z -> (2 <= N)%Z ->
  forall (dbg : bool) (opc : RuntimePC ER), (dbg = true -> RuntimePC_eqb (RuntimePC_of (finpc pc)) opc = true) ->
  exists m, photon_mean pc dbg opc coef gR gT gb ng N = Ok m /\
    at_every_node gR gT ng (fun rho T g =>
      let B := Planck_B (pc_h pc) (pc_kb pc) (pc_c pc) in
      let dB := fun nu => Derive (fun t => B t nu) T in
      let band := group_band pc gb T g in
      exists P Q, answers m rho T g P Q /\ forall eta, 0 <= eta <= / 200 ->
      let KP := Planck_average (B T) rho (a rho T) band in
      let KR := Rosseland_average dB rho (a rho T) band in
      (bright (B T) band -> 0 < total (fun nu => a rho T nu / rho * B T nu) band ->
       resolved (B T) band N eta -> resolved (fun nu => a rho T nu / rho * B T nu) band N eta ->
         Rabs (P - KP) <= (3 * eta + / 10 ^ 32) * KP) /\
      (opaque dB rho (a rho T) band ->
       resolved dB band N eta -> resolved (fun nu => rho / a rho T nu * dB nu) band N eta ->
         Rabs (Q - KR) <= (3 * eta + / 10 ^ 32) * KR)).
Proof. exact C57_photon_rate_proof. Qed.
Print Assumptions C57_photon_rate.

(** Neutrino absorption, every continuous coefficient and spectrum: with enough samples of a
    given range the stored means are, at every node and for every species, the averages over
    that range to one part in 10^33. *)
Theorem C57_neutrino :
  forall (pc : PhysConst R) (coef : ER -> ER -> ER -> RadiationType -> ER -> result ER)
    (dist ddist : ER -> RadiationType -> ER -> result ER)
    (a : R -> R -> R -> RadiationType -> R -> R) (B dB : R -> RadiationType -> R -> R),
  positive_hkc pc -> nu_real_coefficient coef a -> real_spectrum dist ddist B dB -> regular_spectrum B dB ->
  (forall rho T Ye type, 0 < rho -> 0 < T -> regular (a rho T Ye type)) ->
  forall (gR gT gY : rgrid) (r : R * R), rg_ok gR -> rg_ok gT -> rg_ok gY -> fst r < snd r ->
  forall (dbg : bool) (opc : RuntimePC ER), (dbg = true -> RuntimePC_eqb (RuntimePC_of (finpc pc)) opc = true) ->
  exists N0, forall N, (N0 <= N)%Z -> exists m,
    nu_build true pc dbg opc coef dist ddist gR gT gY (Some (r, N)) = Ok m /\
    at_every_nu_node gR gT gY (fun rho T Ye type =>
      let band := (pow10 (fst r), pow10 (snd r)) in let x := a rho T Ye type in
      exists P Q, nu_answers m rho T Ye type P Q /\
      (bright (B T type) band -> 0 < total (fun nu => x nu / rho * B T type nu) band ->
         agrees P (Planck_average (B T type) rho x band) /\
         (/ 10 ^ 200 <= Planck_average (B T type) rho x band -> opaque (dB T type) rho x band ->
          agrees Q (Rosseland_average (dB T type) rho x band)))).
Proof. exact C57_neutrino_proof. Qed.
Print Assumptions C57_neutrino.

(** Neutrinos, absorption and scattering, with and without a given range: the means are the
    averages to 3 eta + 10^-32 if the cells, 100 of them for scattering, resolve the integrands
    to the fraction eta. *)
Theorem C57_neutrino_rate :
  forall (absorption : bool) (pc : PhysConst R) (coef : ER -> ER -> ER -> RadiationType -> ER -> result ER)
    (dist ddist : ER -> RadiationType -> ER -> result ER)
    (a : R -> R -> R -> RadiationType -> R -> R) (B dB : R -> RadiationType -> R -> R),
  positive_hkc pc -> nu_real_coefficient coef a -> real_spectrum dist ddist B dB -> regular_spectrum B dB ->
  (forall rho T Ye type, 0 < rho -> 0 < T -> regular (a rho T Ye type)) ->
  forall (gR gT gY : rgrid) (range : option (R * R * Z)), rg_ok gR -> rg_ok gT -> rg_ok gY ->
  (forall r N, range = Some (r, N) -> fst r < snd r /\ (0 < N)%Z) ->
  forall (dbg : bool) (opc : RuntimePC ER), (dbg = true -> RuntimePC_eqb (RuntimePC_of (finpc pc)) opc = true) ->
  let band := nu_band pc gT range in let N := nu_samples absorption range in
  exists m, nu_build absorption pc dbg opc coef dist ddist gR gT gY range = Ok m /\
    at_every_nu_node gR gT gY (fun rho T Ye type =>
      let x := a rho T Ye type in
      let KP := Planck_average (B T type) rho x band in
      let KR := Rosseland_average (dB T type) rho x band in
      exists P Q, nu_answers m rho T Ye type P Q /\ forall eta, 0 <= eta <= / 200 ->
      bright (B T type) band -> 0 < total (fun nu => x nu / rho * B T type nu) band ->
      resolved (B T type) band N eta -> resolved (fun nu => x nu / rho * B T type nu) band N eta ->
        Rabs (P - KP) <= (3 * eta + / 10 ^ 32) * KP /\
        (/ 10 ^ 200 <= KP -> opaque (dB T type) rho x band ->
         resolved (dB T type) band N eta -> resolved (fun nu => rho / x nu * dB T type nu) band N eta ->
         Rabs (Q - KR) <= (3 * eta + / 10 ^ 32) * KR)).
Proof. exact C57_neutrino_rate_proof. Qed.
Print Assumptions C57_neutrino_rate.

(** Refining has no effect on neutrino scattering: the table is the same for every requested
    number of samples, and there is a coefficient whose average over the range is at least
    twice the stored mean at every node. *)
Theorem C57_neutrino_scattering_refuted :
  exists (coef : ER -> ER -> ER -> RadiationType -> ER -> result ER) (dist ddist : ER -> RadiationType -> ER -> result ER)
    (a : R -> R -> R -> RadiationType -> R -> R) (B dB : R -> RadiationType -> R -> R) (r : R * R),
  nu_real_coefficient coef a /\ real_spectrum dist ddist B dB /\ regular_spectrum B dB /\
  (forall rho T Ye type, 0 < rho -> 0 < T -> regular (a rho T Ye type)) /\ fst r < snd r /\
  let band := (pow10 (fst r), pow10 (snd r)) in
  (forall T type, 0 < T -> bright (B T type) band) /\
  forall (pc : PhysConst R) (gR gT gY : rgrid) (dbg : bool) (opc : RuntimePC ER),
  positive_hkc pc -> rg_ok gR -> rg_ok gT -> rg_ok gY ->
  (dbg = true -> RuntimePC_eqb (RuntimePC_of (finpc pc)) opc = true) ->
  exists m, (forall N, (0 < N)%Z -> nu_build false pc dbg opc coef dist ddist gR gT gY (Some (r, N)) = Ok m) /\
    at_every_nu_node gR gT gY (fun rho T Ye type => exists P Q, nu_answers m rho T Ye type P Q /\
      0 < P /\ 2 * P <= Planck_average (B T type) rho (a rho T Ye type) band).
Proof. exact C57_neutrino_scattering_refuted_proof. Qed.
Print Assumptions C57_neutrino_scattering_refuted.

(** The hypothesis of the rates can be met for every integrand with a continuous derivative and
    every fraction. *)
Theorem C57_resolved :
  forall (f f' : R -> R) (lo hi eta : R), 0 < lo <= hi -> 0 < eta -> 0 < total f (lo, hi) ->
  (forall x, lo <= x <= hi -> is_derive f x (f' x) /\ continuous f' x) ->
  exists N0, forall N, (N0 <= N)%Z -> resolved f (lo, hi) N eta.
Proof. exact C57_resolved_proof. Qed.
Print Assumptions C57_resolved.

(** Unit constants, the group [1, 10], a coefficient growing with the frequency; at the node
    with density 1 and temperature 1 the averages are bright and opaque, and enough cells
    resolve the four integrands to 1/200. *)
Example C57_photon_example_holds :
  let g := {| rg_lo := 0; rg_hi := 1; rg_n := 2 |} in let gb := [Fin 1; Fin 10] in
  let a := fun rho (_ : R) nu => rho * (1 + nu) in
  let B := Planck_B (pc_h unityR) (pc_kb unityR) (pc_c unityR) in
  let dB := fun nu => Derive (fun t => B t nu) 1 in
  let band := group_band unityR gb 1 0 in
  positive_hkc unityR /\ real_coefficient (fun rho _ nu => Ok (Omul rho (Oadd (Fin 1) nu))) a /\
  (forall rho T, 0 < rho -> 0 < T -> regular (a rho T)) /\ rg_ok g /\ partition (edge (fun x => x) gb) (Z.to_nat 1) /\
  pow10 (rg_node g 0) = 1 /\
  bright (B 1) band /\ 0 < total (fun nu => a 1 1 nu / 1 * B 1 nu) band /\ opaque dB 1 (a 1 1) band /\
  exists N, (2 <= N)%Z /\ resolved (B 1) band N (/ 200) /\ resolved (fun nu => a 1 1 nu / 1 * B 1 nu) band N (/ 200) /\
    resolved dB band N (/ 200) /\ resolved (fun nu => 1 / a 1 1 nu * dB nu) band N (/ 200).
Proof. exact C57_photon_example. Qed.

(** A flat spectrum over one decade and a coefficient growing with the frequency: every
    hypothesis of the neutrino theorems holds at every density and temperature, and enough
    cells resolve the four integrands to 1/200. *)
Example C57_neutrino_example_holds :
  let r := (0, 1) in let band := (pow10 (fst r), pow10 (snd r)) in
  let a := fun rho (_ _ : R) (_ : RadiationType) nu => rho * (1 + nu) in
  let B := fun (_ : R) (_ : RadiationType) (_ : R) => 1 in
  nu_real_coefficient (fun rho _ _ _ nu => Ok (Omul rho (Oadd (Fin 1) nu))) a /\
  real_spectrum (fun _ _ _ => Ok (Fin 1)) (fun _ _ _ => Ok (Fin 1)) B B /\ regular_spectrum B B /\
  (forall rho T Ye type, 0 < rho -> 0 < T -> regular (a rho T Ye type)) /\ band = (1, 10) /\
  forall rho T Ye type, / 10 <= rho -> 0 < T -> let x := a rho T Ye type in
    bright (B T type) band /\ 0 < total (fun nu => x nu / rho * B T type nu) band /\
    / 10 ^ 200 <= Planck_average (B T type) rho x band /\ opaque (B T type) rho x band /\
    exists N, (2 <= N)%Z /\ resolved (B T type) band N (/ 200) /\ resolved (fun nu => x nu / rho * B T type nu) band N (/ 200) /\
      resolved (fun nu => rho / x nu * B T type nu) band N (/ 200).
Proof. exact C57_neutrino_example. Qed.
