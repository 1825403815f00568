(** C41. Loading NuLib files. *)
From Coquelicot Require Import Coquelicot.
From Coq Require Import Reals ZArith List Lia Lra Bool.
From Verif Require Import Proofs.C41 Base.Outcome Base.Ops Inst.ER Inst.ERTac Inst.RConsts Model.Constants Model.RadTypes Model.NeutrinoApi
  Model.Spiner Model.SpinerNeutrinos Spec.Means Spec.Tables Spec.Tabulated Spec.NuLib Proofs.ArrayFacts Proofs.InterpFacts
  Proofs.TableFacts Proofs.FillFacts Proofs.ModelFacts Proofs.MeanTotal Proofs.SpinerFacts Proofs.SpinerExact Proofs.RiemannSum Proofs.NuLibFacts.
Import ListNotations.
Open Scope R_scope.

(** what the loaded opacity answers at the nodes, in terms of the contents of the file and
    of [fresh], the contents of newly allocated memory *)
Theorem C41_load :
  forall (pc : PhysConst R) (n : Z) (b : nulib) (fresh : nat -> ER),
  0 < pc_h pc -> 0 < pc_eV pc -> nulib_ok b ->
  exists t, LoadFromNuLib (finpc pc) fresh (Some (file_of b)) = Ok t /\
  let o := SpinerOpacity n (finpc pc) t in
  forall i j y e rho T Ye nu type, table_node b kelvin_per_MeV i j y rho T Ye -> energy_node b (hz_per_MeV pc) e nu ->
  (0 <= RadType2Idx type < nb_NS b)%Z ->
  let cell := fun l => nb_index b i j y (RadType2Idx type) l in
  let read := fun l => nth (cell l) (nb_absorption b) 0 in
  let dle := (log10 (final (nb_energy b)) - log10 (first (nb_energy b))) / IZR (nb_NE b - 1) in
  let MeV := 10 ^ 6 * pc_eV pc in
  nu_EmissivityPerNuOmega o (Fin rho) (Fin T) (Fin Ye) type (Fin nu) = Ok (Fin (pc_h pc * read e / MeV)) /\
  nu_EmissivityPerNu o (Fin rho) (Fin T) (Fin Ye) type (Fin nu) = Ok (Fin (4 * PI * (pc_h pc * read e / MeV))) /\
  nu_Emissivity o (Fin rho) (Fin T) (Fin Ye) type =
    Ok (Fin (dle * rsum (Z.to_nat (nb_NE b)) (fun l => 4 * PI * read (Z.of_nat l) * group_energy b (Z.of_nat l)) + tiny)) /\
  nu_NumberEmissivity o (Fin rho) (Fin T) (Fin Ye) type =
    Ok (Fin (dle * rsum (Z.to_nat (nb_NE b)) (fun l => 4 * PI * read (Z.of_nat l) / MeV) + tiny)) /\
  (forall m, (forall k, (k < length (nb_absorption b))%nat -> fresh k = Fin (m k) /\ 0 < m k) ->
     nu_Absorption o (Fin rho) (Fin T) (Fin Ye) type (Fin nu) = Ok (Fin (m (cell e)))).
Proof. exact C41_load_proof. Qed.
Print Assumptions C41_load.

(** The absorption table is not filled from the file: for every file there are contents of
    newly allocated memory for which the absorption coefficient at every node is a number
    that is not in the absorption dataset at that node. *)
Theorem C41_absorption_refuted :
  forall (pc : PhysConst R) (n : Z) (b : nulib), 0 < pc_h pc -> 0 < pc_eV pc -> nulib_ok b ->
  exists fresh t, LoadFromNuLib (finpc pc) fresh (Some (file_of b)) = Ok t /\
  forall i j y e rho T Ye nu type, table_node b kelvin_per_MeV i j y rho T Ye -> energy_node b (hz_per_MeV pc) e nu ->
  (0 <= RadType2Idx type < nb_NS b)%Z ->
  exists v, nu_Absorption (SpinerOpacity n (finpc pc) t) (Fin rho) (Fin T) (Fin Ye) type (Fin nu) = Ok (Fin v) /\
    v <> nth (nb_index b i j y (RadType2Idx type) e) (nb_absorption b) 0.
Proof. exact C41_absorption_refuted_proof. Qed.
Print Assumptions C41_absorption_refuted.

(** Nor does anything in the file decide it: with the same memory, two files of the same
    size give the same absorption table. *)
Theorem C41_absorption_unread :
  forall (pc : PhysConst R) (b b' : nulib) (fresh : nat -> ER),
  0 < pc_h pc -> 0 < pc_eV pc -> nulib_ok b -> nulib_ok b' ->
  nb_NR b' = nb_NR b -> nb_NT b' = nb_NT b -> nb_NY b' = nb_NY b -> nb_NS b' = nb_NS b -> nb_NE b' = nb_NE b ->
  exists t t', LoadFromNuLib (finpc pc) fresh (Some (file_of b)) = Ok t /\ LoadFromNuLib (finpc pc) fresh (Some (file_of b')) = Ok t' /\
  forall i j y s e, (0 <= i < nb_NR b)%Z -> (0 <= j < nb_NT b)%Z -> (0 <= y < nb_NY b)%Z -> (0 <= s < nb_NS b)%Z -> (0 <= e < nb_NE b)%Z ->
  let c := ((((i * nb_NT b + j) * nb_NY b + y) * nb_NS b + s) * nb_NE b + e)%Z in
  at_flat (db_data (sp_alpha t')) c = at_flat (db_data (sp_alpha t)) c.
Proof. exact C41_absorption_unread_proof. Qed.
Print Assumptions C41_absorption_unread.

(** The emissivity dataset is read and overwritten: files that differ only in it load alike,
    and wherever the two datasets of a file differ the emissivity at the node is not that of
    the emissivity dataset. *)
Theorem C41_emissivity_refuted :
  forall (pc : PhysConst R) (n : Z) (b : nulib) (fresh : nat -> ER),
  0 < pc_h pc -> 0 < pc_eV pc -> nulib_ok b ->
  exists t, (forall l, length l = length (nb_emissivities b) ->
     LoadFromNuLib (finpc pc) fresh (Some (file_of (with_emissivities b l))) = Ok t) /\
  LoadFromNuLib (finpc pc) fresh (Some (file_of b)) = Ok t /\
  forall i j y e rho T Ye nu type, table_node b kelvin_per_MeV i j y rho T Ye -> energy_node b (hz_per_MeV pc) e nu ->
  (0 <= RadType2Idx type < nb_NS b)%Z ->
  let k := nb_index b i j y (RadType2Idx type) e in
  nth k (nb_emissivities b) 0 <> nth k (nb_absorption b) 0 ->
  exists v, nu_EmissivityPerNuOmega (SpinerOpacity n (finpc pc) t) (Fin rho) (Fin T) (Fin Ye) type (Fin nu) = Ok (Fin v) /\
    v <> pc_h pc * nth k (nb_emissivities b) 0 / (10 ^ 6 * pc_eV pc).
Proof. exact C41_emissivity_refuted_proof. Qed.
Print Assumptions C41_emissivity_refuted.

(** The emissivity at a node is the integral of 4 pi j over energy divided by ln 10 (the
    spacing of the groups is in decades, and the sum lacks that factor), up to the error of
    the sum: the variation of the integrand between neighbouring groups, and one group too
    many. Likewise the number emissivity. The spectrum j is what the loader takes for it,
    the absorption dataset. *)
Theorem C41_integral :
  forall (pc : PhysConst R) (n : Z) (b : nulib) (fresh : nat -> ER) t i j y rho T Ye type f eps eps',
  0 < pc_h pc -> 0 < pc_eV pc -> nulib_ok b -> LoadFromNuLib (finpc pc) fresh (Some (file_of b)) = Ok t ->
  table_node b kelvin_per_MeV i j y rho T Ye -> (0 <= RadType2Idx type < nb_NS b)%Z ->
  tiny <= first (nb_energy b) ->
  let e0 := first (nb_energy b) in let e1 := final (nb_energy b) in let MeV := 10 ^ 6 * pc_eV pc in
  (forall e, e0 <= e <= e1 -> continuous f e) -> samples b i j y (RadType2Idx type) f ->
  0 <= eps -> varies_less b (fun e => 4 * PI * f e * e) eps -> 0 <= eps' -> varies_less b (fun e => 4 * PI * f e / MeV) eps' ->
  let o := SpinerOpacity n (finpc pc) t in
  exists J N, nu_Emissivity o (Fin rho) (Fin T) (Fin Ye) type = Ok (Fin J) /\
    nu_NumberEmissivity o (Fin rho) (Fin T) (Fin Ye) type = Ok (Fin N) /\
    Rabs (J - (RInt (fun e => 4 * PI * f e) e0 e1 / ln 10 + tiny)) <=
      eps * decades b + group_decades b * Rabs (4 * PI * f e1 * e1) /\
    Rabs (N - (RInt (fun e => 4 * PI * f e / (MeV * e)) e0 e1 / ln 10 + tiny)) <=
      eps' * decades b + group_decades b * Rabs (4 * PI * f e1 / MeV).
Proof. exact C41_integral_proof. Qed.
Print Assumptions C41_integral.

(** The convergence claimed fails. With the factor ln 10 the error of the sum would be at
    most ln 10 times the one above; on a file of 1001 groups and a constant spectrum the
    emissivity misses the integral by more than that. *)
Theorem C41_integral_refuted :
  exists (b : nulib) (f : R -> R) (eps : R),
  nulib_ok b /\ table_node b kelvin_per_MeV 0 0 0 1 kelvin_per_MeV 0 /\ samples b 0 0 0 0 f /\
  (forall e, continuous f e) /\ 0 <= eps /\ varies_less b (fun e => 4 * PI * f e * e) eps /\
  forall fresh n, exists t J, LoadFromNuLib (finpc cgsR) fresh (Some (file_of b)) = Ok t /\
  nu_Emissivity (SpinerOpacity n (finpc cgsR) t) (Fin 1) (Fin kelvin_per_MeV) (Fin 0) NU_ELECTRON = Ok (Fin J) /\
  ln 10 * (eps * decades b + group_decades b * Rabs (4 * PI * f (final (nb_energy b)) * final (nb_energy b))) <
  Rabs (J - (RInt (fun e => 4 * PI * f e) (first (nb_energy b)) (final (nb_energy b)) + tiny)).
Proof. exact C41_integral_refuted_proof. Qed.
Print Assumptions C41_integral_refuted.

(** Any arithmetic: a file that loads contains every dataset, and none of the two big ones is
    longer than the sizes announce. *)
Theorem C41_present :
  forall (T : Type) (O : Ops T) (pc : PhysConst T) (fresh : nat -> T) (file : option (NuLibFile T)) t,
  LoadFromNuLib pc fresh file = Ok t ->
  exists f NR NT NY NE NS rho temp energy ye em ab, file = Some f /\
    nl_nrho f = Some NR /\ nl_ntemp f = Some NT /\ nl_nye f = Some NY /\ nl_number_groups f = Some NE /\ nl_number_species f = Some NS /\
    nl_rho_points f = Some rho /\ nl_temp_points f = Some temp /\ nl_neutrino_energies f = Some energy /\ nl_ye_points f = Some ye /\
    nl_emissivities f = Some em /\ nl_absorption_opacity f = Some ab /\
    (length em <= Z.to_nat (NE * NS * NY * NT * NR))%nat /\ (length ab <= Z.to_nat (NE * NS * NY * NT * NR))%nat.
Proof. exact C41_present_proof. Qed.
Print Assumptions C41_present.

(** The sizes are not checked against the datasets: an absorption dataset longer than
    announced is written past the end of the buffer. *)
Theorem C41_overrun_refuted :
  forall (pc : PhysConst R) (fresh : nat -> ER) (b : nulib) (extra : list R), nulib_ok b -> extra <> [] ->
  LoadFromNuLib (finpc pc) fresh (Some (file_of {|
    nb_NR := nb_NR b; nb_NT := nb_NT b; nb_NY := nb_NY b; nb_NS := nb_NS b; nb_NE := nb_NE b;
    nb_rho := nb_rho b; nb_temp := nb_temp b; nb_ye := nb_ye b; nb_energy := nb_energy b;
    nb_emissivities := nb_emissivities b; nb_absorption := nb_absorption b ++ extra |})) = UB.
Proof. exact C41_overrun_refuted_proof. Qed.
Print Assumptions C41_overrun_refuted.

(** an example for the hypotheses: a file with two groups, three species and different
    datasets, loaded and asked at its first node; the emissivity answered is that of the
    absorption dataset, 5, and not 2 *)
Example C41_load_example_holds : let b := flat_file 2 2 5 in let nu := (1 - tiny) * hz_per_MeV cgsR in
  nulib_ok b /\ table_node b kelvin_per_MeV 0 0 0 1 kelvin_per_MeV 0 /\ energy_node b (hz_per_MeV cgsR) 0 nu /\
  exists t, LoadFromNuLib (finpc cgsR) (fun _ => Fin 7) (Some (file_of b)) = Ok t /\
  nu_EmissivityPerNuOmega (SpinerOpacity 3 (finpc cgsR) t) (Fin 1) (Fin kelvin_per_MeV) (Fin 0) NU_HEAVY (Fin nu) =
    Ok (Fin (pc_h cgsR * 5 / (10 ^ 6 * pc_eV cgsR))) /\
  nu_Absorption (SpinerOpacity 3 (finpc cgsR) t) (Fin 1) (Fin kelvin_per_MeV) (Fin 0) NU_HEAVY (Fin nu) = Ok (Fin 7).
Proof. exact C41_load_example. Qed.
