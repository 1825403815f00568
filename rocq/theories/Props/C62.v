(** C62. Group averages in double precision: as accurate as their terms. *)
From Coquelicot Require Import Coquelicot.
From Coq Require Import Reals ZArith List Lra Lia Bool.
From Flocq Require Import Core IEEE754.BinarySingleNaN.
From Verif Require Import Proofs.C62 Base.Outcome Base.Ops Inst.B64 Model.Constants Model.Robust Model.RadTypes Model.Spiner Model.MeanUtils
  Model.MeanPhotons Model.MeanNeutrinos Model.PhotonApi Model.GrayPhotons Spec.Physics Spec.Arrays Spec.Means Spec.Tables Spec.DoublePrecision Spec.DoubleMeans
  Proofs.ArrayFacts Proofs.B64Facts Proofs.Near Proofs.NearRules Proofs.NearPhotons Proofs.App Proofs.DoubleMeans Proofs.TableFacts Proofs.MeanFacts Proofs.C20 Proofs.C56 Proofs.Weights Proofs.Perturb Proofs.FillFacts Proofs.NarrowGroup.
Import ListNotations.
Open Scope R_scope.

(** Photons, any mathematical library: the two means of a group are the weighted arithmetic
    and harmonic mean of the sampled opacities, up to about two roundings per sample. The
    frequencies, the weights and the coefficients are the doubles the code computes. *)
Theorem C62_photons :
  forall (L : Libm) (pc : PhysConst b64) (coef : b64 -> b64 -> b64 -> result b64) (rho temp lo hi : b64) (N : Z) (alpha : nat -> b64),
  let O := B64_ops L in
  let n := Z.to_nat N in
  let win := @sample_window b64 O pc temp lo hi in
  let nu := @sample_nu b64 O win N in
  let B := fun i => fst (@ThermalWeightsAtNu b64 O pc temp (nu i)) in
  let D := fun i => snd (@ThermalWeightsAtNu b64 O pc temp (nu i)) in
  let d := fun i => @Omul b64 O (nu i) (@sample_dlnu b64 O win N) in
  physical rho -> (forall i, (i < n)%nat -> coef rho temp (nu i) = Ok (alpha i)) -> regular n alpha B D d ->
  exists a b, @group_nums b64 O pc coef rho temp lo hi N = Ok a /\ @group_denoms b64 O pc temp lo hi N = Ok b /\
    means_of n rho alpha B D d (@planck_mean b64 O (fst a) (fst b)) (@rosseland_mean b64 O (snd a) (snd b)).
Proof. exact C62_photons_proof. Qed.
Print Assumptions C62_photons.

(** Neutrinos, the same: [dist] and [ddist] are the thermal distribution and its derivative. *)
Theorem C62_neutrinos :
  forall (L : Libm) (coef : b64 -> b64 -> b64 -> RadiationType -> b64 -> result b64) (dist ddist : b64 -> RadiationType -> b64 -> result b64)
    (rho temp Ye : b64) (type : RadiationType) (lNuMin dl : b64) (N : Z) (alpha B D nu : nat -> b64),
  let O := B64_ops L in
  let n := Z.to_nat N in
  (forall i, nu i = @FromLog b64 O (@Oadd b64 O lNuMin (@Omul b64 O (@Oadd b64 O (@OofZ b64 O (Z.of_nat i)) (@Odec b64 O 5 (-1))) dl))) ->
  physical rho ->
  (forall i, (i < n)%nat -> coef rho temp Ye type (nu i) = Ok (alpha i) /\ dist temp type (nu i) = Ok (B i) /\ ddist temp type (nu i) = Ok (D i)) ->
  nu_regular n alpha B D nu dl ->
  exists a, for_int N (@nu_step b64 O coef dist ddist rho temp Ye type lNuMin dl) (@zero_sums b64 O) = Ok a /\
    nu_means_of n rho alpha B D nu dl (fst (@nu_means b64 O a)) (snd (@nu_means b64 O a)).
Proof. exact C62_neutrinos_proof. Qed.
Print Assumptions C62_neutrinos.

(** Whatever the weights: if every sampled opacity alpha / rho lies between two numbers, so do
    the means, up to the roundings. *)
Theorem C62_between :
  forall n rho alpha B D d p r kmin kmax, 0 < kmin ->
  regular n alpha B D d -> means_of n rho alpha B D d p r ->
  (forall i, (i < n)%nat -> kmin <= B2R (alpha i) / B2R rho <= kmax) ->
  between (mean_roundings n) kmin kmax p /\ between (mean_roundings n) kmin kmax r.
Proof. exact C62_between_proof. Qed.
Print Assumptions C62_between.

(** Photons in cgs units, with an accurate library: the means are those of the sampled
    opacities weighted with the exact Planck function and its exact derivative, up to two
    roundings per sample and 15 per unit of h nu / kT, wherever the step of the logarithm of
    the frequency is not tiny. *)
Theorem C62_planck :
  forall (L : Libm) (coef : b64 -> b64 -> b64 -> result b64) (rho temp lo hi : b64) (N : Z) (alpha : nat -> b64) (X : R),
  accurate_libm L -> graceful_libm L ->
  let O := B64_ops L in
  let pc := @PhysicalConstantsCGS b64 O in
  let n := Z.to_nat N in
  let win := @sample_window b64 O pc temp lo hi in
  let nu := @sample_nu b64 O win N in
  let k := fun i => B2R (alpha i) / B2R rho in
  let B := fun i => planck_weight (B2R temp) (B2R (nu i)) in
  let D := fun i => rosseland_weight (B2R temp) (B2R (nu i)) in
  physical rho -> physical temp -> 1 <= B2R temp -> physical (@sample_dlnu b64 O win N) -> INR n <= 500000000 ->
  (forall i, (i < n)%nat -> coef rho temp (nu i) = Ok (alpha i) /\ physical (alpha i) /\ physical (nu i) /\
     h_cgs * B2R (nu i) / (k_cgs * B2R temp) <= X) ->
  / 2 ^ 100 <= rsum n B -> / 2 ^ 100 <= rsum n D ->
  exists a b, @group_nums b64 O pc coef rho temp lo hi N = Ok a /\ @group_denoms b64 O pc temp lo hi N = Ok b /\
    within (group_roundings n X) (@planck_mean b64 O (fst a) (fst b)) (arithmetic_mean n B k) /\
    within (group_roundings n X) (@rosseland_mean b64 O (snd a) (snd b)) (harmonic_mean n D k).
Proof. exact C62_planck_proof. Qed.
Print Assumptions C62_planck.

(** The means of a gray opacity are its opacity, up to the roundings. *)
Theorem C62_gray :
  forall (L : Libm) (pc : PhysConst b64) (kappa rho temp lo hi : b64) (N : Z),
  let O := B64_ops L in
  let n := Z.to_nat N in
  let win := @sample_window b64 O pc temp lo hi in
  let nu := @sample_nu b64 O win N in
  let alpha := @Omul b64 O rho kappa in
  let B := fun i => fst (@ThermalWeightsAtNu b64 O pc temp (nu i)) in
  let D := fun i => snd (@ThermalWeightsAtNu b64 O pc temp (nu i)) in
  let d := fun i => @Omul b64 O (nu i) (@sample_dlnu b64 O win N) in
  physical rho -> physical kappa -> regular n (fun _ => alpha) B D d ->
  exists a b, @group_nums b64 O pc (ph_Absorption (@GrayOpacity b64 O pc kappa)) rho temp lo hi N = Ok a /\
    @group_denoms b64 O pc temp lo hi N = Ok b /\
    within (mean_roundings n + 2) (@planck_mean b64 O (fst a) (fst b)) (B2R kappa) /\
    within (mean_roundings n + 2) (@rosseland_mean b64 O (snd a) (snd b)) (B2R kappa).
Proof. exact C62_gray_proof. Qed.
Print Assumptions C62_gray.

(** Every cell of a photon table: it stores the logarithms of two doubles, and these are the
    means of the samples of its group at its density and temperature. *)
Theorem C62_table :
  forall (L : Libm) (pc : PhysConst b64) (dbg : bool) (opc : RuntimePC b64) (coef : b64 -> b64 -> b64 -> result b64)
    (lr0 lr1 lt0 lt1 : b64) (NRho NT ng N : Z) (gb : list b64) (m : @MeanTable b64),
  let O := B64_ops L in
  let n := Z.to_nat N in
  @MeanImpl b64 O pc dbg opc coef lr0 lr1 NRho lt0 lt1 NT gb ng N = Ok m ->
  exists gT gRho, @mk_grid b64 O lt0 lt1 NT = Ok gT /\ @mk_grid b64 O lr0 lr1 NRho = Ok gRho /\
  forall a b c, (Z.of_nat a < NRho)%Z -> (Z.of_nat b < NT)%Z -> (Z.of_nat c < ng)%Z ->
  let at_cell := Z.to_nat ((Z.of_nat a * NT + Z.of_nat b) * ng + Z.of_nat c) in
  let rho := @FromLog b64 O (@g_x b64 O gRho (Z.of_nat a)) in
  let temp := @FromLog b64 O (@g_x b64 O gT (Z.of_nat b)) in
  exists lo hi p r, nth_error gb c = Some lo /\ nth_error gb (S c) = Some hi /\
    nth_error (db_data (mt_lPlanck m)) at_cell = Some (@ToLog b64 O p) /\
    nth_error (db_data (mt_lRosseland m)) at_cell = Some (@ToLog b64 O r) /\
    let win := @sample_window b64 O pc temp lo hi in
    let nu := @sample_nu b64 O win N in
    let B := fun i => fst (@ThermalWeightsAtNu b64 O pc temp (nu i)) in
    let D := fun i => snd (@ThermalWeightsAtNu b64 O pc temp (nu i)) in
    let d := fun i => @Omul b64 O (nu i) (@sample_dlnu b64 O win N) in
    forall alpha, physical rho -> (forall i, (i < n)%nat -> coef rho temp (nu i) = Ok (alpha i)) -> regular n alpha B D d ->
      means_of n rho alpha B D d p r.
Proof. exact C62_table_proof. Qed.
Print Assumptions C62_table.

(** Every cell of a neutrino table, the same. *)
Theorem C62_nu_table :
  forall (L : Libm) (pc : PhysConst b64) (coef : b64 -> b64 -> b64 -> RadiationType -> b64 -> result b64)
    (dist ddist : b64 -> RadiationType -> b64 -> result b64) (inside : bool) (lr0 lr1 lt0 lt1 y0 y1 : b64) (NRho NT NYe N : Z)
    (range : option (b64 * b64)) (m : @NuMeanTable b64),
  let O := B64_ops L in
  let n := Z.to_nat N in
  (inside = false \/ 0 < N)%Z ->
  @nu_impl b64 O pc coef dist ddist inside lr0 lr1 NRho lt0 lt1 NT y0 y1 NYe range N = Ok m ->
  exists gYe gT gRho l0 l1, @mk_grid b64 O y0 y1 NYe = Ok gYe /\ @mk_grid b64 O lt0 lt1 NT = Ok gT /\ @mk_grid b64 O lr0 lr1 NRho = Ok gRho /\
  (forall r, range = Some r -> (l0, l1) = r) /\
  forall a b y k, (Z.of_nat a < NRho)%Z -> (Z.of_nat b < NT)%Z -> (Z.of_nat y < NYe)%Z -> (Z.of_nat k < 3)%Z ->
  let at_cell := Z.to_nat (((Z.of_nat a * NT + Z.of_nat b) * NYe + Z.of_nat y) * 3 + Z.of_nat k) in
  let rho := @FromLog b64 O (@g_x b64 O gRho (Z.of_nat a)) in
  let temp := @FromLog b64 O (@g_x b64 O gT (Z.of_nat b)) in
  let Ye := @g_x b64 O gYe (Z.of_nat y) in
  exists type p r, Idx2RadType (Z.of_nat k) = Ok type /\
    nth_error (db_data (nm_lPlanck m)) at_cell = Some (@ToLog b64 O p) /\
    nth_error (db_data (nm_lRosseland m)) at_cell = Some (@ToLog b64 O r) /\
    let dl := @Odiv b64 O (@Osub b64 O l1 l0) (@OofZ b64 O N) in
    let nu := fun i => @FromLog b64 O (@Oadd b64 O l0 (@Omul b64 O (@Oadd b64 O (@OofZ b64 O (Z.of_nat i)) (@Odec b64 O 5 (-1))) dl)) in
    forall alpha B D, physical rho ->
      (forall i, (i < n)%nat -> coef rho temp Ye type (nu i) = Ok (alpha i) /\ dist temp type (nu i) = Ok (B i) /\ ddist temp type (nu i) = Ok (D i)) ->
      nu_regular n alpha B D nu dl -> nu_means_of n rho alpha B D nu dl p r.
Proof. exact C62_nu_table_proof. Qed.
Print Assumptions C62_nu_table.

(** Bounds may be so close that their logarithms are the same double. The constructor accepts
    them, the step is zero, and both means are zero whatever the opacity: with a library that
    is accurate, whose log10 is correctly rounded, at 32768 K and about 1.1e15 Hz. *)
Theorem C62_narrow_refuted :
  exists L lo hi temp, accurate_libm L /\ graceful_libm L /\ nearest_log10 L /\
  let O := B64_ops L in
  let pc := @PhysicalConstantsCGS b64 O in
  physical lo /\ physical hi /\ physical temp /\ B2R lo < B2R hi /\ @ValidateGroupBounds b64 O [lo; hi] 1 = Ok tt /\
  @sample_window b64 O pc temp lo hi = (lo, hi) /\
  forall (coef : b64 -> b64 -> b64 -> result b64) (rho : b64) (N : Z), physical rho -> (1 <= N <= 500000000)%Z ->
    (forall nu, physical nu -> exists al, coef rho temp nu = Ok al /\ physical al) ->
    exists a b, @group_nums b64 O pc coef rho temp lo hi N = Ok a /\ @group_denoms b64 O pc temp lo hi N = Ok b /\
      let p := @planck_mean b64 O (fst a) (fst b) in
      let r := @rosseland_mean b64 O (snd a) (snd b) in
      is_finite p = true /\ B2R p = 0 /\ is_finite r = true /\ B2R r = 0.
Proof. exact C62_narrow_refuted_proof. Qed.
Print Assumptions C62_narrow_refuted.

(** Two samples between 10^17 and 10^19 Hz at 10^7 K, with an opacity proportional to the
    frequency: the hypotheses of C62_planck hold. *)
Example C62_planck_example_holds :
  exists L coef rho temp lo hi N alpha X, accurate_libm L /\ graceful_libm L /\
  let O := B64_ops L in
  let pc := @PhysicalConstantsCGS b64 O in
  let n := Z.to_nat N in
  let win := @sample_window b64 O pc temp lo hi in
  let nu := @sample_nu b64 O win N in
  let B := fun i => planck_weight (B2R temp) (B2R (nu i)) in
  let D := fun i => rosseland_weight (B2R temp) (B2R (nu i)) in
  n = 2%nat /\ physical rho /\ physical temp /\ 1 <= B2R temp /\ physical (@sample_dlnu b64 O win N) /\ INR n <= 500000000 /\
  (forall i, (i < n)%nat -> coef rho temp (nu i) = Ok (alpha i) /\ physical (alpha i) /\ physical (nu i) /\
     h_cgs * B2R (nu i) / (k_cgs * B2R temp) <= X) /\
  / 2 ^ 100 <= rsum n B /\ / 2 ^ 100 <= rsum n D.
Proof. exact C62_planck_example. Qed.

(** There the samples are regular, and at density 1 a gray opacity 1 has regular samples too:
    the hypotheses of C62_photons, C62_between and C62_gray hold. *)
Example C62_photons_example_holds :
  exists L coef rho temp lo hi N alpha kappa,
  let O := B64_ops L in
  let pc := @PhysicalConstantsCGS b64 O in
  let n := Z.to_nat N in
  let win := @sample_window b64 O pc temp lo hi in
  let nu := @sample_nu b64 O win N in
  let B := fun i => fst (@ThermalWeightsAtNu b64 O pc temp (nu i)) in
  let D := fun i => snd (@ThermalWeightsAtNu b64 O pc temp (nu i)) in
  let d := fun i => @Omul b64 O (nu i) (@sample_dlnu b64 O win N) in
  n = 2%nat /\ physical rho /\ (forall i, (i < n)%nat -> coef rho temp (nu i) = Ok (alpha i)) /\ regular n alpha B D d /\
  (forall i, (i < n)%nat -> 10 ^ 17 <= B2R (alpha i) / B2R rho <= 10 ^ 19) /\
  physical kappa /\ regular n (fun _ => @Omul b64 O rho kappa) B D d.
Proof. exact C62_photons_example. Qed.

(** A table of two densities, two temperatures and one group from 10^17 to 10^19 Hz can be
    built, and the samples of its first cell are regular: C62_table. *)
Example C62_table_example_holds :
  exists L pc opc coef lr0 lr1 lt0 lt1 gb m,
  let O := B64_ops L in
  @MeanImpl b64 O pc false opc coef lr0 lr1 2 lt0 lt1 2 gb 1 2 = Ok m /\
  forall gT gRho, @mk_grid b64 O lt0 lt1 2 = Ok gT -> @mk_grid b64 O lr0 lr1 2 = Ok gRho ->
  let rho := @FromLog b64 O (@g_x b64 O gRho 0) in
  let temp := @FromLog b64 O (@g_x b64 O gT 0) in
  exists lo hi, gb = [lo; hi] /\
    let win := @sample_window b64 O pc temp lo hi in
    let nu := @sample_nu b64 O win 2 in
    let B := fun i => fst (@ThermalWeightsAtNu b64 O pc temp (nu i)) in
    let D := fun i => snd (@ThermalWeightsAtNu b64 O pc temp (nu i)) in
    let d := fun i => @Omul b64 O (nu i) (@sample_dlnu b64 O win 2) in
    exists alpha, physical rho /\ (forall i, (i < 2)%nat -> coef rho temp (nu i) = Ok (alpha i)) /\ regular 2 alpha B D d.
Proof. exact C62_table_example. Qed.

(** A neutrino table of two densities, two temperatures and two electron fractions, with
    constant distributions and an opacity equal to the frequency: C62_neutrinos, C62_nu_table. *)
Example C62_nu_table_example_holds :
  exists L pc coef dist ddist lr0 lr1 lt0 lt1 y0 y1 l0 l1 m,
  let O := B64_ops L in
  @nu_impl b64 O pc coef dist ddist false lr0 lr1 2 lt0 lt1 2 y0 y1 2 (Some (l0, l1)) 2 = Ok m /\
  forall gT gRho gYe type, @mk_grid b64 O lt0 lt1 2 = Ok gT -> @mk_grid b64 O lr0 lr1 2 = Ok gRho -> @mk_grid b64 O y0 y1 2 = Ok gYe ->
  let rho := @FromLog b64 O (@g_x b64 O gRho 0) in
  let temp := @FromLog b64 O (@g_x b64 O gT 0) in
  let Ye := @g_x b64 O gYe 0 in
  let dl := @Odiv b64 O (@Osub b64 O l1 l0) (@OofZ b64 O 2) in
  let nu := fun i => @FromLog b64 O (@Oadd b64 O l0 (@Omul b64 O (@Oadd b64 O (@OofZ b64 O (Z.of_nat i)) (@Odec b64 O 5 (-1))) dl)) in
  exists alpha B D, physical rho /\
    (forall i, (i < 2)%nat -> coef rho temp Ye type (nu i) = Ok (alpha i) /\ dist temp type (nu i) = Ok (B i) /\ ddist temp type (nu i) = Ok (D i)) /\
    nu_regular 2 alpha B D nu dl.
Proof. exact C62_nu_table_example. Qed.
