(** C56. The closed-form results are accurate in double precision. *)
From Coquelicot Require Import Coquelicot.
From Coq Require Import Reals ZArith Lra Lia Bool.
From Flocq Require Import Core IEEE754.BinarySingleNaN Relative.
From Verif Require Import Base.Outcome Base.Ops Inst.B64 Model.Constants Model.RadTypes Model.PhotonApi Model.NeutrinoApi
  Model.Robust Model.ThermalPhotons Model.GrayPhotons Model.PowerLawPhotons Model.EPBremsPhotons Model.ScatteringPhotons
  Model.ThermalNeutrinos Model.OpacNeutrinos Spec.Physics Spec.Opacities Spec.DoublePrecision Spec.DoubleFormulas
  Proofs.B64Facts Proofs.PlanckFacts Proofs.C20 Proofs.Near Proofs.NearConsts Proofs.NearRules Proofs.NearPhotons Proofs.NearNeutrinos.
Open Scope R_scope.

Lemma near_returns n a b x r k q : near n a b x r -> q = Ok x -> n * (1002 / 1000) <= k -> n <= 2 ^ 40 -> returns q k r.
Proof. intros H E K B. exists x. split; [exact E|]. exact (near_within n a b x r k H K B). Qed.

Lemma consts_pos : 0 < h_cgs /\ 0 < k_cgs /\ 0 < c_cgs.
Proof. unfold h_cgs, k_cgs, c_cgs. repeat split; try lra; apply Rdiv_lt_0_compat; try lra; apply pow_lt; lra. Qed.
Lemma physical_pos x : physical x -> 0 < B2R x.
Proof. intros [_ [H _]]. assert (0 < / 2 ^ 100) by (apply Rinv_0_lt_compat, pow_lt; lra). lra. Qed.
Lemma x_pos temp nu : physical temp -> physical nu -> 0 < h_cgs * B2R nu / (k_cgs * B2R temp).
Proof.
  intros Ht Hn. apply physical_pos in Ht, Hn. destruct consts_pos as (A & B & _).
  apply Rdiv_lt_0_compat; apply Rmult_lt_0_compat; assumption.
Qed.

Lemma dPlanck_value t nu D : 0 < t -> 0 < nu ->
  is_derive (fun t => Planck_B h_cgs k_cgs c_cgs t nu) t D -> D = dPlanck t nu.
Proof.
  intros Ht Hn HD. destruct consts_pos as (A & B & C).
  rewrite (is_derive_eq _ _ _ _ HD (Planck_dT_value h_cgs k_cgs c_cgs t nu A B C Ht Hn)).
  unfold dPlanck, gB. cbv zeta. set (x := h_cgs * nu / (k_cgs * t)).
  assert (X : 0 < x) by (apply Rdiv_lt_0_compat; apply Rmult_lt_0_compat; assumption).
  assert (E : 1 < exp x) by (pose proof (exp_ineq1 x ltac:(lra)); lra).
  assert (Q : x * (k_cgs * t) = h_cgs * nu) by (unfold x; field; lra).
  rewrite exp_Ropp. replace (2 * h_cgs ^ 2 * nu ^ 4) with (2 * (h_cgs * nu) ^ 2 * nu ^ 2) by ring. rewrite <- Q.
  match goal with |- ?a = ?b => change (@eq R a b) end. field. repeat split; lra.
Qed.
Lemma dFermi_value t nu D : 0 < t -> 0 < nu ->
  is_derive (fun t => FermiDirac_B 3 h_cgs k_cgs c_cgs t nu) t D -> D = dFermi t nu.
Proof.
  intros Ht Hn HD. destruct consts_pos as (A & B & C).
  rewrite (is_derive_eq _ _ _ _ HD (FD_dT_value 3 h_cgs k_cgs c_cgs t nu A B C Ht Hn)).
  unfold dFermi, gF. cbv zeta. set (x := h_cgs * nu / (k_cgs * t)).
  rewrite exp_Ropp. pose proof (exp_pos x). match goal with |- ?a = ?b => change (@eq R a b) end. field. repeat split; try lra.
  assert (0 < exp x * exp x) by (apply Rmult_lt_0_compat; lra). lra.
Qed.

(** ** Photons *)

(** Planck's law, for every photon opacity: the call for the spectrum returns it to
    17 + 7 h nu / (k T) roundings.  The bound grows with h nu / (k T) because the
    exponential magnifies the rounding of its argument. *)
Lemma C56_spectrum_proof : forall (L : Libm) (o : PhotonOpac b64) (temp nu : b64),
  let O := B64_ops L in
  let x := h_cgs * B2R nu / (k_cgs * B2R temp) in
  let B := Planck_B h_cgs k_cgs c_cgs (B2R temp) (B2R nu) in
  accurate_libm L -> @photon_opacity b64 O (@PhysicalConstantsCGS b64 O) o ->
  physical temp -> physical nu -> x <= 680 -> not_tiny B ->
  returns (ph_ThermalDistributionOfTNu o temp nu) (17 + 7 * x) B.
Proof.
  intros L o temp nu.
  intros O x B HL Ho Ht Hn Hx HB. pose proof (x_pos temp nu Ht Hn) as X0. fold x in X0.
  pose proof (near_planck L HL temp nu Ht Hn Hx HB) as N. change (h_cgs * V nu / (k_cgs * V temp)) with x in N.
  apply (near_returns _ _ _ _ _ _ _ N); [|rs|rs].
  destruct Ho as [[k ->]|[[p ->]| ->]]; reflexivity.
Qed.

(** ... and its derivative in the temperature: the call returns the derivative of
    Planck's law to 34 + 7 h nu / (k T) roundings. *)
Lemma C56_derivative_proof : forall (L : Libm) (o : PhotonOpac b64) (temp nu : b64) (D : R),
  let O := B64_ops L in
  let x := h_cgs * B2R nu / (k_cgs * B2R temp) in
  accurate_libm L -> @photon_opacity b64 O (@PhysicalConstantsCGS b64 O) o ->
  physical temp -> physical nu -> x <= 680 ->
  is_derive (fun t => Planck_B h_cgs k_cgs c_cgs t (B2R nu)) (B2R temp) D -> not_tiny D ->
  returns (ph_DThermalDistributionOfTNuDT o temp nu) (34 + 7 * x) D.
Proof.
  intros L o temp nu D.
  intros O x HL Ho Ht Hn Hx HD HB. pose proof (x_pos temp nu Ht Hn) as X0. fold x in X0.
  rewrite (dPlanck_value _ _ _ (physical_pos _ Ht) (physical_pos _ Hn) HD) in *.
  pose proof (near_planck_dT L HL temp nu Ht Hn Hx HB) as N. cbv zeta in N. change (h_cgs * V nu / (k_cgs * V temp)) with x in N.
  apply (near_returns _ _ _ _ _ _ _ N); [|rs|rs].
  destruct Ho as [[k ->]|[[p ->]| ->]]; reflexivity.
Qed.

(** The integrated thermal functions of every photon opacity are accurate at every
    temperature from 2^-100 to 2^100 K: radiated energy and energy density (29 and 30
    roundings), number of photons and number density (27 and 28; relative to the
    five-digit zeta(3) of the code). *)
Lemma C56_totals_proof : forall (L : Libm) (o : PhotonOpac b64) (temp : b64),
  let O := B64_ops L in
  let t := B2R temp in
  let a := a_rad h_cgs k_cgs c_cgs in
  accurate_libm L -> @photon_opacity b64 O (@PhysicalConstantsCGS b64 O) o -> physical temp ->
  returns (ph_ThermalDistributionOfT o temp) 29 (c_cgs * a * t ^ 4) /\
  returns (ph_EnergyDensityFromTemperature o temp) 30 (a * t ^ 4) /\
  returns (ph_ThermalNumberDistributionOfT o temp) 27 (number_cgs t) /\
  returns (ph_NumberDensityFromTemperature o temp) 28 (number_cgs t / c_cgs).
Proof.
  intros L o temp.
  intros O t a HL Ho Ht. repeat split.
  - apply (near_returns _ _ _ _ _ _ _ (near_planck_T L HL temp Ht)); [|rs|rs].
    destruct Ho as [[k ->]|[[p ->]| ->]]; reflexivity.
  - apply (near_returns _ _ _ _ _ _ _ (near_energy L HL temp Ht)); [|rs|rs].
    destruct Ho as [[k ->]|[[p ->]| ->]]; reflexivity.
  - apply (near_returns _ _ _ _ _ _ _ (near_number_T L HL temp Ht)); [|rs|rs].
    destruct Ho as [[k ->]|[[p ->]| ->]]; reflexivity.
  - apply (near_returns _ _ _ _ _ _ _ (near_number L HL temp Ht)); [|rs|rs].
    destruct Ho as [[k ->]|[[p ->]| ->]]; reflexivity.
Qed.

(** The temperature of a given energy density, for every photon opacity and every
    energy density from 2^-640 to 2^640: (e/a)^(1/4) to 11 roundings.  Going to the
    energy density and back returns the temperature to 19 roundings. *)
Lemma C56_temperature_proof : forall (L : Libm) (o : PhotonOpac b64) (er temp : b64),
  let O := B64_ops L in
  accurate_libm L -> @photon_opacity b64 O (@PhysicalConstantsCGS b64 O) o ->
  is_finite er = true -> / 2 ^ 640 <= B2R er <= 2 ^ 640 -> physical temp ->
  returns (ph_TemperatureFromEnergyDensity o er) 11 (Rpower (B2R er / a_rad h_cgs k_cgs c_cgs) (/ 4)) /\
  returns (bind (ph_EnergyDensityFromTemperature o temp) (ph_TemperatureFromEnergyDensity o)) 19 (B2R temp).
Proof.
  intros L o er temp.
  intros O HL Ho Fe He Ht. split.
  - assert (N : near 0 (-640) 640 er (B2R er)).
    { apply near_exact; [exact Fe|reflexivity|]. rewrite two_pow_bp in He.
      change (Z.of_nat 640) with 640%Z in He. change (-640)%Z with (- (640))%Z. rewrite bpow_opp. exact He. }
    apply (near_returns _ _ _ _ _ _ _ (near_temperature L HL _ _ _ N ltac:(lra))); [|rs|rs].
    destruct Ho as [[k ->]|[[p ->]| ->]]; reflexivity.
  - apply (near_returns _ _ _ _ _ _ _ (near_roundtrip L HL temp Ht)); [|rs|rs].
    destruct Ho as [[k ->]|[[p ->]| ->]]; reflexivity.
Qed.

(** The gray opacity: absorption to 2 roundings, emission per frequency to
    20 + 7 h nu / (k T) (23 for all directions), in total to 32, the number to 29. *)
Lemma C56_gray_proof : forall (L : Libm) (kappa rho temp nu : b64),
  let O := B64_ops L in
  let pc := @PhysicalConstantsCGS b64 O in
  let o := @GrayOpacity b64 O pc kappa in
  let x := h_cgs * B2R nu / (k_cgs * B2R temp) in
  let B := Planck_B h_cgs k_cgs c_cgs (B2R temp) (B2R nu) in
  let j := B2R rho * B2R kappa * B in
  accurate_libm L -> physical kappa -> physical rho -> physical temp -> physical nu ->
  returns (ph_Absorption o rho temp nu) 2 (B2R rho * B2R kappa) /\
  returns (ph_Emissivity o rho temp) 32 (B2R rho * B2R kappa * (c_cgs * a_rad h_cgs k_cgs c_cgs * B2R temp ^ 4)) /\
  returns (ph_NumberEmissivity o rho temp) 29 (B2R kappa * number_cgs (B2R temp)) /\
  (x <= 680 -> not_tiny B -> not_tiny j ->
   returns (ph_EmissivityPerNuOmega o rho temp nu) (20 + 7 * x) j /\
   returns (ph_EmissivityPerNu o rho temp nu) (23 + 7 * x) (4 * PI * j)).
Proof.
  intros L kappa rho temp nu.
  intros O pc o x B j HL Hk Hr Ht Hn. pose proof (x_pos temp nu Ht Hn) as X0. fold x in X0.
  pose proof (near_gray_alpha L kappa rho temp nu Hk Hr) as NA.
  pose proof (near_planck_T L HL temp Ht) as NT. pose proof (near_number_T L HL temp Ht) as NN.
  pose proof (near_in _ Hk) as NK.
  split; [|split; [|split]].
  - apply (near_returns _ _ _ _ _ _ _ NA); [reflexivity|rs|rs].
  - assert (N := n_mul L _ _ _ _ _ _ _ _ _ _ NA NT ltac:(zs) ltac:(zs) ltac:(rs)).
    apply (near_returns _ _ _ _ _ _ _ N); [reflexivity|rs|rs].
  - assert (N := n_mul L _ _ _ _ _ _ _ _ _ _ NK NN ltac:(zs) ltac:(zs) ltac:(rs)).
    apply (near_returns _ _ _ _ _ _ _ N); [reflexivity|rs|rs].
  - intros Hx HB HJ. pose proof (near_planck L HL temp nu Ht Hn Hx HB) as NB. cbv zeta in NB.
    change (h_cgs * V nu / (k_cgs * V temp)) with x in NB.
    assert (NJ := near_gray_jnu L kappa rho temp nu _ _ _ Hk Hr NB ltac:(rs) HJ). split.
    + apply (near_returns _ _ _ _ _ _ _ NJ); [reflexivity|rs|rs].
    + assert (N4 := near_4pi L _ _ _ _ _ NJ ltac:(zs) ltac:(zs) ltac:(rs)).
      apply (near_returns _ _ _ _ _ _ _ N4); [reflexivity|rs|rs].
Qed.

(** The power law, with exponents whose sizes add up to s: absorption to 3 s + 19
    roundings, emission per frequency to 3 s + 40 + 7 h nu / (k T), and, where the total
    is defined (no power of the frequency), the total to 3 s + 40. *)
Lemma C56_powerlaw_proof : forall (L : Libm) (p : PowerLawParams b64) (rho temp nu : b64),
  let O := B64_ops L in
  let pc := @PhysicalConstantsCGS b64 O in
  let o := @PowerLawOpacity b64 O pc p in
  let s := exps p in
  let x := h_cgs * B2R nu / (k_cgs * B2R temp) in
  let B := Planck_B h_cgs k_cgs c_cgs (B2R temp) (B2R nu) in
  let kappa := powerlaw_R p (B2R rho) (B2R temp) (B2R nu) * stimulated p (B2R temp) (B2R nu) in
  let j := B2R rho * kappa * B in
  accurate_libm L -> powerlaw_ok p rho temp nu ->
  returns (ph_Absorption o rho temp nu) (3 * s + 19) (B2R rho * kappa) /\
  (x <= 680 -> not_tiny B -> not_tiny j -> j <= 2 ^ 1000 ->
   returns (ph_EmissivityPerNuOmega o rho temp nu) (3 * s + 40 + 7 * x) j /\
   returns (ph_EmissivityPerNu o rho temp nu) (3 * s + 43 + 7 * x) (4 * PI * j)) /\
  (let J := B2R rho * powerlaw_R p (B2R rho) (B2R temp) (B2R nu) * (c_cgs * a_rad h_cgs k_cgs c_cgs * B2R temp ^ 4) in
   B2R (pl_nu_exp p) = 0 -> not_tiny J -> J <= 2 ^ 1000 -> 
   returns (ph_Emissivity o rho temp) (3 * s + 40) J).
Proof.
  intros L p rho temp nu.
  intros O pc o s x B kappa j HL H. pose proof (exps_bound p rho temp nu H) as S. fold s in S.
  pose proof (near_powerlaw_alpha L HL p rho temp nu H) as NA. fold s in NA.
  assert (Ht : physical temp) by apply H. assert (Hn : physical nu) by apply H. assert (Hr : physical rho) by apply H.
  pose proof (x_pos temp nu Ht Hn) as X0. fold x in X0.
  split; [|split].
  - apply (near_returns _ _ _ _ _ _ _ NA); [reflexivity|rs|rs].
  - intros Hx HB HJ HJ'. pose proof (near_planck L HL temp nu Ht Hn Hx HB) as NB. cbv zeta in NB.
    change (h_cgs * V nu / (k_cgs * V temp)) with x in NB.
    assert (R : bp (-1000) <= B2R rho * kappa * B <= bp 1000).
    { split; [apply range_hyp, HJ|]. rewrite two_pow_bp in HJ'. exact HJ'. }
    assert (NJ := near_mul_range _ _ _ _ _ _ _ _ _ _ _ _ NA NB R ltac:(zs) ltac:(zs) ltac:(rs)). split.
    + apply (near_returns _ _ _ _ _ _ _ NJ); [reflexivity|rs|rs].
    + assert (N4 := near_4pi L _ _ _ _ _ NJ ltac:(zs) ltac:(zs) ltac:(rs)).
      apply (near_returns _ _ _ _ _ _ _ N4); [reflexivity|rs|rs].
  - intros J E HJ HJ'. pose proof (near_powerlaw_prefactor L HL p rho temp nu H) as NP.
    pose proof (near_planck_T L HL temp Ht) as NT. pose proof (near_in _ Hr) as NR.
    assert (NS := n_mul L _ _ _ _ _ _ _ _ _ _ NR NP ltac:(zs) ltac:(zs)).
    assert (P1 : forall r, Rpower r (B2R (pl_nu_exp p)) = 1) by (intros r; rewrite E; unfold Rpower; rewrite Rmult_0_l; apply exp_0).
    unfold s, exps in *. change (@B2R 53 1024) with V in *.
    assert (E0 : Rabs (V (pl_nu_exp p)) = 0) by (rewrite E; apply Rabs_R0).
    specialize (NS ltac:(rs)).
    assert (R : bp (-1000) <= J <= bp 1000).
    { split; [apply range_hyp, HJ|]. rewrite two_pow_bp in HJ'. exact HJ'. }
    unfold J in R |- *. unfold powerlaw_R in R |- *. change (@B2R 53 1024) with V in *. rewrite P1, Rmult_1_r in R |- *.
    assert (NJ := near_mul_range _ _ _ _ _ _ _ _ _ _ _ _ NS NT R ltac:(zs) ltac:(zs) ltac:(rs)).
    apply (near_returns _ _ _ _ _ _ _ NJ); [|rs|rs].
    cbn [o PowerLawOpacity ph_Emissivity]. unfold powerlaw_J.
    replace (@Oneqb b64 O (pl_nu_exp p) (@OofZ b64 O 0)) with false; [reflexivity|].
    symmetry. change (negb (Beqb (pl_nu_exp p) (b64_of_Z 0)) = false).
    rewrite Beqb_correct; [|apply H|reflexivity]. change (B2R (b64_of_Z 0)) with 0. fold (V (pl_nu_exp p)). rewrite E.
    rewrite Req_bool_true by reflexivity. reflexivity.
Qed.

(** Bremsstrahlung: emission per frequency to 62 + 7 h nu / (k T) roundings, in total to
    67, and the absorption from Kirchhoff's law to 82 + 14 h nu / (k T) (90 if averaged
    over angles) wherever the spectrum is at least 2^-900, so that the guard against division by zero is lost in
    the rounding. *)
Lemma C56_brems_proof : forall (L : Libm) (rho temp nu : b64),
  let O := B64_ops L in
  let pc := @PhysicalConstantsCGS b64 O in
  let o := @EPBremsstrahlungOpacity b64 O pc in
  let x := h_cgs * B2R nu / (k_cgs * B2R temp) in
  let B := Planck_B h_cgs k_cgs c_cgs (B2R temp) (B2R nu) in
  let j := brems_R (B2R rho) (B2R temp) (B2R nu) in
  accurate_libm L -> physical rho -> physical temp -> physical nu ->
  returns (ph_Emissivity o rho temp) 67 (brems_total_R (B2R rho) (B2R temp)) /\
  (x <= 680 -> not_tiny j ->
   returns (ph_EmissivityPerNuOmega o rho temp nu) (62 + 7 * x) j /\
   returns (ph_EmissivityPerNu o rho temp nu) (65 + 7 * x) (4 * PI * j) /\
   (/ 2 ^ 900 <= B -> not_tiny (j / B) -> j / B <= 2 ^ 1000 ->
    returns (ph_Absorption o rho temp nu) (82 + 14 * x) (j / B) /\
    returns (ph_AngleAvgAbsorption o rho temp nu) (90 + 14 * x) (j / B))).
Proof.
  intros L rho temp nu.
  intros O pc o x B j HL Hr Ht Hn. pose proof (x_pos temp nu Ht Hn) as X0. fold x in X0. split.
  - apply (near_returns _ _ _ _ _ _ _ (near_brems_total L HL rho temp Hr Ht)); [reflexivity|rs|rs].
  - intros Hx HJ. pose proof (near_brems L HL rho temp nu Hr Ht Hn Hx HJ) as NJ. cbv zeta in NJ.
    change (h_cgs * V nu / (k_cgs * V temp)) with x in NJ. split; [|split].
    + apply (near_returns _ _ _ _ _ _ _ NJ); [reflexivity|rs|rs].
    + assert (N4 := near_4pi L _ _ _ _ _ NJ ltac:(zs) ltac:(zs) ltac:(rs)).
      apply (near_returns _ _ _ _ _ _ _ N4); [reflexivity|rs|rs].
    + intros HB HA HA'.
      assert (HB' : not_tiny B).
      { apply Rle_trans with (2 := HB). apply Rinv_le_contravar; [apply pow_lt; lra|]. apply Rle_pow; [lra|lia]. }
      pose proof (near_planck L HL temp nu Ht Hn Hx HB') as NB. cbv zeta in NB.
      change (h_cgs * V nu / (k_cgs * V temp)) with x in NB.
      assert (NB' : near (16 + 6 * x) (-900) 382 (@planck_nu b64 O pc temp nu) B).
      { apply (near_weaken _ (16 + 6 * x) _ _ _ _ _ _ NB); [lra|].
        split; [|apply NB]. rewrite two_pow_bp in HB. change (Z.of_nat 900) with 900%Z in HB.
        change (-900)%Z with (- (900))%Z. rewrite bpow_opp. exact HB. }
      split.
      * assert (NR := near_ratio L _ _ _ _ _ _ _ _ _ NJ NB' ltac:(zs) ltac:(rs) ltac:(rs) (conj HA HA')).
        apply (near_returns _ _ _ _ _ _ _ NR); [reflexivity|rs|rs].
      * assert (N4 := near_4pi L _ _ _ _ _ NJ ltac:(zs) ltac:(zs) ltac:(rs)).
        assert (P4 : near 2 3 4 (@Omul b64 O (@OofZ b64 O 4) (@Opi b64 O)) (4 * PI)) by (eapply near_conv; [nearg HL|reflexivity|rs|zs|zs]).
        assert (N5 := n_div L _ _ _ _ _ _ _ _ _ _ N4 P4 ltac:(zs) ltac:(zs) ltac:(rs)).
        pose proof PI_RGT_0. replace (4 * PI * brems_R (V rho) (V temp) (V nu) / (4 * PI)) with j in N5 by (unfold j, V; field; lra).
        assert (NR := near_ratio L _ _ _ _ _ _ _ _ _ N5 NB' ltac:(zs) ltac:(rs) ltac:(rs) (conj HA HA')).
        apply (near_returns _ _ _ _ _ _ _ NR); [reflexivity|rs|rs].
Qed.

(** Scattering with mass per particle m: the gray, Thomson and power-law cross sections
    to 0, 27 and 3 s + 10 roundings, and the coefficients rho/m sigma (Thomson: with one
    electron to two particles) to 3, 30 and 3 s + 12. *)
Lemma C56_scattering_proof : forall (L : Libm) (p : PowerLawParams b64) (sigma m rho temp nu : b64),
  let O := B64_ops L in
  let pc := @PhysicalConstantsCGS b64 O in
  let s := exps p in
  let sR := powerlaw_R p (B2R rho) (B2R temp) (B2R nu) in
  accurate_libm L -> physical sigma -> physical m -> physical rho -> powerlaw_ok p rho temp nu ->
  (let o := @GraySOpacity b64 O sigma m in
   returns (s_TotalCrossSection o rho temp nu) 0 (B2R sigma) /\
   returns (s_TotalScatteringCoefficient o rho temp nu) 3 (B2R rho / B2R m * B2R sigma)) /\
  (let o := @ThomsonSOpacity b64 O pc m in
   returns (s_TotalCrossSection o rho temp nu) 27 sigmaT_cgs /\
   returns (s_TotalScatteringCoefficient o rho temp nu) 30 (B2R rho / B2R m / 2 * sigmaT_cgs)) /\
  (let o := @PowerLawSOpacity b64 O p m in
   returns (s_TotalCrossSection o rho temp nu) (3 * s + 10) sR /\
   returns (s_TotalScatteringCoefficient o rho temp nu) (3 * s + 12) (B2R rho / B2R m * sR)).
Proof.
  intros L p sigma m rho temp nu.
  intros O pc s sR HL Hs Hm Hr H. pose proof (exps_bound p rho temp nu H) as S. fold s in S.
  pose proof (near_powerlaw_s_scale L HL p rho temp nu H) as NP. fold s in NP.
  pose proof (near_sigmaT L HL) as NT. apply near_in in Hs, Hm, Hr.
  assert (Q := n_div L _ _ _ _ _ _ _ _ _ _ Hr Hm ltac:(zs) ltac:(zs) ltac:(rs)).
  split; [|split].
  - split; [exact (near_returns _ _ _ _ _ 0 _ Hs eq_refl ltac:(rs) ltac:(rs))|].
    assert (N := n_mul L _ _ _ _ _ _ _ _ _ _ Q Hs ltac:(zs) ltac:(zs) ltac:(rs)).
    apply (near_returns _ _ _ _ _ _ _ N); [reflexivity|rs|rs].
  - split; [exact (near_returns _ _ _ _ _ 27 _ NT eq_refl ltac:(rs) ltac:(rs))|].
    assert (T2 : near 0 1 1 (@OofZ b64 O 2) 2) by (zlit 2%Z).
    assert (Q2 := n_div L _ _ _ _ _ _ _ _ _ _ Q T2 ltac:(zs) ltac:(zs) ltac:(rs)).
    assert (N := n_mul L _ _ _ _ _ _ _ _ _ _ Q2 NT ltac:(zs) ltac:(zs) ltac:(rs)).
    apply (near_returns _ _ _ _ _ _ _ N); [reflexivity|rs|rs].
  - split; [exact (near_returns _ _ _ _ _ (3 * s + 10) _ NP eq_refl ltac:(rs) ltac:(rs))|].
    assert (N := n_mul L _ _ _ _ _ _ _ _ _ _ Q NP ltac:(zs) ltac:(zs) ltac:(rs)).
    apply (near_returns _ _ _ _ _ _ _ N); [reflexivity|rs|rs].
Qed.

(** ** Neutrinos *)

(** The Fermi-Dirac spectrum of three species, for every neutrino opacity, to
    15 + 7 h nu / (k T) roundings, and its derivative in the temperature to
    28 + 17 h nu / (k T). *)
Lemma C56_neutrino_spectrum_proof : forall (L : Libm) (o : NuOpac b64) (temp nu : b64) (type : RadiationType) (D : R),
  let O := B64_ops L in
  let x := h_cgs * B2R nu / (k_cgs * B2R temp) in
  let B := FermiDirac_B 3 h_cgs k_cgs c_cgs (B2R temp) (B2R nu) in
  accurate_libm L -> @neutrino_opacity b64 O 3 (@PhysicalConstantsCGS b64 O) o ->
  physical temp -> physical nu -> x <= 680 ->
  (not_tiny B -> returns (nu_ThermalDistributionOfTNu o temp type nu) (15 + 7 * x) B) /\
  (is_derive (fun t => FermiDirac_B 3 h_cgs k_cgs c_cgs t (B2R nu)) (B2R temp) D -> not_tiny D ->
   returns (nu_DThermalDistributionOfTNuDT o temp type nu) (28 + 17 * x) D).
Proof.
  intros L o temp nu type D.
  intros O x B HL Ho Ht Hn Hx. pose proof (x_pos temp nu Ht Hn) as X0. fold x in X0. split.
  - intros HB. pose proof (near_fd L HL temp type nu Ht Hn Hx HB) as N. cbv zeta in N. change (h_cgs * V nu / (k_cgs * V temp)) with x in N.
    apply (near_returns _ _ _ _ _ _ _ N); [|rs|rs].
    destruct Ho as [[k ->]|[ ->|(C & n1 & n2 & ->)]]; reflexivity.
  - intros HD HB. rewrite (dFermi_value _ _ _ (physical_pos _ Ht) (physical_pos _ Hn) HD) in *.
    pose proof (near_fd_dT L HL temp type nu Ht Hn Hx HB) as N. cbv zeta in N. change (h_cgs * V nu / (k_cgs * V temp)) with x in N.
    apply (near_returns _ _ _ _ _ _ _ N); [|rs|rs].
    destruct Ho as [[k ->]|[ ->|(C & n1 & n2 & ->)]]; reflexivity.
Qed.

(** The integrated thermal functions of every neutrino opacity: three species carry
    3 x 7/8 of the energy and 3 x 3/4 of the number of photons; energy to 30 and 31
    roundings, number to 28 and 29, the temperature of an energy density to 11, and the
    way there and back to 19. *)
Lemma C56_neutrino_totals_proof : forall (L : Libm) (o : NuOpac b64) (er temp : b64) (type : RadiationType),
  let O := B64_ops L in
  let t := B2R temp in
  let a := 21 / 8 * a_rad h_cgs k_cgs c_cgs in
  accurate_libm L -> @neutrino_opacity b64 O 3 (@PhysicalConstantsCGS b64 O) o ->
  is_finite er = true -> / 2 ^ 640 <= B2R er <= 2 ^ 640 -> physical temp ->
  returns (nu_ThermalDistributionOfT o temp type) 30 (c_cgs * a * t ^ 4) /\
  returns (nu_EnergyDensityFromTemperature o temp type) 31 (a * t ^ 4) /\
  returns (nu_ThermalNumberDistributionOfT o temp type) 28 (9 / 4 * number_cgs t) /\
  returns (nu_NumberDensityFromTemperature o temp type) 29 (9 / 4 * number_cgs t / c_cgs) /\
  returns (nu_TemperatureFromEnergyDensity o er type) 11 (Rpower (B2R er / a) (/ 4)) /\
  returns (bind (nu_EnergyDensityFromTemperature o temp type) (fun e => nu_TemperatureFromEnergyDensity o e type)) 19 t.
Proof.
  intros L o er temp type.
  intros O t a HL Ho Fe He Ht. repeat split.
  - apply (near_returns _ _ _ _ _ _ _ (near_fd_T L HL temp type Ht)); [|rs|rs].
    destruct Ho as [[k ->]|[ ->|(C & n1 & n2 & ->)]]; reflexivity.
  - apply (near_returns _ _ _ _ _ _ _ (near_fd_energy L HL temp type Ht)); [|rs|rs].
    destruct Ho as [[k ->]|[ ->|(C & n1 & n2 & ->)]]; reflexivity.
  - apply (near_returns _ _ _ _ _ _ _ (near_fd_number_T L HL temp type Ht)); [|rs|rs].
    destruct Ho as [[k ->]|[ ->|(C & n1 & n2 & ->)]]; reflexivity.
  - apply (near_returns _ _ _ _ _ _ _ (near_fd_number L HL temp type Ht)); [|rs|rs].
    destruct Ho as [[k ->]|[ ->|(C & n1 & n2 & ->)]]; reflexivity.
  - assert (N : near 0 (-640) 640 er (B2R er)).
    { apply near_exact; [exact Fe|reflexivity|]. rewrite two_pow_bp in He.
      change (Z.of_nat 640) with 640%Z in He. change (-640)%Z with (- (640))%Z. rewrite bpow_opp. exact He. }
    apply (near_returns _ _ _ _ _ _ _ (near_fd_temperature L HL _ _ _ type N ltac:(lra))); [|rs|rs].
    destruct Ho as [[k ->]|[ ->|(C & n1 & n2 & ->)]]; reflexivity.
  - apply (near_returns _ _ _ _ _ _ _ (near_fd_roundtrip L HL temp type Ht)); [|rs|rs].
    destruct Ho as [[k ->]|[ ->|(C & n1 & n2 & ->)]]; reflexivity.
Qed.

(** The gray neutrino opacity: absorption to 2 roundings, emission per frequency to
    18 + 7 h nu / (k T) (21 for all directions), in total to 33, the number to 30. *)
Lemma C56_neutrino_gray_proof : forall (L : Libm) (kappa rho temp Ye nu : b64) (type : RadiationType),
  let O := B64_ops L in
  let pc := @PhysicalConstantsCGS b64 O in
  let o := @NuGrayOpacity b64 O 3 pc kappa in
  let x := h_cgs * B2R nu / (k_cgs * B2R temp) in
  let B := FermiDirac_B 3 h_cgs k_cgs c_cgs (B2R temp) (B2R nu) in
  let j := B2R rho * B2R kappa * B in
  accurate_libm L -> physical kappa -> physical rho -> physical temp -> physical nu ->
  returns (nu_Absorption o rho temp Ye type nu) 2 (B2R rho * B2R kappa) /\
  returns (nu_Emissivity o rho temp Ye type) 33
    (B2R rho * B2R kappa * (c_cgs * (21 / 8 * a_rad h_cgs k_cgs c_cgs) * B2R temp ^ 4)) /\
  returns (nu_NumberEmissivity o rho temp Ye type) 30 (B2R kappa * (9 / 4 * number_cgs (B2R temp))) /\
  (x <= 680 -> not_tiny B -> not_tiny j ->
   returns (nu_EmissivityPerNuOmega o rho temp Ye type nu) (18 + 7 * x) j /\
   returns (nu_EmissivityPerNu o rho temp Ye type nu) (21 + 7 * x) (4 * PI * j)).
Proof.
  intros L kappa rho temp Ye nu type.
  intros O pc o x B j HL Hk Hr Ht Hn. pose proof (x_pos temp nu Ht Hn) as X0. fold x in X0.
  pose proof (near_gray_alpha L kappa rho temp nu Hk Hr) as NA.
  pose proof (near_fd_T L HL temp type Ht) as NT. pose proof (near_fd_number_T L HL temp type Ht) as NN.
  pose proof (near_in _ Hk) as NK.
  split; [|split; [|split]].
  - apply (near_returns _ _ _ _ _ _ _ NA); [reflexivity|rs|rs].
  - assert (N := n_mul L _ _ _ _ _ _ _ _ _ _ NA NT ltac:(zs) ltac:(zs) ltac:(rs)).
    apply (near_returns _ _ _ _ _ _ _ N); [reflexivity|rs|rs].
  - assert (N := n_mul L _ _ _ _ _ _ _ _ _ _ NK NN ltac:(zs) ltac:(zs) ltac:(rs)).
    apply (near_returns _ _ _ _ _ _ _ N); [reflexivity|rs|rs].
  - intros Hx HB HJ. pose proof (near_fd L HL temp type nu Ht Hn Hx HB) as NB. cbv zeta in NB.
    change (h_cgs * V nu / (k_cgs * V temp)) with x in NB.
    assert (NJ := near_gray_jnu L kappa rho temp nu _ _ _ Hk Hr NB ltac:(rs) HJ). split.
    + apply (near_returns _ _ _ _ _ _ _ NJ); [reflexivity|rs|rs].
    + assert (N4 := near_4pi L _ _ _ _ _ NJ ltac:(zs) ltac:(zs) ltac:(rs)).
      apply (near_returns _ _ _ _ _ _ _ N4); [reflexivity|rs|rs].
Qed.

(** Absorption on nucleons, for electron neutrinos: the coefficient to 72 roundings, the
    emission per frequency to 88 + 7 h nu / (k T) (91 for all directions), in total and in
    number to 126. *)
Lemma C56_brt_proof : forall (L : Libm) (rho temp Ye nu : b64),
  let O := B64_ops L in
  let pc := @PhysicalConstantsCGS b64 O in
  let o := @BRTOpacity b64 O 3 pc in
  let x := h_cgs * B2R nu / (k_cgs * B2R temp) in
  let B := FermiDirac_B 3 h_cgs k_cgs c_cgs (B2R temp) (B2R nu) in
  let j := brt_alpha_R (B2R rho) (B2R nu) * B in
  accurate_libm L -> physical rho -> physical temp -> physical nu ->
  returns (nu_Absorption o rho temp Ye NU_ELECTRON nu) 72 (brt_alpha_R (B2R rho) (B2R nu)) /\
  returns (nu_Emissivity o rho temp Ye NU_ELECTRON) 126 (brt_J_R (B2R rho) (B2R temp)) /\
  returns (nu_NumberEmissivity o rho temp Ye NU_ELECTRON) 126 (brt_JN_R (B2R rho) (B2R temp)) /\
  (x <= 680 -> not_tiny B -> not_tiny j ->
   returns (nu_EmissivityPerNuOmega o rho temp Ye NU_ELECTRON nu) (88 + 7 * x) j /\
   returns (nu_EmissivityPerNu o rho temp Ye NU_ELECTRON nu) (91 + 7 * x) (4 * PI * j)).
Proof.
  intros L rho temp Ye nu.
  intros O pc o x B j HL Hr Ht Hn. pose proof (x_pos temp nu Ht Hn) as X0. fold x in X0.
  pose proof (near_brt_alpha L HL rho temp Ye nu Hr Hn) as NA.
  split; [|split; [|split]].
  - apply (near_returns _ _ _ _ _ _ _ NA); [reflexivity|rs|rs].
  - apply (near_returns _ _ _ _ _ _ _ (near_brt_J L HL rho temp Ye Hr Ht)); [reflexivity|rs|rs].
  - apply (near_returns _ _ _ _ _ _ _ (near_brt_JN L HL rho temp Ye Hr Ht)); [reflexivity|rs|rs].
  - intros Hx HB HJ. pose proof (near_fd L HL temp NU_ELECTRON nu Ht Hn Hx HB) as NB. cbv zeta in NB.
    change (h_cgs * V nu / (k_cgs * V temp)) with x in NB.
    assert (NJ := near_mul_low _ _ _ _ _ _ _ _ _ _ _ NA NB (range_hyp _ HJ) ltac:(zs) ltac:(zs) ltac:(rs)). split.
    + apply (near_returns _ _ _ _ _ _ _ NJ); [reflexivity|rs|rs].
    + assert (N4 := near_4pi L _ _ _ _ _ NJ ltac:(zs) ltac:(zs) ltac:(rs)).
      apply (near_returns _ _ _ _ _ _ _ N4); [reflexivity|rs|rs].
Qed.

(** The tophat emissivity inside its band, for the species it emits (those with a positive
    weight): per frequency to 3 roundings, for all directions to 6, in total to 9. *)
Lemma C56_tophat_proof : forall (L : Libm) (C numin numax rho temp Ye nu : b64) (type : RadiationType),
  let O := B64_ops L in
  let pc := @PhysicalConstantsCGS b64 O in
  let o := @TophatEmissivity b64 O 3 pc C numin numax in
  let w := Ye_weight type (B2R Ye) in
  physical C -> physical numin -> physical numax -> physical nu -> physical Ye -> 0 < w ->
  B2R numin < B2R nu < B2R numax ->
  returns (nu_EmissivityPerNuOmega o rho temp Ye type nu) 3 (B2R C * w) /\
  returns (nu_EmissivityPerNu o rho temp Ye type nu) 6 (4 * PI * (B2R C * w)) /\
  returns (nu_Emissivity o rho temp Ye type) 9 (4 * PI * (B2R C * (B2R numax - B2R numin)) * w).
Proof.
  intros L C numin numax rho temp Ye nu type.
  intros O pc o w HC H1 H2 Hn Hy Hw [HB1 HB2].
  pose proof (near_YeF L type Ye Hy Hw) as NW. pose proof (near_in _ HC) as NC.
  pose proof (near_in _ H2) as (F2 & _ & R2 & _).
  assert (ND := near_sub L numax numin (-100) 100 F2 (proj1 H1) R2 (Rlt_le _ _ (physical_pos _ H1)) (Rlt_trans _ _ _ HB1 HB2)
    ltac:(lia) ltac:(lia)).
  assert (NJ := n_mul L _ _ _ _ _ _ _ _ _ _ NC NW ltac:(zs) ltac:(zs) ltac:(rs)).
  assert (T : @tophat_jnu b64 O C numin numax rho temp Ye type nu = @Omul b64 O C (@tophat_YeF b64 O type Ye)).
  { unfold tophat_jnu.
    assert (G : @Ogtb b64 O nu numin = true).
    { change (Bltb numin nu = true). rewrite Bltb_correct; [|apply H1|apply Hn]. apply Rlt_bool_true, HB1. }
    assert (G' : @Oltb b64 O nu numax = true).
    { change (Bltb nu numax = true). rewrite Bltb_correct; [|apply Hn|apply H2]. apply Rlt_bool_true, HB2. }
    rewrite G, G'. reflexivity. }
  split; [|split].
  - apply (near_returns _ _ _ _ _ _ _ NJ); [cbn [o TophatEmissivity nu_opacity nu_EmissivityPerNuOmega]; rewrite T; reflexivity|rs|rs].
  - assert (N4 := near_4pi L _ _ _ _ _ NJ ltac:(zs) ltac:(zs) ltac:(rs)).
    apply (near_returns _ _ _ _ _ _ _ N4); [|rs|rs].
    cbn [o TophatEmissivity nu_opacity nu_EmissivityPerNu]. unfold tophat_Jnu. rewrite T. reflexivity.
  - assert (NB := n_mul L _ _ _ _ _ _ _ _ _ _ NC ND ltac:(zs) ltac:(zs) ltac:(rs)).
    assert (N4 := near_4pi L _ _ _ _ _ NB ltac:(zs) ltac:(zs) ltac:(rs)).
    assert (N5 := n_mul L _ _ _ _ _ _ _ _ _ _ N4 NW ltac:(zs) ltac:(zs) ltac:(rs)).
    apply (near_returns _ _ _ _ _ _ _ N5); [reflexivity|rs|rs].
Qed.

(** ** The hypotheses can be met *)

(** the double nearest to a real number *)
Definition nearest (z : R) : b64 :=
  binary_normalize 53 1024 _ _ mode_NE (ZnearestE (scaled_mantissa radix2 bexp z)) (cexp radix2 bexp z) false.

Lemma nearest_within z : normal z -> within 2 (nearest z) z.
Proof.
  intros [N1 N2]. rewrite !two_pow_bp in *. change (Z.of_nat 1022) with 1022%Z in N1. change (Z.of_nat 1023) with 1023%Z in N2.
  rewrite <- bpow_opp in N1. change (- (1022))%Z with (-1022)%Z in N1.
  pose proof (binary_normalize_correct 53 1024 _ _ mode_NE
    (ZnearestE (scaled_mantissa radix2 bexp z)) (cexp radix2 bexp z) false) as C. cbv zeta in C.
  change (F2R (Float radix2 (ZnearestE (scaled_mantissa radix2 bexp z)) (cexp radix2 bexp z))) with (rnd z) in C.
  change (round radix2 (SpecFloat.fexp 53 1024) (round_mode mode_NE) (rnd z)) with (rnd (rnd z)) in C.
  rewrite (rnd_id (rnd z)) in C by apply rnd_fmt.
  rewrite Rlt_bool_true in C.
  - destruct C as (C1 & C2 & _). split; [exact C2|]. unfold nearest. rewrite C1.
    pose proof (relative_error_N_FLT radix2 (-1074) 53 eq_refl (fun z => negb (Z.even z)) z) as E.
    change (round radix2 (FLT_exp (-1074) 53) (Znearest (fun z => negb (Z.even z))) z) with (rnd z) in E.
    specialize (E N1). apply Rle_trans with (1 := E). apply Rmult_le_compat_r; [apply Rabs_pos|].
    rewrite two_pow_bp. change (Z.of_nat 53) with 53%Z. rewrite <- bpow_opp. change (- (53))%Z with (-53)%Z.
    change (bpow radix2 (-53 + 1)) with (bpow radix2 (-52)).
    assert (Q : bpow radix2 (-52) = bpow radix2 (-53) * 2) by (change (-52)%Z with (-53 + 1)%Z; rewrite bpow_plus; reflexivity).
    rewrite Q. pose proof (bpow_gt_0 radix2 (-53)). lra.
  - rewrite rnd_abs. apply Rle_lt_trans with (bp 1023); [apply rnd_le_bpow; [lia|exact N2]|apply bpow_lt; lia].
Qed.

(** A library that rounds the exact values to the nearest double is accurate. *)
Lemma C56_library_example : exists L : Libm, accurate_libm L.
Proof.
  exists {| lm_exp := fun x => nearest (exp (B2R x)); lm_expm1 := fun x => nearest (exp (B2R x) - 1);
            lm_log := fun x => x; lm_log10 := fun x => x; lm_logf := fun x => x;
            lm_pow := fun x y => nearest (Rpower (B2R x) (B2R y)); lm_cos := fun x => x |}.
  split; [|split]; cbn [lm_exp lm_expm1 lm_pow]; intros; apply nearest_within; assumption.
Qed.

(** the doubles 10^7 (a temperature in K) and 10^18 (a frequency in Hz) *)
Definition ex_temp : b64 := b64_ldexp (10 ^ 7) 0.
Definition ex_nu : b64 := b64_ldexp (5 ^ 18) 18.
Definition ex_one : b64 := b64_ldexp 1 0.
Lemma ex_values : (fin ex_temp /\ B2R ex_temp = 10 ^ 7) /\ (fin ex_nu /\ B2R ex_nu = 10 ^ 18) /\ (fin ex_one /\ B2R ex_one = 1).
Proof.
  destruct (V_lit (10 ^ 7) 0) as [E1 F1]; [vm_compute; reflexivity|lia|lia|].
  destruct (V_lit (5 ^ 18) 18) as [E2 F2]; [vm_compute; reflexivity|lia|lia|].
  destruct (V_lit 1 0) as [E3 F3]; [vm_compute; reflexivity|lia|lia|].
  unfold V in *. repeat split; try assumption.
  - unfold ex_temp. rewrite E1. change (IZR (10 ^ 7)) with 10000000. change (bp 0) with 1. cbn [pow]. lra.
  - unfold ex_nu. rewrite E2. change (IZR (5 ^ 18)) with 3814697265625. change (bp 18) with 262144. cbn [pow]. lra.
  - unfold ex_one. rewrite E3. change (bp 0) with 1. lra.
Qed.
Lemma small_pow n : (100 <= n)%nat -> / 2 ^ n <= / 2 ^ 100.
Proof. intros H. apply Rinv_le_contravar; [apply pow_lt; lra|apply Rle_pow; [lra|exact H]]. Qed.
Lemma inv_2_100 : / 2 ^ 100 <= / 10 ^ 30.
Proof. apply Rinv_le_contravar; cbn [pow]; lra. Qed.
Lemma ex_tiny n : (100 <= n)%nat -> / 2 ^ n <= / 10 ^ 30.
Proof. intros H. apply Rle_trans with (1 := small_pow n H), inv_2_100. Qed.
Lemma ex_physical : physical ex_temp /\ physical ex_nu /\ physical ex_one.
Proof.
  destruct ex_values as ((F1 & E1) & (F2 & E2) & (F3 & E3)). pose proof inv_2_100 as I.
  assert (/ 10 ^ 30 <= 1) by (rewrite <- Rinv_1; apply Rinv_le_contravar; cbn [pow]; lra).
  repeat split; try assumption; rewrite ?E1, ?E2, ?E3; cbn [pow] in *; lra.
Qed.
Lemma ex_x : 4 <= h_cgs * B2R ex_nu / (k_cgs * B2R ex_temp) <= 5.
Proof.
  destruct ex_values as ((F1 & ->) & (F2 & ->) & _). destruct consts_pos as (A & B & C).
  assert (P : 0 < k_cgs * 10 ^ 7) by (apply Rmult_lt_0_compat; [exact B|apply pow_lt; lra]).
  assert (Q : h_cgs * 10 ^ 18 / (k_cgs * 10 ^ 7) * (k_cgs * 10 ^ 7) = h_cgs * 10 ^ 18) by (field; lra).
  split; apply Rmult_le_reg_r with (k_cgs * 10 ^ 7); try exact P;
    rewrite Q; unfold h_cgs, k_cgs; cbn [pow]; lra.
Qed.
Lemma ex_exp x : 4 <= x <= 5 -> 5 <= exp x <= 243.
Proof.
  intros [H1 H2]. split; [pose proof (exp_ineq1_le x); lra|].
  apply Rle_trans with (exp 5); [apply exp_mono; lra|].
  replace 5 with (1 + 1 + 1 + 1 + 1) by lra. rewrite !exp_plus. pose proof exp_le_3. pose proof (exp_pos 1).
  set (e := exp 1) in *. assert (e * e <= 9) by nra. assert (0 <= e * e) by nra. assert (e * e * e <= 27) by nra. nra.
Qed.

(** Both spectra and both derivatives at 10^7 K and 10^18 Hz meet the hypotheses. *)
Lemma C56_spectrum_example :
  let x := h_cgs * B2R ex_nu / (k_cgs * B2R ex_temp) in
  physical ex_temp /\ physical ex_nu /\ x <= 680 /\
  not_tiny (Planck_B h_cgs k_cgs c_cgs (B2R ex_temp) (B2R ex_nu)) /\
  not_tiny (FermiDirac_B 3 h_cgs k_cgs c_cgs (B2R ex_temp) (B2R ex_nu)) /\
  (exists D, is_derive (fun t => Planck_B h_cgs k_cgs c_cgs t (B2R ex_nu)) (B2R ex_temp) D /\ not_tiny D) /\
  (exists D, is_derive (fun t => FermiDirac_B 3 h_cgs k_cgs c_cgs t (B2R ex_nu)) (B2R ex_temp) D /\ not_tiny D).
Proof.
  intros x. destruct ex_physical as (P1 & P2 & P3). pose proof ex_x as X. fold x in X.
  pose proof (ex_exp x X) as E. destruct consts_pos as (A & B & C).
  split; [exact P1|]. split; [exact P2|]. split; [lra|].
  pose proof (ex_tiny 1000 ltac:(lia)) as T.
  assert (Q : 1 <= 2 * h_cgs * (10 ^ 18) ^ 3 / c_cgs ^ 2).
  { apply Rmult_le_reg_r with (c_cgs ^ 2); [apply pow_lt; exact C|].
    unfold Rdiv. rewrite Rmult_assoc, Rinv_l by (apply pow_nonzero; lra). unfold h_cgs, c_cgs. cbn [pow]. lra. }
  assert (Q4 : / 10 ^ 4 <= 2 * h_cgs ^ 2 * (10 ^ 18) ^ 4 / ((10 ^ 7) ^ 2 * c_cgs ^ 2 * k_cgs)).
  { assert (P : 0 < (10 ^ 7) ^ 2 * c_cgs ^ 2 * k_cgs).
    { apply Rmult_lt_0_compat; [|exact B]. apply Rmult_lt_0_compat; apply pow_lt; [apply pow_lt; lra|exact C]. }
    apply Rmult_le_reg_r with ((10 ^ 7) ^ 2 * c_cgs ^ 2 * k_cgs); [exact P|].
    unfold Rdiv. rewrite (Rmult_assoc (2 * h_cgs ^ 2 * _)), Rinv_l by lra. unfold h_cgs, k_cgs, c_cgs. cbn [pow]. lra. }
  destruct ex_values as ((F1 & E1) & (F2 & E2) & _).
  assert (I : / 10 ^ 3 <= / (exp x + 1)) by (apply Rinv_le_contravar; cbn [pow]; lra).
  assert (I' : / 10 ^ 3 <= / (exp x - 1)) by (apply Rinv_le_contravar; cbn [pow]; lra).
  assert (N3 : 0 < / 10 ^ 3) by (apply Rinv_0_lt_compat; cbn [pow]; lra).
  assert (N4 : 0 < / 10 ^ 4) by (apply Rinv_0_lt_compat; cbn [pow]; lra).
  assert (W : / 10 ^ 3 <= exp (- x) < 1).
  { rewrite exp_Ropp. split; [apply Rinv_le_contravar; cbn [pow]; lra|].
    rewrite <- Rinv_1. apply Rinv_lt_contravar; lra. }
  assert (M : / 10 ^ 30 <= / 10 ^ 4 * / 10 ^ 3 * / 4) by (rewrite <- !Rinv_mult; apply Rinv_le_contravar; cbn [pow]; lra).
  assert (M1 : / 10 ^ 30 <= / 10 ^ 3) by (apply Rinv_le_contravar; cbn [pow]; lra).
  assert (Dp : 0 < / 10 ^ 4 * / 10 ^ 3) by (apply Rmult_lt_0_compat; assumption).
  split; [|split; [|split]].
  - apply Rle_trans with (1 := T), Rle_trans with (1 := M1). unfold Planck_B. fold x. rewrite E2.
    set (q := 2 * h_cgs * (10 ^ 18) ^ 3 / c_cgs ^ 2) in *. unfold Rdiv. rewrite <- (Rmult_1_l (/ 10 ^ 3)). apply Rmult_le_compat; lra.
  - apply Rle_trans with (1 := T), Rle_trans with (1 := M1). unfold FermiDirac_B. fold x. rewrite E2.
    set (q := 2 * h_cgs * (10 ^ 18) ^ 3 / c_cgs ^ 2) in *. unfold Rdiv.
    assert (1 * / 10 ^ 3 <= q * / (exp x + 1)) by (apply Rmult_le_compat; lra). lra.
  - exists (dPlanck (B2R ex_temp) (B2R ex_nu)). split.
    + assert (Z := Planck_dT_value h_cgs k_cgs c_cgs (B2R ex_temp) (B2R ex_nu) A B C (physical_pos _ P1) (physical_pos _ P2)).
      rewrite <- (dPlanck_value _ _ _ (physical_pos _ P1) (physical_pos _ P2) Z). exact Z.
    + apply Rle_trans with (1 := T), Rle_trans with (1 := M). unfold dPlanck. fold x. rewrite E1, E2.
      set (q := 2 * h_cgs ^ 2 * (10 ^ 18) ^ 4 / ((10 ^ 7) ^ 2 * c_cgs ^ 2 * k_cgs)) in *.
      unfold Rdiv. apply Rmult_le_compat; [lra|lra|apply Rmult_le_compat; lra|].
      apply Rinv_le_contravar; [apply pow_lt; lra|]. apply Rle_trans with (1 ^ 2); [apply pow_incr; lra|lra].
  - exists (dFermi (B2R ex_temp) (B2R ex_nu)). split.
    + assert (Z := FD_dT_value 3 h_cgs k_cgs c_cgs (B2R ex_temp) (B2R ex_nu) A B C (physical_pos _ P1) (physical_pos _ P2)).
      rewrite <- (dFermi_value _ _ _ (physical_pos _ P1) (physical_pos _ P2) Z). exact Z.
    + apply Rle_trans with (1 := T), Rle_trans with (1 := M). unfold dFermi. fold x. rewrite E1, E2.
      set (q := 2 * h_cgs ^ 2 * (10 ^ 18) ^ 4 / ((10 ^ 7) ^ 2 * c_cgs ^ 2 * k_cgs)) in *.
      unfold Rdiv. apply Rmult_le_compat; [lra|lra|apply Rmult_le_compat; lra|].
      apply Rinv_le_contravar; [apply pow_lt; lra|]. apply Rle_trans with (2 ^ 2); [apply pow_incr; lra|lra].
Qed.

Lemma ex_B : / 2 ^ 10 <= Planck_B h_cgs k_cgs c_cgs (B2R ex_temp) (B2R ex_nu) <= 2 ^ 50 /\
  / 2 ^ 10 <= FermiDirac_B 3 h_cgs k_cgs c_cgs (B2R ex_temp) (B2R ex_nu).
Proof.
  pose proof ex_x as X. set (x := h_cgs * B2R ex_nu / (k_cgs * B2R ex_temp)) in *.
  pose proof (ex_exp x X) as E. destruct consts_pos as (A & B & C).
  assert (Z : 2 * h_cgs * (10 ^ 18) ^ 3 / c_cgs ^ 2 * c_cgs ^ 2 = 2 * h_cgs * (10 ^ 18) ^ 3) by (field; lra).
  assert (Q : 1 <= 2 * h_cgs * (10 ^ 18) ^ 3 / c_cgs ^ 2 <= 2 ^ 50).
  { split; apply Rmult_le_reg_r with (c_cgs ^ 2); try (apply pow_lt; exact C);
      rewrite Z; unfold h_cgs, c_cgs; cbn [pow]; lra. }
  destruct ex_values as (_ & (F2 & E2) & _).
  assert (I : / 2 ^ 10 <= / (exp x + 1)) by (apply Rinv_le_contravar; cbn [pow]; lra).
  assert (I' : / 2 ^ 10 <= / (exp x - 1)) by (apply Rinv_le_contravar; cbn [pow]; lra).
  assert (I2 : / (exp x - 1) <= 1) by (rewrite <- Rinv_1; apply Rinv_le_contravar; lra).
  assert (N : 0 < / 2 ^ 10) by (apply Rinv_0_lt_compat; cbn [pow]; lra).
  assert (P50 : 0 < 2 ^ 50) by (apply pow_lt; lra).
  unfold Planck_B, FermiDirac_B. fold x. rewrite E2. set (q := 2 * h_cgs * (10 ^ 18) ^ 3 / c_cgs ^ 2) in *. clearbody q x.
  set (p := / 2 ^ 10) in *. set (b := 2 ^ 50) in *. clearbody p b.
  unfold Rdiv. split; [split|].
  - rewrite <- (Rmult_1_l p). apply Rmult_le_compat; lra.
  - rewrite <- (Rmult_1_r b). apply Rmult_le_compat; lra.
  - assert (1 * p <= q * / (exp x + 1)) by (apply Rmult_le_compat; lra). lra.
Qed.
(** products of powers of two *)
Lemma ex_prod a b x y : 0 < a -> 0 < b -> a <= x -> b <= y -> a * b <= x * y.
Proof. intros. apply Rmult_le_compat; lra. Qed.
Lemma ex_inv2 n m : / 2 ^ n * / 2 ^ m = / 2 ^ (n + m).
Proof. rewrite <- Rinv_mult, <- pow_add. reflexivity. Qed.
Lemma ex_inv_le n m : (n <= m)%nat -> / 2 ^ m <= / 2 ^ n.
Proof. intros H. apply Rinv_le_contravar; [apply pow_lt; lra|apply Rle_pow; [lra|exact H]]. Qed.
Lemma ex_inv_pos n : 0 < / 2 ^ n.
Proof. apply Rinv_0_lt_compat, pow_lt. lra. Qed.
Lemma bp_inv n : bp (- Z.of_nat n) = / 2 ^ n.
Proof. rewrite bpow_opp, two_pow_bp. reflexivity. Qed.

(** The gray opacities with kappa = 1 and the nucleon opacity at 1 g/cm^3, 10^7 K and
    10^18 Hz meet the hypotheses. *)
Lemma C56_gray_example :
  let B := Planck_B h_cgs k_cgs c_cgs (B2R ex_temp) (B2R ex_nu) in
  let F := FermiDirac_B 3 h_cgs k_cgs c_cgs (B2R ex_temp) (B2R ex_nu) in
  physical ex_one /\ not_tiny (B2R ex_one * B2R ex_one * B) /\ not_tiny (B2R ex_one * B2R ex_one * F) /\
  not_tiny (brt_alpha_R (B2R ex_one) (B2R ex_nu) * F).
Proof.
  intros B F. destruct ex_B as [[B1 B2] F1]. fold B in B1, B2. fold F in F1.
  destruct ex_values as (_ & _ & (_ & ->)). destruct ex_physical as (P1 & P2 & P3).
  pose proof (ex_inv_le 10 1000 ltac:(lia)) as T. unfold not_tiny.
  split; [exact P3|]. split; [|split]; [lra|lra|].
  destruct C56_library_example as [L HL].
  pose proof (near_brt_alpha L HL ex_one ex_temp ex_one ex_nu P3 P2) as (_ & _ & [N _] & _).
  unfold V in N. destruct ex_values as (_ & _ & (_ & E3)). rewrite E3 in N.
  change (-500)%Z with (- Z.of_nat 500)%Z in N. rewrite bp_inv in N.
  apply Rle_trans with (/ 2 ^ 500 * / 2 ^ 10); [rewrite ex_inv2; apply ex_inv_le; lia|].
  apply ex_prod; try apply ex_inv_pos; assumption.
Qed.

(** ... bremsstrahlung there, and ... *)
Lemma C56_brems_example :
  let B := Planck_B h_cgs k_cgs c_cgs (B2R ex_temp) (B2R ex_nu) in
  let j := brems_R (B2R ex_one) (B2R ex_temp) (B2R ex_nu) in
  not_tiny j /\ / 2 ^ 900 <= B /\ not_tiny (j / B) /\ j / B <= 2 ^ 1000.
Proof.
  intros B j. destruct ex_B as [[B1 B2] F1]. fold B in B1, B2. destruct ex_physical as (P1 & P2 & P3).
  destruct C56_library_example as [L HL].
  pose proof (near_brems_total L HL ex_one ex_temp P3 P1) as (_ & _ & [N1 N2] & _).
  change (-500)%Z with (- Z.of_nat 500)%Z in N1. rewrite bp_inv in N1. change 600%Z with (Z.of_nat 600) in N2. rewrite <- two_pow_bp in N2.
  change (@V) with (@B2R 53 1024) in *.
  pose proof ex_x as X. set (x := h_cgs * B2R ex_nu / (k_cgs * B2R ex_temp)) in *.
  pose proof (ex_exp x X) as E. destruct consts_pos as (A & Bk & C).
  set (t := brems_total_R (B2R ex_one) (B2R ex_temp)) in *.
  assert (PT := physical_pos _ P1). pose proof PI_RGT_0 as PP.
  set (y := 4 * PI * (k_cgs * B2R ex_temp / h_cgs)).
  assert (Y : 1 <= y <= 2 ^ 70).
  { assert (PI <= 4) by (pose proof PI_4; lra).
    assert (3 <= PI) by (pose proof PI_digits as [D1 D2]; lra).
    assert (K : 10 ^ 17 <= k_cgs * B2R ex_temp / h_cgs <= 10 ^ 18).
    { destruct ex_values as ((_ & ->) & _).
      assert (Z : k_cgs * 10 ^ 7 / h_cgs * h_cgs = k_cgs * 10 ^ 7) by (field; lra).
      split; apply Rmult_le_reg_r with h_cgs; try exact A; rewrite Z; unfold h_cgs, k_cgs; cbn [pow]; lra. }
    unfold y. set (kk := k_cgs * B2R ex_temp / h_cgs) in *. clearbody kk. cbn [pow] in *. split; nra. }
  assert (J : j = t / y * exp (- x)).
  { unfold j, t, y, brems_R, brems_total_R. fold x. field.
    repeat split; try lra. apply Rgt_not_eq. apply sqrt_lt_R0. unfold theta_e.
    apply Rdiv_lt_0_compat; [apply Rmult_lt_0_compat; assumption|].
    destruct (near_pos _ _ _ _ _ (c_me L)) as [M _]. apply Rmult_lt_0_compat; [apply Rmult_lt_0_compat|]; assumption. }
  assert (W : / 2 ^ 10 <= exp (- x) <= 1).
  { rewrite exp_Ropp. split; [apply Rinv_le_contravar; cbn [pow]; lra|]. rewrite <- Rinv_1. apply Rinv_le_contravar; lra. }
  assert (Iy : / 2 ^ 70 <= / y <= 1).
  { split; [apply Rinv_le_contravar; lra|]. rewrite <- Rinv_1. apply Rinv_le_contravar; lra. }
  pose proof (ex_inv_pos 10) as I10. pose proof (ex_inv_pos 70) as I70. pose proof (ex_inv_pos 500) as I500.
  assert (J1 : / 2 ^ 580 <= j).
  { rewrite J. unfold Rdiv. apply Rle_trans with (/ 2 ^ 500 * / 2 ^ 70 * / 2 ^ 10); [rewrite !ex_inv2; apply ex_inv_le; lia|].
    apply ex_prod; [apply Rmult_lt_0_compat; assumption|assumption|apply ex_prod; lra|lra]. }
  assert (J2 : j <= 2 ^ 600).
  { rewrite J. unfold Rdiv. assert (P6 : 0 < 2 ^ 600) by (apply pow_lt; lra). set (b6 := 2 ^ 600) in *. clearbody b6.
    rewrite <- (Rmult_1_r b6). apply Rmult_le_compat; try lra; [apply Rmult_le_pos; lra|].
    rewrite <- (Rmult_1_r b6). apply Rmult_le_compat; lra. }
  assert (IB : / 2 ^ 50 <= / B <= 2 ^ 10).
  { split; [apply Rinv_le_contravar; lra|]. rewrite <- (Rinv_inv (2 ^ 10)). apply Rinv_le_contravar; lra. }
  pose proof (ex_inv_pos 580). pose proof (ex_inv_pos 50).
  split; [apply Rle_trans with (2 := J1), ex_inv_le; lia|]. split; [apply Rle_trans with (2 := B1), ex_inv_le; lia|]. split.
  - apply Rle_trans with (/ 2 ^ 580 * / 2 ^ 50); [rewrite ex_inv2; apply ex_inv_le; lia|apply ex_prod; lra].
  - apply Rle_trans with (2 ^ 600 * 2 ^ 10); [apply Rmult_le_compat; lra|]. rewrite <- pow_add. apply Rle_pow; [lra|lia].
Qed.

(** ... the power law rho T^(-7/2) with the correction for stimulated emission. *)
Lemma C56_powerlaw_example :
  exists p : PowerLawParams b64,
  let kappa := powerlaw_R p (B2R ex_one) (B2R ex_temp) (B2R ex_nu) * stimulated p (B2R ex_temp) (B2R ex_nu) in
  let B := Planck_B h_cgs k_cgs c_cgs (B2R ex_temp) (B2R ex_nu) in
  let j := B2R ex_one * kappa * B in
  let J := B2R ex_one * powerlaw_R p (B2R ex_one) (B2R ex_temp) (B2R ex_nu) *
    (c_cgs * a_rad h_cgs k_cgs c_cgs * B2R ex_temp ^ 4) in
  powerlaw_ok p ex_one ex_temp ex_nu /\ B2R (pl_temp_exp p) = - (7 / 2) /\ pl_do_stim_emit p = true /\
  not_tiny j /\ j <= 2 ^ 1000 /\ B2R (pl_nu_exp p) = 0 /\ not_tiny J /\ J <= 2 ^ 1000.
Proof.
  set (zero := b64_ldexp 0 0). set (e := b64_ldexp (-7) (-1)).
  exists {| pl_kappa0 := ex_one; pl_rho_exp := ex_one; pl_temp_exp := e; pl_rho_ref := ex_one; pl_rho_off := zero;
            pl_temp_ref := ex_one; pl_temp_off := zero; pl_nu_exp := zero; pl_nu_ref := ex_one; pl_nu_off := zero;
            pl_do_stim_emit := true |}.
  destruct (V_lit 0 0) as [Z1 Z2]; [vm_compute; reflexivity|lia|lia|]. fold zero in Z1, Z2.
  destruct (V_lit (-7) (-1)) as [W1 W2]; [vm_compute; reflexivity|lia|lia|]. fold e in W1, W2.
  unfold V in Z1, W1. rewrite Rmult_0_l in Z1. change (bp (-1)) with (/ 2) in W1.
  assert (E : B2R e = - (7 / 2)) by lra.
  destruct ex_physical as (P1 & P2 & P3). destruct ex_values as ((_ & E1) & (_ & E2) & (_ & E3)).
  destruct ex_B as [[B1 B2] _]. set (B := Planck_B h_cgs k_cgs c_cgs (B2R ex_temp) (B2R ex_nu)) in *.
  destruct C56_library_example as [L HL].
  pose proof (near_planck_T L HL ex_temp P1) as (_ & _ & [N1 N2] & _).
  change (-600)%Z with (- Z.of_nat 600)%Z in N1. rewrite bp_inv in N1. change 600%Z with (Z.of_nat 600) in N2. rewrite <- two_pow_bp in N2.
  unfold V in N1, N2. set (U := c_cgs * a_rad h_cgs k_cgs c_cgs * B2R ex_temp ^ 4) in *.
  pose proof ex_x as X. set (x := h_cgs * B2R ex_nu / (k_cgs * B2R ex_temp)) in *. pose proof (ex_exp x X) as EX.
  assert (S : / 2 <= 1 - exp (- x) <= 1).
  { pose proof (exp_pos (- x)). assert (exp (- x) <= / 2); [|lra].
    rewrite exp_Ropp. apply Rinv_le_contravar; lra. }
  assert (R1 : forall y, 0 < y -> Rpower ((1 + 0) / 1) y = 1).
  { intros y _. replace ((1 + 0) / 1) with 1 by lra. unfold Rpower. rewrite ln_1, Rmult_0_r. apply exp_0. }
  assert (R3 : forall y, Rpower y 0 = 1) by (intros y; unfold Rpower; rewrite Rmult_0_l; apply exp_0).
  set (T := Rpower ((10 ^ 7 + 0) / 1) (- (7 / 2))).
  assert (R2 : / 2 ^ 100 <= T <= 1).
  { unfold T. replace ((10 ^ 7 + 0) / 1) with (10 ^ 7) by lra.
    assert (L7 : 1 < 10 ^ 7) by (cbn [pow]; lra). split.
    - apply Rle_trans with (Rpower (10 ^ 7) (- (4))); [|apply Rlt_le, Rpower_lt; lra].
      rewrite Rpower_Ropp. replace 4 with (INR 4) by (simpl; lra). rewrite Rpower_pow by lra.
      apply Rinv_le_contravar; [apply pow_lt; lra|]. cbn [pow]. lra.
    - rewrite <- (R3 (10 ^ 7)). apply Rlt_le, Rpower_lt; lra. }
  cbn [pl_kappa0 pl_rho_exp pl_temp_exp pl_rho_ref pl_rho_off pl_temp_ref pl_temp_off pl_nu_exp pl_nu_ref pl_nu_off pl_do_stim_emit].
  assert (I150 : / 2 ^ 150 <= / 2 ^ 100) by (apply ex_inv_le; lia).
  assert (I1 : / 2 ^ 100 <= 1) by (rewrite <- Rinv_1; apply Rinv_le_contravar; [lra|]; apply pow_R1_Rle; lra).
  assert (P150 : 1 <= 2 ^ 150) by (apply pow_R1_Rle; lra).
  pose proof (ex_inv_pos 100) as I0. pose proof (ex_inv_pos 600) as I6. pose proof (ex_inv_pos 10) as I10.
  cbv zeta. unfold powerlaw_R, stimulated.
  cbn [pl_kappa0 pl_rho_exp pl_temp_exp pl_rho_ref pl_rho_off pl_temp_ref pl_temp_off pl_nu_exp pl_nu_ref pl_nu_off pl_do_stim_emit].
  fold x. rewrite E, Z1, E1, E3. fold T. rewrite R1 by lra. rewrite R3.
  split; [|split; [reflexivity|split; [reflexivity|]]].
  - unfold powerlaw_ok.
    cbn [pl_kappa0 pl_rho_exp pl_temp_exp pl_rho_ref pl_rho_off pl_temp_ref pl_temp_off pl_nu_exp pl_nu_ref pl_nu_off pl_do_stim_emit].
    rewrite E, Z1, E1, E3. fold T. rewrite R1 by lra. rewrite R3.
    assert (OF : offset zero) by (split; [exact Z2|rewrite Z1; split; [lra|apply pow_le; lra]]).
    assert (X1 : exponent ex_one) by (split; [apply P3|rewrite E3, Rabs_R1; lra]).
    assert (X2 : exponent e) by (split; [exact W2|rewrite E, Rabs_left by lra; lra]).
    assert (X3 : exponent zero) by (split; [exact Z2|rewrite Z1, Rabs_R0; lra]).
    repeat (split; [assumption|]). unfold moderate. repeat split; lra.
  - assert (TB : / 2 ^ 150 <= T * B).
    { apply Rle_trans with (/ 2 ^ 100 * / 2 ^ 10); [rewrite ex_inv2; apply ex_inv_le; lia|apply ex_prod; lra]. }
    assert (B0 : 0 < B) by lra.
    assert (TB2 : T * B <= 2 ^ 50) by (apply Rle_trans with (1 * B); [apply Rmult_le_compat_r; lra|lra]).
    assert (I1000 : / 2 ^ 1000 <= / 2 ^ 150 * / 2).
    { replace (/ 2) with (/ 2 ^ 1) by (cbn [pow]; lra). rewrite ex_inv2. apply ex_inv_le. lia. }
    assert (P50 : 2 ^ 50 <= 2 ^ 1000) by (apply Rle_pow; [lra|lia]).
    pose proof (ex_inv_pos 150) as I15.
    split; [|split; [|split; [reflexivity|split]]].
    + unfold not_tiny. apply Rle_trans with (1 := I1000).
      replace (1 * (1 * 1 * T * 1 * (1 - exp (- x))) * B) with (T * B * (1 - exp (- x))) by ring. apply ex_prod; lra.
    + replace (1 * (1 * 1 * T * 1 * (1 - exp (- x))) * B) with (T * B * (1 - exp (- x))) by ring.
      apply Rle_trans with (T * B * 1); [apply Rmult_le_compat_l; lra|lra].
    + unfold not_tiny. replace (1 * (1 * 1 * T * 1) * U) with (T * U) by ring.
      apply Rle_trans with (/ 2 ^ 100 * / 2 ^ 600); [rewrite ex_inv2; apply ex_inv_le; lia|apply ex_prod; lra].
    + replace (1 * (1 * 1 * T * 1) * U) with (T * U) by ring.
      apply Rle_trans with (1 * 2 ^ 600); [apply Rmult_le_compat; lra|]. rewrite Rmult_1_l. apply Rle_pow; [lra|lia].
Qed.

(** A band from 1 to 10^18 Hz around 10^7 Hz, and an electron fraction of 1/4: the weights
    of electron neutrinos and anti-neutrinos are both 1/2. *)
Lemma C56_tophat_example :
  exists Ye : b64, physical Ye /\ Ye_weight NU_ELECTRON (B2R Ye) = 1 / 2 /\ Ye_weight NU_ELECTRON_ANTI (B2R Ye) = 1 / 2 /\
  B2R ex_one < B2R ex_temp < B2R ex_nu.
Proof.
  exists (b64_ldexp 1 (-2)). destruct (V_lit 1 (-2)) as [E F]; [vm_compute; reflexivity|lia|lia|].
  change (bp (-2)) with (/ 4) in E. unfold V in E.
  destruct ex_values as ((_ & ->) & (_ & ->) & (_ & ->)). pose proof (ex_tiny 100 ltac:(lia)) as T.
  assert (/ 10 ^ 30 <= / 4) by (apply Rinv_le_contravar; cbn [pow]; lra).
  unfold physical, Ye_weight. rewrite E. repeat split; try assumption; cbn [pow] in *; lra.
Qed.
