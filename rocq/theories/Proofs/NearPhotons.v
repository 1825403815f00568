(** The photon functions in double precision. *)
From Coq Require Import Reals ZArith Lra Lia Bool.
From Flocq Require Import Core IEEE754.BinarySingleNaN.
From Verif Require Import Base.Ops Inst.B64 Model.Constants Model.Robust Model.ThermalPhotons Model.GrayPhotons
  Model.PowerLawPhotons Model.EPBremsPhotons Model.ScatteringPhotons Spec.Physics Spec.DoublePrecision Spec.DoubleFormulas Proofs.B64Facts Proofs.Near Proofs.NearConsts Proofs.NearRules.
Open Scope R_scope.

(** the fourth root *)
Lemma quarter_value L : let q := @Odiv b64 (B64_ops L) (@OofZ b64 (B64_ops L) 1) (@OofZ b64 (B64_ops L) 4) in fin q /\ V q = / 4.
Proof.
  intros q. assert (E : B2SF q = SpecFloat.S754_finite false 4503599627370496 (-54)) by (vm_compute; reflexivity).
  destruct (frac_value q _ _ E) as [F H]. split; [exact F|]. rewrite H. cbn [Z.ltb Z.compare].
  change (2 ^ (- -54))%Z with 18014398509481984%Z. lra.
Qed.
Lemma root4_range a b r : bp a <= r <= bp b -> bp (a / 4) <= Rpower r (/ 4) <= bp ((b + 3) / 4).
Proof.
  intros [H1 H2]. pose proof (bpow_gt_0 radix2 a) as P.
  assert (Q : 0 < Rpower r (/ 4)) by apply exp_pos.
  assert (E : Rpower r (/ 4) ^ 4 = r).
  { rewrite <- Rpower_pow by exact Q. rewrite Rpower_mult. replace (/ 4 * INR 4) with 1 by (simpl; lra).
    apply Rpower_1. lra. }
  assert (B : forall e, bp e ^ 4 = bp (e * 4)).
  { intros e. replace (e * 4)%Z with (e + e + e + e)%Z by lia. rewrite !bpow_plus. ring. }
  assert (M : forall s t, 0 < s -> 0 < t -> s ^ 4 <= t ^ 4 -> s <= t).
  { intros s t Hs Ht H. destruct (Rle_lt_dec s t) as [C|C]; [exact C|]. exfalso.
    assert (t * t < s * s) by (apply Rmult_le_0_lt_compat; lra).
    assert (t ^ 4 < s ^ 4).
    { replace (t ^ 4) with ((t * t) * (t * t)) by ring. replace (s ^ 4) with ((s * s) * (s * s)) by ring.
      apply Rmult_le_0_lt_compat; try lra; apply Rmult_le_pos; lra. }
    lra. }
  split; apply M; try apply bpow_gt_0; try exact Q; rewrite E, B.
  - apply Rle_trans with (bp a); [apply bpow_le|exact H1]. pose proof (Z.mul_div_le a 4 eq_refl). lia.
  - apply Rle_trans with (bp b); [exact H2|apply bpow_le].
    pose proof (Z.mod_pos_bound (b + 3) 4 eq_refl). pose proof (Z_div_mod_eq_full (b + 3) 4). lia.
Qed.

Section Planck.
  Context (L : Libm) (HL : accurate_libm L).
  Notation O := (B64_ops L).
  Notation pc := (@PhysicalConstantsCGS b64 O).

  Lemma near_x temp nu : physical temp -> physical nu ->
    near 5 (-235) 167 (@Odiv b64 O (@Omul b64 O (pc_h pc) nu) (@Omul b64 O (pc_kb pc) temp))
      (h_cgs * V nu / (k_cgs * V temp)).
  Proof.
    intros Ht Hn. apply near_in in Ht, Hn. eapply near_conv; [nearg HL|reflexivity|lra|zs|zs].
  Qed.

  Lemma range_hyp r : / 2 ^ 1000 <= r -> bp (-1000) <= r.
  Proof.
    rewrite two_pow_bp. change (Z.of_nat 1000) with 1000%Z.
    change (-1000)%Z with (- (1000))%Z. rewrite bpow_opp. tauto.
  Qed.
  Lemma near_c : c_cgs <> 0 /\ h_cgs <> 0 /\ k_cgs <> 0.
  Proof.
    destruct (near_pos _ _ _ _ _ (c_c L)), (near_pos _ _ _ _ _ (c_h L)), (near_pos _ _ _ _ _ (c_kb L)). lra.
  Qed.

  Lemma near_planck temp nu : physical temp -> physical nu ->
    let x := h_cgs * V nu / (k_cgs * V temp) in
    x <= 680 -> / 2 ^ 1000 <= Planck_B h_cgs k_cgs c_cgs (V temp) (V nu) ->
    near (16 + 6 * x) (-1000) 382 (@planck_nu b64 O pc temp nu) (Planck_B h_cgs k_cgs c_cgs (V temp) (V nu)).
  Proof.
    intros Ht Hn x Hx HB. pose proof (near_x temp nu Ht Hn) as NX. fold x in NX.
    destruct (near_pos _ _ _ _ _ NX) as [X0 _].
    assert (NE := near_expm1 L HL _ _ _ _ _ NX Hx ltac:(rs) ltac:(zs)).
    apply near_in in Ht, Hn. apply range_hyp in HB.
    destruct near_c as (C1 & C2 & C3). pose proof (exp_ineq1_le x).
    assert (E : 2 * h_cgs * V nu * V nu * V nu / (c_cgs * c_cgs) * 1 / (exp x - 1) =
                Planck_B h_cgs k_cgs c_cgs (V temp) (V nu)).
    { unfold Planck_B. fold x. field. lra. }
    unfold planck_nu. cbv zeta. rewrite <- E in HB. eapply near_conv; [|exact E| | |].
    - eapply near_div_low; [|exact NE|exact HB|zs| |].
      + eapply near_conv with (n' := 8) (a' := (-500)%Z) (b' := 147%Z); [nearg HL|reflexivity|rs|zs|zs].
      + zs.
      + rs.
    - rs.
    - zs.
    - zs.
  Qed.

  Lemma near_planck_T temp : physical temp ->
    near 28 (-600) 600 (@planck_T b64 O pc temp) (c_cgs * a_rad h_cgs k_cgs c_cgs * V temp ^ 4).
  Proof.
    intros Ht. apply near_in in Ht. unfold planck_T. destruct near_c as (C1 & C2 & C3).
    eapply near_conv; [nearg HL| |rs|zs|zs]. unfold a_rad, sigma_SB. field. lra.
  Qed.

  Lemma near_energy temp : physical temp ->
    near 29 (-640) 640 (@planck_energy_density b64 O pc temp) (a_rad h_cgs k_cgs c_cgs * V temp ^ 4).
  Proof.
    intros Ht. unfold planck_energy_density. pose proof (near_planck_T temp Ht) as NT. destruct near_c as (C1 & C2 & C3).
    eapply near_conv; [nearg HL| |rs|zs|zs]. field. lra.
  Qed.

  Lemma c_zeta : near 1 0 1 (@Odec b64 O 120206 (-5)) (120206 / 100000).
  Proof. apply (lit_near' 1 _ 120206 100000); [vm_compute; reflexivity|reflexivity]. Qed.
  Lemma near_number_T temp : physical temp ->
    near 26 (-600) 600 (@planck_number_T b64 O pc temp) (number_cgs (V temp)).
  Proof.
    intros Ht. apply near_in in Ht. unfold planck_number_T. cbv zeta. destruct near_c as (C1 & C2 & C3).
    pose proof c_zeta as CZ. eapply near_conv; [nearg HL| |rs|zs|zs]. unfold number_cgs. field. lra.
  Qed.
  Lemma near_number temp : physical temp ->
    near 27 (-640) 640 (@planck_number_density b64 O pc temp) (number_cgs (V temp) / c_cgs).
  Proof.
    intros Ht. unfold planck_number_density. pose proof (near_number_T temp Ht) as NT.
    eapply near_conv; [nearg HL|reflexivity|rs|zs|zs].
  Qed.

  Lemma near_temperature n er e : near n (-640) 640 er e -> n <= 1000 ->
    near (n / 4 + 10) (-250) 250 (@planck_temperature b64 O pc er) (Rpower (e / a_rad h_cgs k_cgs c_cgs) (/ 4)).
  Proof.
    intros He Hn. unfold planck_temperature. destruct (quarter_value L) as [Fq Vq].
    destruct near_c as (C1 & C2 & C3). pose proof PI_RGT_0.
    assert (N : near (n + 29) (-950) 950
      (@Odiv b64 O (@Omul b64 O (@Omul b64 O (@Omul b64 O (@OofZ b64 O 15) (@Opow b64 O (pc_c pc) (@OofZ b64 O 3)))
         (@Opow b64 O (pc_h pc) (@OofZ b64 O 3))) er)
        (@Omul b64 O (@Omul b64 O (@OofZ b64 O 8) (@Opow b64 O (@Opi b64 O) (@OofZ b64 O 5))) (@Opow b64 O (pc_kb pc) (@OofZ b64 O 4))))
      (e / a_rad h_cgs k_cgs c_cgs)).
    { eapply near_conv; [nearg HL| |rs|zs|zs]. unfold a_rad, sigma_SB. field. lra. }
    assert (Nn : 0 <= n) by apply He.
    pose proof (root4_range _ _ _ (proj1 (proj2 (proj2 N)))) as R.
    eapply near_conv; [eapply (near_pow L HL _ _ _ _ _ _ (/ 4)); [exact N|exact Fq|exact Vq|exact R|zs|zs|] |reflexivity| |zs|zs].
    - rewrite Rabs_pos_eq by lra. rs.
    - rewrite Rabs_pos_eq by lra. rs.
  Qed.

  Lemma a_rad_nonzero : a_rad h_cgs k_cgs c_cgs <> 0.
  Proof.
    destruct near_c as (C1 & C2 & C3). pose proof PI_RGT_0. unfold a_rad, sigma_SB.
    apply Rmult_integral_contrapositive_currified; [|apply Rinv_neq_0_compat; lra].
    apply Rmult_integral_contrapositive_currified; [lra|].
    apply Rmult_integral_contrapositive_currified.
    - apply Rmult_integral_contrapositive_currified; [|apply pow_nonzero; lra].
      apply Rmult_integral_contrapositive_currified; [lra|apply pow_nonzero; lra].
    - apply Rinv_neq_0_compat. apply Rmult_integral_contrapositive_currified; [|apply pow_nonzero; lra].
      apply Rmult_integral_contrapositive_currified; [lra|apply pow_nonzero; lra].
  Qed.
  Lemma near_roundtrip temp : physical temp ->
    near 18 (-250) 250 (@planck_temperature b64 O pc (@planck_energy_density b64 O pc temp)) (V temp).
  Proof.
    intros Ht. pose proof (near_temperature _ _ _ (near_energy temp Ht) ltac:(lra)) as N.
    assert (P : 0 < V temp) by (destruct Ht as [_ [H1 H2]]; fold (V temp) in H1; assert (0 < / 2 ^ 100) by (apply Rinv_0_lt_compat, pow_lt; lra); lra).
    apply (near_conv _ _ _ _ _ 18 (-250) 250 (V temp)) in N; [exact N| |lra|lia|lia].
    replace (a_rad h_cgs k_cgs c_cgs * V temp ^ 4 / a_rad h_cgs k_cgs c_cgs) with (V temp ^ 4).
    - rewrite <- Rpower_pow by exact P. rewrite Rpower_mult. replace (INR 4 * / 4) with 1 by (simpl; lra). apply Rpower_1, P.
    - field. exact a_rad_nonzero.
  Qed.

  Definition dPlanck (t nu : R) : R :=
    let x := h_cgs * nu / (k_cgs * t) in
    2 * h_cgs ^ 2 * nu ^ 4 / (t ^ 2 * c_cgs ^ 2 * k_cgs) * exp (- x) / (1 - exp (- x)) ^ 2.

  Lemma near_planck_dT temp nu : physical temp -> physical nu ->
    let x := h_cgs * V nu / (k_cgs * V temp) in
    x <= 680 -> / 2 ^ 1000 <= dPlanck (V temp) (V nu) ->
    near (33 + 6 * x) (-1000) 900 (@planck_dT b64 O pc temp nu) (dPlanck (V temp) (V nu)).
  Proof.
    intros Ht Hn x Hx HB. pose proof (near_x temp nu Ht Hn) as NX. fold x in NX.
    destruct (near_pos _ _ _ _ _ NX) as [X0 _].
    assert (NE := near_exp_neg L HL _ _ _ _ _ NX Hx ltac:(rs) ltac:(rs)).
    assert (NM := near_1mexp L HL _ _ _ _ _ NX ltac:(rs) ltac:(zs)).
    apply near_in in Ht, Hn. apply range_hyp in HB.
    destruct near_c as (C1 & C2 & C3). destruct (near_pos _ _ _ _ _ Ht) as [PT _].
    destruct (near_pos _ _ _ _ _ NM) as [PM _]. change (Z.min (-235) 0 - 1)%Z with (-236)%Z in NM.
    set (e := exp (- x)) in *. set (o := 1 - e) in *.
    set (q := 2 * h_cgs * h_cgs * V nu * V nu * V nu * V nu / (V temp * V temp * c_cgs * c_cgs * k_cgs)).
    assert (E : q * e / (o * o) = dPlanck (V temp) (V nu)).
    { unfold dPlanck, q. fold x. fold e. fold o. field. lra. }
    assert (Q : near 14 (-800) 420
      (@Odiv b64 O (@Omul b64 O (@Omul b64 O (@Omul b64 O (@Omul b64 O (@Omul b64 O (@Omul b64 O (@OofZ b64 O 2) (pc_h pc)) (pc_h pc)) nu) nu) nu) nu)
        (@Omul b64 O (@Omul b64 O (@Omul b64 O (@Omul b64 O temp temp) (pc_c pc)) (pc_c pc)) (pc_kb pc))) q).
    { eapply near_conv; [nearg HL|reflexivity|rs|zs|zs]. }
    destruct (near_pos _ _ _ _ _ Q) as [PQ _].
    assert (NQ : bp (-1002) <= q * e).
    { destruct (Rle_lt_dec 1 x) as [C|C].
      - rewrite <- E in HB. assert (o >= / 2).
        { unfold o, e. assert (exp (- x) <= / 2); [|lra].
          apply Rle_trans with (exp (- (1))); [apply exp_mono; lra|].
          rewrite exp_Ropp. apply Rinv_le_contravar; [lra|]. pose proof (exp_ineq1_le 1). lra. }
        assert (/ 4 <= o * o) by (replace (/ 4) with (/ 2 * / 2) by lra; apply Rmult_le_compat; lra).
        replace (q * e) with (q * e / (o * o) * (o * o)) by (field; lra).
        change (-1002)%Z with (-1000 + -2)%Z. rewrite bpow_plus. change (bp (-2)) with (/ 4).
        pose proof (bpow_ge_0 radix2 (-1000)). apply Rmult_le_compat; lra.
      - assert (/ 4 <= e).
        { unfold e. rewrite exp_Ropp. apply Rinv_le_contravar; [apply exp_pos|].
          apply Rle_trans with (exp 1); [apply exp_mono; lra|]. pose proof exp_le_3. lra. }
        apply Rle_trans with (bp (-800) * / 4).
        + change (/ 4) with (bp (-2)). rewrite <- bpow_plus. apply bpow_le. lia.
        + destruct Q as (_ & _ & [Q1 _] & _). pose proof (bpow_ge_0 radix2 (-800)). apply Rmult_le_compat; lra. }
    unfold planck_dT. cbv zeta. rewrite <- E in HB. eapply near_conv; [|exact E| | |].
    - eapply near_div_low; [|nearg HL|exact HB|zs| |].
      + eapply near_mul_low; [exact Q|exact NE|exact NQ|zs|zs|rs].
      + zs.
      + rs.
    - rs.
    - zs.
    - zs.
  Qed.

  (** ** Gray *)
  Lemma near_gray_alpha kappa rho temp nu : physical kappa -> physical rho ->
    near 1 (-200) 200 (@gray_alpha b64 O kappa rho temp nu) (V rho * V kappa).
  Proof.
    intros Hk Hr. apply near_in in Hk, Hr. unfold gray_alpha.
    eapply near_conv; [nearg HL|reflexivity|rs|zs|zs].
  Qed.
  Lemma near_gray_jnu kappa rho temp nu n b B : physical kappa -> physical rho ->
    near n (-1000) 382 b B -> n <= 10000 -> / 2 ^ 1000 <= V rho * V kappa * B ->
    near (n + 2) (-1000) 582 (@Omul b64 O (@gray_alpha b64 O kappa rho temp nu) b) (V rho * V kappa * B).
  Proof.
    intros Hk Hr NB Hn HJ. pose proof (near_gray_alpha kappa rho temp nu Hk Hr) as NA. apply range_hyp in HJ.
    eapply near_conv; [eapply near_mul_low; [exact NA|exact NB|exact HJ|zs|zs|rs]|reflexivity|rs|zs|zs].
  Qed.
  Lemma near_4pi n a b j J : near n a b j J -> (-1000 <= a)%Z -> (b <= 1000)%Z -> n <= 20000 ->
    near (n + 3) (a + 3) (b + 4) (@Omul b64 O (@Omul b64 O (@OofZ b64 O 4) (@Opi b64 O)) j) (4 * PI * J).
  Proof.
    intros NJ Ha Hb Hn. eapply near_conv; [eapply n_mul; [nearg HL|exact NJ| | |rs] |reflexivity|rs| |]; lia.
  Qed.

  (** ** Power law *)
  Lemma near_shift x off ref : physical x -> offset off -> physical ref ->
    near 2 (-200) 201 (@Odiv b64 O (@Oadd b64 O x off) ref) ((V x + V off) / V ref).
  Proof.
    intros Hx [Fo Ho] Hr. apply near_in in Hx, Hr. fold (V off) in Ho.
    destruct (near_pos _ _ _ _ _ Hx) as [Px _].
    assert (N : near 1 (-100) 101 (@Oadd b64 O x off) (V x + V off)).
    { destruct Hx as (Fx & _ & [X1 X2] & _).
      assert (R : bp (-100) <= V x + V off <= bp 101).
      { rewrite two_pow_bp in Ho. change (Z.of_nat 100) with 100%Z in Ho. change 101%Z with (100 + 1)%Z.
        rewrite bpow_plus. change (bp 1) with 2. lra. }
      destruct (add_V x off 101 Fx Fo ltac:(lia) ltac:(lia)) as [E F]; [rewrite Rabs_pos_eq; lra|].
      replace 1 with (0 + 1) by lra.
      apply near_round with (V x + V off); try lia; try lra; try assumption;
        try (rewrite Rmult_0_l, ?Ropp_0, exp_0; lra). }
    eapply near_conv; [eapply n_div; [exact N|exact Hr|zs|zs|rs]|reflexivity|rs|zs|zs].
  Qed.
  Lemma moderate_range r : moderate r -> bp (-150) <= r <= bp 150.
  Proof.
    unfold moderate. rewrite two_pow_bp. change (Z.of_nat 150) with 150%Z. intros [H1 H2].
    rewrite <- bpow_opp in H1. split; assumption.
  Qed.
  Lemma near_shift_pow x off ref e : physical x -> offset off -> physical ref -> exponent e ->
    moderate (Rpower ((V x + V off) / V ref) (V e)) ->
    near (2 * Rabs (V e) + 2) (-150) 150 (@Opow b64 O (@Odiv b64 O (@Oadd b64 O x off) ref) e)
      (Rpower ((V x + V off) / V ref) (V e)).
  Proof.
    intros Hx Ho Hr [Fe He] M. fold (V e) in He. apply moderate_range in M. pose proof (Rabs_pos (V e)).
    pose proof (near_shift x off ref Hx Ho Hr) as N.
    eapply near_conv; [eapply (near_pow L HL); [exact N|exact Fe|reflexivity|exact M|zs|zs|rs]|reflexivity|rs|zs|zs].
  Qed.


  Lemma exps_bound p rho temp nu : powerlaw_ok p rho temp nu -> 0 <= exps p <= 3000.
  Proof.
    intros (_ & _ & _ & _ & _ & _ & _ & _ & _ & _ & [_ E1] & [_ E2] & [_ E3] & _). unfold exps.
    pose proof (Rabs_pos (V (pl_rho_exp p))). pose proof (Rabs_pos (V (pl_temp_exp p))).
    pose proof (Rabs_pos (V (pl_nu_exp p))). unfold V in *. lra.
  Qed.
  Lemma near_powerlaw_prefactor p rho temp nu : powerlaw_ok p rho temp nu ->
    near (2 * (Rabs (V (pl_rho_exp p)) + Rabs (V (pl_temp_exp p))) + 6) (-400) 400 (@powerlaw_prefactor b64 O p rho temp)
      (V (pl_kappa0 p) * Rpower ((V rho + V (pl_rho_off p)) / V (pl_rho_ref p)) (V (pl_rho_exp p)) *
       Rpower ((V temp + V (pl_temp_off p)) / V (pl_temp_ref p)) (V (pl_temp_exp p))).
  Proof.
    intros H. pose proof (exps_bound p rho temp nu H) as B. unfold exps in B. change (@B2R 53 1024) with V in B.
    destruct H as (Hk & Hr & Ht & Hn & R1 & R2 & R3 & O1 & O2 & O3 & E1 & E2 & E3 & M1 & M2 & M3).
    pose proof (near_shift_pow _ _ _ _ Hr O1 R1 E1 M1) as N1. pose proof (near_shift_pow _ _ _ _ Ht O2 R2 E2 M2) as N2.
    pose proof (Rabs_pos (V (pl_rho_exp p))). pose proof (Rabs_pos (V (pl_temp_exp p))).
    pose proof (Rabs_pos (V (pl_nu_exp p))).
    apply near_in in Hk. unfold powerlaw_prefactor. cbv zeta.
    eapply near_conv; [|reflexivity| | |].
    - eapply n_mul; [eapply n_mul; [exact Hk|exact N1|zs|zs|rs]|exact N2|zs|zs|rs].
    - rs.
    - zs.
    - zs.
  Qed.
  Lemma near_powerlaw_s_scale p rho temp nu : powerlaw_ok p rho temp nu ->
    near (2 * exps p + 9) (-550) 550 (@powerlaw_s_scale b64 O p rho temp nu) (powerlaw_R p (V rho) (V temp) (V nu)).
  Proof.
    intros H. pose proof (exps_bound p rho temp nu H) as B. pose proof (near_powerlaw_prefactor p rho temp nu H) as NP.
    destruct H as (Hk & Hr & Ht & Hn & R1 & R2 & R3 & O1 & O2 & O3 & E1 & E2 & E3 & M1 & M2 & M3).
    pose proof (near_shift_pow _ _ _ _ Hn O3 R3 E3 M3) as N3. unfold exps in *. change (@B2R 53 1024) with V in *.
    pose proof (Rabs_pos (V (pl_rho_exp p))). pose proof (Rabs_pos (V (pl_temp_exp p))).
    pose proof (Rabs_pos (V (pl_nu_exp p))).
    unfold powerlaw_s_scale, powerlaw_R. eapply near_conv; [|reflexivity| | |].
    - eapply n_mul; [exact NP|exact N3|zs|zs|rs].
    - rs.
    - zs.
    - zs.
  Qed.
  Lemma near_stim p temp nu : physical temp -> physical nu ->
    near 7 (-236) 0 (if pl_do_stim_emit p
        then @Oopp b64 O (@Oexpm1 b64 O (@Oopp b64 O (@Odiv b64 O (@Omul b64 O (pc_h pc) nu) (@Omul b64 O (pc_kb pc) temp))))
        else @OofZ b64 O 1) (stimulated p (V temp) (V nu)).
  Proof.
    intros Ht Hn. pose proof (near_x temp nu Ht Hn) as NX. unfold stimulated. destruct (pl_do_stim_emit p).
    - assert (NM := near_1mexp L HL _ _ _ _ _ NX ltac:(rs) ltac:(zs)).
      eapply near_conv; [exact NM|reflexivity|rs|zs|zs].
    - eapply near_conv with (r := 1); [nearg HL|reflexivity|rs|zs|zs].
  Qed.
  Lemma near_powerlaw_alpha p rho temp nu : powerlaw_ok p rho temp nu ->
    near (2 * exps p + 18) (-886) 650 (@powerlaw_alpha b64 O pc p rho temp nu)
      (V rho * (powerlaw_R p (V rho) (V temp) (V nu) * stimulated p (V temp) (V nu))).
  Proof.
    intros H. pose proof (exps_bound p rho temp nu H) as B. pose proof (near_powerlaw_s_scale p rho temp nu H) as NS.
    assert (Ht : physical temp) by apply H. assert (Hn : physical nu) by apply H. assert (Hr : physical rho) by apply H.
    pose proof (near_stim p temp nu Ht Hn) as N7. apply near_in in Hr.
    unfold powerlaw_alpha, powerlaw_scale. cbv zeta. eapply near_conv; [|reflexivity| | |].
    - eapply n_mul; [exact Hr|eapply n_mul; [exact NS|exact N7|zs|zs|rs]|zs|zs|rs].
    - rs.
    - zs.
    - zs.
  Qed.

  (** ** Scattering *)
  Lemma c_hbar : near 4 (-90) (-88) (pc_hbar pc) (h_cgs / (2 * PI)).
  Proof.
    change (pc_hbar pc) with (@Odiv b64 O (pc_h pc) (@Omul b64 O (@OofZ b64 O 2) (@Opi b64 O))).
    eapply near_conv; [nearg HL|reflexivity|rs|zs|zs].
  Qed.
  Lemma near_sigmaT : near 26 (-100) (-60) (@thomson_sigmaT b64 O pc) sigmaT_cgs.
  Proof.
    pose proof c_hbar as CH. unfold thomson_sigmaT.
    assert (N : near 10 (-45) (-38) (@Odiv b64 O (@Omul b64 O (pc_alpha pc) (pc_hbar pc)) (@Omul b64 O (pc_me pc) (pc_c pc)))
      (alpha_cgs * (h_cgs / (2 * PI)) / (me_cgs * c_cgs))).
    { eapply near_conv; [eapply n_div; [eapply n_mul; [nearg HL|exact CH|zs|zs|rs]|nearg HL|zs|zs|rs]|reflexivity|rs| |].
      zs. zs. }
    eapply near_conv; [|reflexivity| | |].
    - eapply n_mul; [nearg HL|eapply (n_pow _ HL _ _ _ _ _ 2); [exact N|reflexivity|reflexivity|zs|zs|rs]|zs|zs|rs].
    - rs.
    - zs.
    - zs.
  Qed.

  (** ** Bremsstrahlung *)

  Lemma near_prefac : near (61 / 2) (-150) (-130) (@ep_prefac b64 O pc) brems_c.
  Proof. unfold ep_prefac. eapply near_conv; [nearg HL|reflexivity|rs|zs|zs]. Qed.
  Lemma c_gff : near 1 0 1 (@ep_gff b64 O) (12 / 10).
  Proof. apply (lit_near' 1 _ 12 10); [vm_compute; reflexivity|reflexivity]. Qed.
  Lemma mass_pos : mp_cgs + me_cgs <> 0 /\ me_cgs <> 0.
  Proof. destruct (near_pos _ _ _ _ _ (c_mp L)), (near_pos _ _ _ _ _ (c_me L)). lra. Qed.
  Lemma near_ne rho : physical rho ->
    near 9 (-25) 185 (@Odiv b64 O (@Odiv b64 O rho (@ep_mmw b64 O pc)) (@OofZ b64 O 2)) (n_e (V rho)).
  Proof.
    intros Hr. apply near_in in Hr. unfold ep_mmw, n_e. destruct mass_pos.
    eapply near_conv; [nearg HL|field; lra|rs|zs|zs].
  Qed.
  Lemma near_sqrt_theta temp : physical temp ->
    near (9 / 2) (-70) 40
      (@Osqrt b64 O (@Odiv b64 O (@Omul b64 O (pc_kb pc) temp) (@Omul b64 O (@Omul b64 O (pc_me pc) (pc_c pc)) (pc_c pc))))
      (sqrt (theta_e (V temp))).
  Proof. intros Ht. apply near_in in Ht. eapply near_conv; [nearg HL|reflexivity|rs|zs|zs]. Qed.

  Lemma near_brems rho temp nu : physical rho -> physical temp -> physical nu ->
    let x := h_cgs * V nu / (k_cgs * V temp) in
    x <= 680 -> / 2 ^ 1000 <= brems_R (V rho) (V temp) (V nu) ->
    near (61 + 6 * x) (-1000) 600 (@ep_jnu b64 O pc rho temp nu) (brems_R (V rho) (V temp) (V nu)).
  Proof.
    intros Hr Ht Hn x Hx HJ. pose proof (near_x temp nu Ht Hn) as NX. fold x in NX.
    destruct (near_pos _ _ _ _ _ NX) as [X0 _].
    assert (NE := near_exp_neg L HL _ _ _ _ _ NX Hx ltac:(rs) ltac:(rs)).
    pose proof (near_ne rho Hr) as NR. pose proof (near_sqrt_theta temp Ht) as NT.
    pose proof near_prefac as NP. pose proof c_gff as NG. apply range_hyp in HJ.
    assert (N0 : near 56 (-240) 310 (@Omul b64 O (@Omul b64 O (@Odiv b64 O (@ep_prefac b64 O pc)
        (@Osqrt b64 O (@Odiv b64 O (@Omul b64 O (pc_kb pc) temp) (@Omul b64 O (@Omul b64 O (pc_me pc) (pc_c pc)) (pc_c pc)))))
        (@Odiv b64 O (@Odiv b64 O rho (@ep_mmw b64 O pc)) (@OofZ b64 O 2)))
        (@Odiv b64 O (@Odiv b64 O rho (@ep_mmw b64 O pc)) (@OofZ b64 O 2)))
      (brems_c / sqrt (theta_e (V temp)) * n_e (V rho) * n_e (V rho))).
    { eapply near_conv; [|reflexivity| | |].
      - eapply n_mul; [eapply n_mul; [eapply n_div; [exact NP|exact NT|zs|zs|rs]|exact NR|zs|zs|rs]|exact NR|zs|zs|rs].
      - rs.
      - zs.
      - zs. }
    unfold brems_R in *. fold x in HJ |- *. set (q := brems_c / sqrt (theta_e (V temp)) * n_e (V rho) * n_e (V rho)) in *.
    assert (HQ : bp (-1001) <= q * exp (- x)).
    { change (-1001)%Z with (-1000 + -1)%Z. rewrite bpow_plus. change (bp (-1)) with (/ 2).
      pose proof (bpow_gt_0 radix2 (-1000)). lra. }
    unfold ep_jnu. cbv zeta. eapply near_conv; [|reflexivity| | |].
    - eapply near_mul_low; [eapply near_mul_low; [exact N0|exact NE|exact HQ|zs|zs|rs]|exact NG|exact HJ|zs|zs|rs].
    - rs.
    - zs.
    - zs.
  Qed.

  Lemma near_brems_total rho temp : physical rho -> physical temp ->
    near 66 (-500) 600 (@ep_J b64 O pc rho temp) (brems_total_R (V rho) (V temp)).
  Proof.
    intros Hr Ht. pose proof (near_ne rho Hr) as NR. pose proof (near_sqrt_theta temp Ht) as NT.
    pose proof near_prefac as NP. pose proof c_gff as NG. apply near_in in Ht. destruct near_c as (C1 & C2 & C3).
    destruct (near_pos _ _ _ _ _ NT) as [PT _].
    unfold ep_J. cbv zeta. eapply near_conv; [| | | |].
    - eapply n_mul; [eapply n_mul; [eapply n_mul; [eapply n_div; [eapply n_mul; [nearg HL|exact NP|zs|zs|rs]
        |exact NT|zs|zs|rs]|exact NR|zs|zs|rs]|exact NR|zs|zs|rs]|exact NG|zs|zs|rs].
    - unfold brems_total_R. field. lra.
    - rs.
    - zs.
    - zs.
  Qed.

  (** ** The guarded quotient *)
  Lemma near_guard m b y s : near m (-900) b y s -> (b <= 1020)%Z -> m <= 274877906944 ->
    near (m + 2) (-900) b (@Oadd b64 O y (@Omul b64 O (@OofZ b64 O (@sgn b64 O y)) (@SMALL b64 O))) s.
  Proof.
    intros Hy Hb Hm. destruct (near_pos _ _ _ _ _ Hy) as [Ps Py].
    assert (S1 : @sgn b64 O y = 1%Z).
    { unfold sgn. destruct Hy as (Fy & _).
      assert (A : @Oleb b64 O (@OofZ b64 O 0) y = true).
      { change (Bleb (b64_of_Z 0) y = true). rewrite Bleb_correct; [|reflexivity|exact Fy].
        apply Rle_bool_true. change (B2R (b64_of_Z 0)) with 0. fold (V y). lra. }
      assert (B : @Oltb b64 O y (@OofZ b64 O 0) = false).
      { change (Bltb y (b64_of_Z 0) = false). rewrite Bltb_correct; [|exact Fy|reflexivity].
        apply Rlt_bool_false. change (B2R (b64_of_Z 0)) with 0. fold (V y). lra. }
      rewrite A, B. reflexivity. }
    rewrite S1.
    set (t := @Omul b64 O (@OofZ b64 O 1) (@SMALL b64 O)).
    assert (E : B2SF t = SpecFloat.S754_finite false 5629499534213120 (-1071)) by (vm_compute; reflexivity).
    destruct (frac_value t _ _ E) as [Ft Vt].
    assert (T : V t = 5 * bp (-1021)).
    { rewrite Vt. cbn [Z.ltb Z.compare]. change (- -1071)%Z with 1071%Z. rewrite bp_neg by reflexivity.
      change (- -1021)%Z with 1021%Z. replace (2 ^ 1071)%Z with (2 ^ 50 * 2 ^ 1021)%Z by (vm_compute; reflexivity).
      rewrite mult_IZR. change (2 ^ 50)%Z with 1125899906842624%Z.
      assert (0 < IZR (2 ^ 1021)) by (apply IZR_lt; reflexivity). field. lra. }
    destruct Hy as (Fy & Nm & [Y1 Y2] & [Y3 Y4]).
    pose proof (bpow_gt_0 radix2 (-1021)) as PB. pose proof w_pos as W.
    assert (K : 5 * bp (-1021) <= s * exp (m * w) * (1 * u)).
    { apply Rle_trans with (bp (-900) * u).
      - rewrite u_bpow, <- bpow_plus. change (-900 + -53)%Z with (-1021 + 68)%Z. rewrite bpow_plus, Rmult_comm.
        apply Rmult_le_compat_l; [lra|]. change (bp 68) with 295147905179352825856. lra.
      - rewrite Rmult_1_l. apply Rmult_le_compat_r; [apply Rlt_le, u_pos|].
        rewrite <- (Rmult_1_r (bp (-900))). pose proof (bpow_ge_0 radix2 (-900)).
        apply Rmult_le_compat; try lra. pose proof (exp_ineq1_le (m * w)).
        assert (0 <= m * w) by (apply Rmult_le_pos; lra). lra. }
    assert (Z : s * exp (- ((m + 1) * w)) <= V y + V t <= s * exp ((m + 1) * w)).
    { rewrite T. split.
      - apply Rle_trans with (s * exp (- (m * w))); [|lra]. apply Rmult_le_compat_l; [lra|]. apply exp_mono. lra.
      - pose proof (exp_up 1 ltac:(lra)) as U. rewrite <- w_scale'.
        apply Rle_trans with (s * exp (m * w) * (1 + 1 * u)); [lra|].
        apply Rmult_le_compat_l; [|exact U]. apply Rmult_le_pos; [lra|apply Rlt_le, exp_pos]. }
    destruct (near_normal (m + 1) (-900) b _ _ ltac:(cbn [pow]; lra) ltac:(lia) ltac:(lia) (conj Y1 Y2) Z) as [N1 N2].
    pose proof (bpow_gt_0 radix2 (-1022)).
    destruct (add_V y t 1022 Fy Ft ltac:(lia) ltac:(lia)) as [EV F]; [rewrite Rabs_pos_eq; lra|].
    replace (m + 2) with (m + 1 + 1) by lra.
    apply near_round with (V y + V t); try lia; try assumption; [cbn [pow]; lra|split; assumption].
  Qed.
  Lemma near_ratio n a b x r m d y s : near n a b x r -> near m (-900) d y s -> (d <= 1020)%Z ->
    n <= 274877906944 -> m <= 274877906944 -> / 2 ^ 1000 <= r / s <= 2 ^ 1000 ->
    near (n + m + 3) (-1000) 1000 (@ratio b64 O x y) (r / s).
  Proof.
    intros Hx Hy Hd Hn Hm [R1 R2]. pose proof (near_guard m d y s Hy Hd Hm) as NG. apply range_hyp in R1.
    rewrite two_pow_bp in R2. change (Z.of_nat 1000) with 1000%Z in R2.
    unfold ratio. eapply near_conv; [|reflexivity| | |].
    - eapply near_div_range; [exact Hx|exact NG|split; [exact R1|exact R2]|zs|zs|rs].
    - rs.
    - zs.
    - zs.
  Qed.
End Planck.
