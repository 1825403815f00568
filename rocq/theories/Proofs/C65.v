(** C65: the absorption and the particle emission of the tophat in double precision. *)
From Coquelicot Require Import Coquelicot.
From Coq Require Import Reals ZArith Lra Lia Bool.
From Flocq Require Import Core IEEE754.BinarySingleNaN.
From Verif Require Import Base.Outcome Base.Ops Inst.B64 Model.Constants Model.RadTypes Model.NeutrinoApi Model.Robust
  Model.ThermalNeutrinos Model.OpacNeutrinos Spec.Physics Spec.Opacities Spec.Tables Spec.DoublePrecision Spec.DoubleFormulas Spec.DoubleTophat
  Proofs.B64Facts Proofs.Near Proofs.NearConsts Proofs.NearRules Proofs.NearPhotons Proofs.NearNeutrinos Proofs.NarrowGroup Proofs.DoubleTables Proofs.C56 Proofs.C63.
Open Scope R_scope.

(** ** The logarithm of an accurate number *)
Lemma ln_le_up x y : 0 < x -> x <= y -> ln x <= ln y.
Proof. intros H [A| ->]; [left; now apply ln_increasing|lra]. Qed.
Lemma near_log L z r D : accurate_log L -> near 1 (-200) 200 z r -> D = ln r -> / 2 ^ 30 <= D ->
  near (2 + 101 / 100 / D) (-30) 8 (lm_log L z) D.
Proof.
  intros HL Hz ED HD. destruct (near_pos _ _ _ _ _ Hz) as [Pr Pz]. destruct Hz as (Fz & _ & [_ Rr] & [B1 B2]).
  assert (H30 : / 2 ^ 30 = / 1073741824) by (simpl; f_equal; lra). rewrite H30 in HD. clear H30.
  assert (PD : 0 < D) by lra. pose proof w_pos as W. pose proof u_small as U. assert (W' : w <= / 500000000000000) by (unfold w; lra).
  assert (A1 : D - w <= ln (V z)).
  { replace (D - w) with (ln (r * exp (- (1 * w)))); [apply ln_le_up; [apply Rmult_lt_0_compat; [exact Pr|apply exp_pos]|exact B1]|].
    rewrite ln_mult by (try exact Pr; apply exp_pos). rewrite ln_exp, <- ED. ring. }
  assert (A2 : ln (V z) <= D + w).
  { replace (D + w) with (ln (r * exp (1 * w))); [apply ln_le_up; [exact Pz|exact B2]|].
    rewrite ln_mult by (try exact Pr; apply exp_pos). rewrite ln_exp, <- ED. ring. }
  assert (PL : 0 < ln (V z)) by lra.
  destruct (within_near 2 _ _ (HL z Fz Pz) ltac:(lra) PL) as [Fl [C1 C2]].
  set (t := w / D).
  assert (T : 0 < t <= / 1000).
  { split; [apply Rdiv_lt_0_compat; lra|]. unfold t. apply (Rmult_le_reg_r D); [exact PD|]. unfold Rdiv. rewrite Rmult_assoc, Rinv_l by lra. lra. }
  assert (ET : D * t = w) by (unfold t; field; lra).
  assert (EN : (2 + 101 / 100 / D) * w = 2 * w + 101 / 100 * t) by (unfold t; field; lra).
  assert (TT : 0 <= t * t <= t * / 1000) by (split; [apply Rmult_le_pos; lra|apply Rmult_le_compat_l; lra]).
  assert (E1 : exp (- (101 / 100 * t)) <= 1 - t).
  { rewrite exp_Ropp. pose proof (exp_ineq1_le (101 / 100 * t)) as E.
    apply Rle_trans with (/ (1 + 101 / 100 * t)); [apply Rinv_le_contravar; lra|].
    apply (Rmult_le_reg_r (1 + 101 / 100 * t)); [lra|]. rewrite Rinv_l by lra.
    replace ((1 - t) * (1 + 101 / 100 * t)) with (1 + t * / 100 - 101 / 100 * (t * t)) by lra. lra. }
  assert (E2 : 1 + t <= exp (101 / 100 * t)) by (pose proof (exp_ineq1_le (101 / 100 * t)); lra).
  clearbody t. split; [exact Fl|]. split.
  { assert (0 < 101 / 100 / D) by (apply Rdiv_lt_0_compat; lra). lra. }
  split.
  - change (bp (-30)) with (/ 1073741824). split; [exact HD|]. rewrite ED. apply Rle_trans with (ln (bp 200)); [apply ln_le_up; assumption|].
    change 200%Z with (Z.of_nat 200). rewrite <- (two_pow_bp 200). rewrite <- Rpower_pow by lra. unfold Rpower. rewrite ln_exp, INR_IZR_INZ. change (IZR (Z.of_nat 200)) with 200.
    assert (ln 2 <= 1) by (rewrite <- (ln_exp 1); apply ln_le_up; [lra|]; pose proof (exp_ineq1_le 1); lra). change (bp 8) with 256. lra.
  - rewrite EN. rewrite Ropp_plus_distr, !exp_plus. fold (V (lm_log L z)) in *. split.
    + apply Rle_trans with (2 := C1). replace (D * (exp (- (2 * w)) * exp (- (101 / 100 * t)))) with (D * exp (- (101 / 100 * t)) * exp (- (2 * w))) by ring.
      apply Rmult_le_compat_r; [left; apply exp_pos|]. apply Rle_trans with (D * (1 - t)); [apply Rmult_le_compat_l; [lra|exact E1]|]. replace (D * (1 - t)) with (D - w) by (rewrite <- ET; ring). exact A1.
    + apply Rle_trans with (1 := C2). replace (D * (exp (2 * w) * exp (101 / 100 * t))) with (D * exp (101 / 100 * t) * exp (2 * w)) by ring.
      apply Rmult_le_compat_r; [left; apply exp_pos|]. apply Rle_trans with (D * (1 + t)); [|apply Rmult_le_compat_l; [lra|exact E2]]. replace (D * (1 + t)) with (D + w) by (rewrite <- ET; ring). exact A2.
Qed.

(** Inside the band, for the species it emits, the particle emission to 16 roundings, and two
    more for each time the logarithm of the ratio of the ends of the band fits into 1. *)
Lemma C65_number_proof : forall (L : Libm) (C numin numax rho temp Ye : b64) (type : RadiationType),
  let O := B64_ops L in
  let pc := @PhysicalConstantsCGS b64 O in
  let o := @TophatEmissivity b64 O 3 pc C numin numax in
  let w := Ye_weight type (B2R Ye) in
  let D := ln (B2R numax / B2R numin) in
  accurate_log L -> physical C -> physical numin -> physical numax -> physical rho -> physical Ye -> 0 < w -> / 2 ^ 30 <= D ->
  returns (nu_NumberEmissivity o rho temp Ye type) (16 + 2 / D) (4 * PI * (B2R C / h_cgs * D) * w).
Proof.
  intros L C numin numax rho temp Ye type O pc o w D HL HC H1 H2 Hr Hy Hw HD.
  pose proof (near_YeF L type Ye Hy Hw) as NW. pose proof (near_in _ HC) as NC. pose proof (near_in _ H1) as N1. pose proof (near_in _ H2) as N2.
  pose proof (near_in _ Hr) as NR. pose proof (c_h L) as NH.
  assert (PD : 0 < D) by (assert (0 < / 2 ^ 30) by (apply Rinv_0_lt_compat, pow_lt; lra); lra).
  assert (ID : 0 < / D <= 1073741824).
  { split; [now apply Rinv_0_lt_compat|]. replace 1073741824 with (/ / 2 ^ 30) by (rewrite Rinv_inv; simpl; lra). apply Rinv_le_contravar; [apply Rinv_0_lt_compat, pow_lt; lra|exact HD]. }
  assert (NZ := n_div L _ _ _ _ _ _ _ _ _ _ N2 N1 ltac:(zs) ltac:(zs) ltac:(rs)).
  assert (NZ' : near 1 (-200) 200 (@Odiv b64 O numax numin) (V numax / V numin)) by (eapply near_conv; [exact NZ|reflexivity|rs|zs|zs]).
  pose proof (near_log L _ _ D HL NZ' eq_refl HD) as NL. unfold Rdiv in NL at 1.
  assert (HR := n_mul L _ _ _ _ _ _ _ _ _ _ NH NR ltac:(zs) ltac:(zs) ltac:(rs)).
  assert (NO : near 0 0 0 (@OofZ b64 O 1) 1) by zlit 1%Z.
  assert (M1 := n_div L _ _ _ _ _ _ _ _ _ _ NO HR ltac:(zs) ltac:(zs) ltac:(rs)).
  assert (M2 := n_mul L _ _ _ _ _ _ _ _ _ _ M1 NC ltac:(zs) ltac:(zs) ltac:(rs)).
  assert (M3 := n_mul L _ _ _ _ _ _ _ _ _ _ M2 NL ltac:(zs) ltac:(zs) ltac:(rs)).
  assert (P4 := near_4pi L _ _ _ _ _ NR ltac:(zs) ltac:(zs) ltac:(rs)).
  assert (M4 := n_mul L _ _ _ _ _ _ _ _ _ _ P4 M3 ltac:(zs) ltac:(zs) ltac:(rs)).
  assert (M5 := n_mul L _ _ _ _ _ _ _ _ _ _ M4 NW ltac:(zs) ltac:(zs) ltac:(rs)).
  assert (ER : 4 * PI * V rho * (1 / (h_cgs * V rho) * V C * D) * Ye_weight type (V Ye) = 4 * PI * (B2R C / h_cgs * D) * w).
  { fold (V C). unfold w. fold (V Ye). destruct consts_pos as (Ph & _). pose proof (physical_pos _ Hr) as Pr. fold (V rho) in Pr. field. split; lra. }
  rewrite ER in M5. unfold Rdiv at 1. apply (near_returns _ _ _ _ _ _ _ M5); [reflexivity|rs|rs].
Qed.

(** ** Kirchhoff's law *)
Lemma eps_value L : fin (@fd_EPS b64 (B64_ops L)) /\ V (@fd_EPS b64 (B64_ops L)) = 5 * bp (-1021).
Proof.
  set (t := @fd_EPS b64 (B64_ops L)).
  assert (E : B2SF t = SpecFloat.S754_finite false 5629499534213120 (-1071)) by (vm_compute; reflexivity).
  destruct (frac_value t _ _ E) as [Ft Vt]. split; [exact Ft|]. rewrite Vt. cbn [Z.ltb Z.compare]. change (- -1071)%Z with 1071%Z. rewrite bp_neg by reflexivity.
  change (- -1021)%Z with 1021%Z. replace (2 ^ 1071)%Z with (2 ^ 50 * 2 ^ 1021)%Z by (vm_compute; reflexivity).
  rewrite mult_IZR. change (2 ^ 50)%Z with 1125899906842624%Z.
  assert (0 < IZR (2 ^ 1021)) by (apply IZR_lt; reflexivity). field. lra.
Qed.
Lemma max_eps L n a b y s : near n a b y s -> (-1000 <= a)%Z -> n <= 2 ^ 40 -> @Omax b64 (B64_ops L) y (@fd_EPS b64 (B64_ops L)) = y.
Proof.
  intros H Ha Hn. destruct (eps_value L) as [Fe Ve]. destruct (near_pos _ _ _ _ _ H) as [Ps Py].
  destruct H as (Fy & N0 & [R1 R2] & [B1 B2]). destruct (small_exp n (conj N0 Hn)) as [_ X].
  set (e := @fd_EPS b64 (B64_ops L)) in *. clearbody e.
  unfold Omax. change (@Oltb b64 (B64_ops L) y e) with (Bltb y e).
  rewrite Bltb_correct by assumption. fold (V y) (V e). rewrite Ve, Rlt_bool_false; [reflexivity|].
  apply Rle_trans with (2 := B1). apply Rle_trans with (bp (-1000) * / 2).
  - change (-1000)%Z with (-1021 + 21)%Z. rewrite bpow_plus. pose proof (bpow_gt_0 radix2 (-1021)). change (bp 21) with 2097152. lra.
  - apply Rmult_le_compat; [apply bpow_ge_0|lra| |exact X]. apply Rle_trans with (2 := R1). now apply bpow_le.
Qed.
Lemma near_900 n b y s : near n (-1000) b y s -> / 2 ^ 900 <= s -> near n (-900) b y s.
Proof.
  intros H HB. apply (near_weaken _ n _ _ _ _ _ _ H); [lra|]. split; [|apply H].
  rewrite two_pow_bp in HB. change (Z.of_nat 900) with 900%Z in HB. change (-900)%Z with (- (900))%Z. rewrite bpow_opp. exact HB.
Qed.
Lemma tiny_900 B : / 2 ^ 900 <= B -> not_tiny B.
Proof. intros HB. apply Rle_trans with (2 := HB). apply Rinv_le_contravar; [apply pow_lt; lra|]. apply Rle_pow; [lra|lia]. Qed.

(** Inside the band, for the species it emits, the absorption from Kirchhoff's law to
    26 + 7 h nu / (k T) roundings: C w / B if averaged over angles, and that over 4 pi (the
    finding of C10) if not. The spectrum B is at least 2^-900, so that neither the floor
    nor the guard against division by zero is noticed. *)
Lemma C65_absorption_proof : forall (L : Libm) (C numin numax rho temp Ye nu : b64) (type : RadiationType),
  let O := B64_ops L in
  let pc := @PhysicalConstantsCGS b64 O in
  let o := @TophatEmissivity b64 O 3 pc C numin numax in
  let w := Ye_weight type (B2R Ye) in
  let x := h_cgs * B2R nu / (k_cgs * B2R temp) in
  let B := FermiDirac_B 3 h_cgs k_cgs c_cgs (B2R temp) (B2R nu) in
  accurate_libm L -> physical C -> physical numin -> physical numax -> physical temp -> physical nu -> physical Ye -> 0 < w ->
  B2R numin < B2R nu < B2R numax -> x <= 680 -> / 2 ^ 900 <= B -> B2R C * w / B <= 2 ^ 1000 ->
  returns (nu_Absorption o rho temp Ye type nu) (26 + 7 * x) (B2R C * w / B / (4 * PI)) /\
  returns (nu_AngleAvgAbsorption o rho temp Ye type nu) (26 + 7 * x) (B2R C * w / B).
Proof.
  intros L C numin numax rho temp Ye nu type.
  intros O pc o w x B HL HC H1 H2 Ht Hn Hy Hw [HB1 HB2] Hx HB HA.
  pose proof (x_pos temp nu Ht Hn) as X0. fold x in X0.
  pose proof (near_YeF L type Ye Hy Hw) as NW. pose proof (near_in _ HC) as NC.
  assert (NJ := n_mul L _ _ _ _ _ _ _ _ _ _ NC NW ltac:(zs) ltac:(zs) ltac:(rs)).
  assert (T : @tophat_jnu b64 O C numin numax rho temp Ye type nu = @Omul b64 O C (@tophat_YeF b64 O type Ye)).
  { unfold tophat_jnu.
    assert (G : @Ogtb b64 O nu numin = true).
    { change (Bltb numin nu = true). rewrite Bltb_correct; [|apply H1|apply Hn]. apply Rlt_bool_true, HB1. }
    assert (G' : @Oltb b64 O nu numax = true).
    { change (Bltb nu numax = true). rewrite Bltb_correct; [|apply Hn|apply H2]. apply Rlt_bool_true, HB2. }
    rewrite G, G'. reflexivity. }
  pose proof (near_fd L HL temp type nu Ht Hn Hx (tiny_900 _ HB)) as NB. cbv zeta in NB.
  change (h_cgs * V nu / (k_cgs * V temp)) with x in NB.
  apply near_900 in NB; [|exact HB]. fold O pc in NB.
  change (FermiDirac_B 3 h_cgs k_cgs c_cgs (V temp) (V nu)) with B in NB.
  change (V C * Ye_weight type (V Ye)) with (B2R C * w) in NJ.
  pose proof (max_eps L _ _ _ _ _ NB ltac:(lia) ltac:(rs)) as MB. fold O in MB.
  assert (PJ : 0 < B2R C * w) by (apply (near_pos _ _ _ _ _ NJ)).
  assert (PB : 0 < B) by (apply (near_pos _ _ _ _ _ NB)).
  assert (LO : bp (-600) <= B2R C * w / B).
  { destruct NJ as (_ & _ & [R1 _] & _). destruct NB as (_ & _ & [_ R2] & _). apply Rle_trans with (bp (-100 + -100) / bp 382).
    - unfold Rdiv. rewrite <- bpow_opp, <- bpow_plus. apply bpow_le. lia.
    - unfold Rdiv. apply Rmult_le_compat; [apply bpow_ge_0|left; apply Rinv_0_lt_compat, bpow_gt_0|exact R1|]. apply Rinv_le_contravar; [exact PB|exact R2]. }
  assert (HR : / 2 ^ 1000 <= B2R C * w / B <= 2 ^ 1000).
  { split; [|exact HA]. apply Rle_trans with (2 := LO). rewrite two_pow_bp, <- bpow_opp. apply bpow_le. change (Z.of_nat 1000) with 1000%Z. lia. }
  assert (P4 : near 2 3 4 (@Omul b64 O (@OofZ b64 O 4) (@Opi b64 O)) (4 * PI)) by (eapply near_conv; [nearg HL|reflexivity|rs|zs|zs]).
  split.
  - assert (NR := near_ratio L _ _ _ _ _ _ _ _ _ NJ NB ltac:(zs) ltac:(rs) ltac:(rs) HR). fold O in NR.
    pose proof (near_weaken _ _ _ _ (-600) 1000 _ _ NR (Rle_refl _) (conj LO (proj2 (proj1 (proj2 (proj2 NR)))))) as NR'.
    assert (ND := n_div L _ _ _ _ _ _ _ _ _ _ NR' P4 ltac:(zs) ltac:(zs) ltac:(rs)).
    apply (near_returns _ _ _ _ _ _ _ ND); [|rs|rs].
    pose proof (max_eps L _ _ _ _ _ NJ ltac:(lia) ltac:(rs)) as MJ. fold O in MJ.
    cbn [o TophatEmissivity nu_opacity nu_Absorption]. unfold tophat_alpha, fd_kirchhoff. rewrite T, MB, MJ. reflexivity.
  - assert (N4 := near_4pi L _ _ _ _ _ NJ ltac:(zs) ltac:(zs) ltac:(rs)). fold O in N4.
    assert (ND := n_div L _ _ _ _ _ _ _ _ _ _ N4 P4 ltac:(zs) ltac:(zs) ltac:(rs)).
    pose proof PI_RGT_0. replace (4 * PI * (B2R C * w) / (4 * PI)) with (B2R C * w) in ND by (field; lra).
    assert (NR := near_ratio L _ _ _ _ _ _ _ _ _ ND NB ltac:(zs) ltac:(rs) ltac:(rs) HR). fold O in NR.
    apply (near_returns _ _ _ _ _ _ _ NR); [|rs|rs].
    pose proof (max_eps L _ _ _ _ _ N4 ltac:(lia) ltac:(rs)) as MJ. fold O in MJ.
    cbn [o TophatEmissivity nu_opacity nu_AngleAvgAbsorption]. unfold tophat_alpha_avg, fd_kirchhoff_avg, tophat_Jnu. rewrite T, MB, MJ. reflexivity.
Qed.

(** Outside the band, and for heavy neutrinos everywhere, where nothing is emitted, the
    absorption is not zero but at most 2^-115: the floor under the emissivity over the spectrum. *)
Lemma C65_outside_proof : forall (L : Libm) (C numin numax rho temp Ye nu : b64) (type : RadiationType),
  let O := B64_ops L in
  let pc := @PhysicalConstantsCGS b64 O in
  let o := @TophatEmissivity b64 O 3 pc C numin numax in
  let x := h_cgs * B2R nu / (k_cgs * B2R temp) in
  let B := FermiDirac_B 3 h_cgs k_cgs c_cgs (B2R temp) (B2R nu) in
  accurate_libm L -> physical C -> physical numin -> physical numax -> physical temp -> physical nu ->
  B2R nu <= B2R numin \/ B2R numax <= B2R nu \/ type = NU_HEAVY -> x <= 680 -> / 2 ^ 900 <= B ->
  nu_EmissivityPerNuOmega o rho temp Ye type nu = Ok (b64_of_Z 0) /\
  (exists a, nu_Absorption o rho temp Ye type nu = Ok a /\ is_finite a = true /\ 0 <= B2R a <= / 2 ^ 115) /\
  (exists a, nu_AngleAvgAbsorption o rho temp Ye type nu = Ok a /\ is_finite a = true /\ 0 <= B2R a <= / 2 ^ 115).
Proof.
  intros L C numin numax rho temp Ye nu type O pc o x B HL HC H1 H2 Ht Hn OUT Hx HB.
  pose proof (x_pos temp nu Ht Hn) as X0. fold x in X0.
  assert (T : @tophat_jnu b64 O C numin numax rho temp Ye type nu = b64_of_Z 0).
  { unfold tophat_jnu.
    assert (G : @Ogtb b64 O nu numin = Rlt_bool (B2R numin) (B2R nu)) by (apply (Bltb_correct 53 1024 numin nu); [apply H1|apply Hn]).
    assert (G' : @Oltb b64 O nu numax = Rlt_bool (B2R nu) (B2R numax)) by (apply (Bltb_correct 53 1024 nu numax); [apply Hn|apply H2]).
    rewrite G, G'. destruct OUT as [A|[A| ->]].
    - rewrite Rlt_bool_false by exact A. reflexivity.
    - rewrite (Rlt_bool_false (B2R nu)) by exact A. rewrite andb_false_r. reflexivity.
    - destruct (Rlt_bool (B2R numin) (B2R nu) && Rlt_bool (B2R nu) (B2R numax)); [|reflexivity].
      change (@tophat_YeF b64 O NU_HEAVY Ye) with (b64_of_Z 0). destruct HC as [FC [PC _]].
      assert (P : 0 < B2R C) by (apply Rlt_le_trans with (2 := PC); apply Rinv_0_lt_compat, pow_lt; lra).
      change (Bmult mode_NE C (b64_of_Z 0) = b64_of_Z 0).
      destruct C as [s| | |s m e Hb]; try discriminate FC; [cbn in P; lra|]. destruct s; [|reflexivity].
      exfalso. pose proof (F2R_lt_0 radix2 (Float radix2 (Z.neg m) e) ltac:(reflexivity)). cbn in P, H. lra. }
  pose proof (near_fd L HL temp type nu Ht Hn Hx (tiny_900 _ HB)) as NB. cbv zeta in NB.
  change (h_cgs * V nu / (k_cgs * V temp)) with x in NB.
  apply near_900 in NB; [|exact HB]. fold O pc in NB. change (FermiDirac_B 3 h_cgs k_cgs c_cgs (V temp) (V nu)) with B in NB.
  pose proof (max_eps L _ _ _ _ _ NB ltac:(lia) ltac:(rs)) as MB. fold O in MB.
  assert (NG := near_guard L _ _ _ _ NB ltac:(lia) ltac:(rs)). fold O in NG.
  destruct (eps_value L) as [Fe Ve]. fold O in Fe, Ve. remember (@fd_EPS b64 O) as e eqn:EE.
  assert (P4 : near 2 3 4 (@Omul b64 O (@OofZ b64 O 4) (@Opi b64 O)) (4 * PI)) by (eapply near_conv; [nearg HL|reflexivity|rs|zs|zs]).
  assert (D4 : 8 / 2 <= V (@Omul b64 O (@OofZ b64 O 4) (@Opi b64 O))).
  { destruct P4 as (_ & _ & [R _] & [Q _]). apply Rle_trans with (2 := Q). change (bp 3) with 8 in R. destruct (small_exp 2 ltac:(rs)) as [_ X].
    pose proof (bpow_ge_0 radix2 3). apply Rmult_le_compat; lra. }
  set (d := @Oadd b64 O (@fd_nu b64 O 3 pc temp type nu) (@Omul b64 O (@OofZ b64 O (@sgn b64 O (@fd_nu b64 O 3 pc temp type nu))) (@SMALL b64 O))) in *.
  assert (Dd : bp (-901) <= V d).
  { destruct NG as (_ & N0 & [R _] & [Q _]). apply Rle_trans with (2 := Q). destruct (small_exp (14 + 6 * x + 2)) as [_ X]; [rs|].
    change (-901)%Z with (-900 + -1)%Z. rewrite bpow_plus. change (bp (-1)) with (/ 2). apply Rmult_le_compat; try lra; apply bpow_ge_0. }
  (* one division by a number of at least 2^-901, or of at least 4 *)
  assert (DIV : forall (y z : b64) k q, fin y -> bp k <= V z -> (-1074 <= q)%Z -> (q < 1000)%Z -> 0 <= V y <= bp (q + k) ->
    fin (@Odiv b64 O y z) /\ 0 <= V (@Odiv b64 O y z) <= bp q).
  { intros y z k q Fy Hz He1 He2 Hy. pose proof (bpow_gt_0 radix2 k) as PK.
    assert (Q : 0 <= V y / V z <= bp q).
    { split; [apply Rmult_le_pos; [lra|left; apply Rinv_0_lt_compat; lra]|].
      apply Rle_trans with (bp (q + k) / bp k).
      - unfold Rdiv. apply Rmult_le_compat; [lra|left; apply Rinv_0_lt_compat; lra|lra|apply Rinv_le_contravar; lra].
      - unfold Rdiv. rewrite <- bpow_opp, <- bpow_plus. replace (q + k + - k)%Z with q by lia. lra. }
    destruct (div_V y z q Fy ltac:(lra)) as [E F]; [lia|lia|rewrite Rabs_pos_eq; lra|].
    split; [exact F|]. change (V (@Odiv b64 O y z)) with (V (Bdiv mode_NE y z)). rewrite E. split.
    - replace 0 with (rnd 0) by (unfold rnd; apply round_0, valid_rnd_N). apply round_le; [apply FLT_exp_valid; reflexivity|apply valid_rnd_N|apply Q].
    - apply rnd_le_bpow; [lia|apply Q]. }
  assert (E3 : V e <= bp (-1018)).
  { rewrite Ve. change (-1018)%Z with (-1021 + 3)%Z. rewrite bpow_plus. change (bp 3) with 8. pose proof (bpow_ge_0 radix2 (-1021)). lra. }
  assert (E0 : 0 <= V e) by (rewrite Ve; pose proof (bpow_ge_0 radix2 (-1021)); lra).
  assert (M0 : forall z : b64, z = b64_of_Z 0 -> @Omax b64 O z e = e).
  { intros z ->. unfold Omax. change (@Oltb b64 O (b64_of_Z 0) e) with (Bltb (b64_of_Z 0) e). rewrite Bltb_correct by (try exact Fe; reflexivity).
    change (B2R (b64_of_Z 0)) with 0. fold (V e). rewrite Rlt_bool_true; [reflexivity|]. rewrite Ve. pose proof (bpow_gt_0 radix2 (-1021)). lra. }
  assert (MJ : @Omax b64 O (b64_of_Z 0) e = e) by (apply M0; reflexivity).
  assert (M4 : @Omax b64 O (@Omul b64 O (@Omul b64 O (@OofZ b64 O 4) (@Opi b64 O)) (b64_of_Z 0)) e = e) by (apply M0; vm_compute; reflexivity).
  assert (B4 : bp 2 <= V (@Omul b64 O (@OofZ b64 O 4) (@Opi b64 O))) by (change (bp 2) with 4; lra).
  assert (FIN : forall a, 0 <= V a <= bp (-117) -> 0 <= B2R a <= / 2 ^ 115).
  { intros a Ha. fold (V a). split; [apply Ha|]. apply Rle_trans with (bp (-117)); [apply Ha|]. rewrite two_pow_bp, <- bpow_opp. apply bpow_le. change (Z.of_nat 115) with 115%Z. lia. }
  split; [|split].
  - cbn [o TophatEmissivity nu_opacity nu_EmissivityPerNuOmega]. rewrite T. reflexivity.
  - eexists. split; [reflexivity|]. unfold tophat_alpha, fd_kirchhoff. rewrite T, <- EE, MB, MJ. unfold ratio. fold d.
    destruct (DIV e d (-901)%Z (-117)%Z Fe Dd ltac:(lia) ltac:(lia)) as [F1 B1]; [split; [exact E0|exact E3]|].
    destruct (DIV _ _ 2%Z (-117)%Z F1 B4 ltac:(lia) ltac:(lia)) as [F2 B2]; [split; [apply B1|]; apply Rle_trans with (bp (-117)); [apply B1|apply bpow_le; lia]|].
    split; [exact F2|]. apply FIN, B2.
  - eexists. split; [reflexivity|]. unfold tophat_alpha_avg, fd_kirchhoff_avg, tophat_Jnu. rewrite T, <- EE, MB, M4. unfold ratio. fold d.
    destruct (DIV e _ 2%Z (-1018)%Z Fe B4 ltac:(lia) ltac:(lia)) as [F1 B1]; [split; [exact E0|]; apply Rle_trans with (1 := E3), bpow_le; lia|].
    destruct (DIV _ d (-901)%Z (-117)%Z F1 Dd ltac:(lia) ltac:(lia)) as [F2 B2]; [exact B1|].
    split; [exact F2|]. apply FIN, B2.
Qed.

(** ** Narrow bands *)
Lemma ln_size x : fin x -> 0 < V x -> Rabs (ln (V x)) <= bp 1000.
Proof.
  intros F P.
  assert (Up : V x <= bp 1024).
  { pose proof (abs_B2R_lt_emax 53 1024 x) as E. change (B2R x) with (V x) in E. rewrite Rabs_pos_eq in E by lra. left. exact E. }
  assert (Lo : bp (-1074) <= V x).
  { destruct (gap 0 (V x) (generic_format_0 _ _) (V_fmt _) P P) as [_ G]. rewrite Rminus_0_r in G. exact G. }
  assert (A : ln (bp (-1074)) <= ln (V x)) by (apply ln_le_up; [apply bpow_gt_0|exact Lo]).
  assert (B : ln (V x) <= ln (bp 1024)) by (apply ln_le_up; [exact P|exact Up]).
  rewrite ln_bp in A, B.
  assert (L2 : 0 < ln 2 <= 1).
  { split; [rewrite <- ln_1; apply ln_increasing; lra|]. rewrite <- (ln_exp 1). apply ln_le_up; [lra|]. pose proof (exp_ineq1_le 1). lra. }
  apply Rle_trans with (bp 11); [|apply bpow_le; lia]. change (bp 11) with 2048. apply Rabs_le. lra.
Qed.
Lemma nearest_log_accurate : accurate_log nearest_libm.
Proof.
  intros x F P. cbn [nearest_libm lm_log]. pose proof (ln_size x F P) as S. destruct (nearest_V _ S) as [A B].
  split; [exact A|]. change (B2R x) with (V x) in *. fold (V (nearest (ln (V x)))). rewrite B. fold u.
  destruct (Req_dec (V x) 1) as [E|E].
  - rewrite E, ln_1. unfold rnd. rewrite round_0 by apply valid_rnd_N. rewrite Rminus_0_r, Rabs_R0. lra.
  - pose proof (fmt_near_one (V x) (V_fmt x) E P) as G. pose proof u_pos as U. pose proof ln10 as L10.
    assert (Q : Rabs (log10 (V x)) <= Rabs (ln (V x))).
    { unfold log10, Rdiv. rewrite Rabs_mult, (Rabs_pos_eq (/ ln 10)) by (left; apply Rinv_0_lt_compat; lra).
      rewrite <- (Rmult_1_r (Rabs (ln (V x)))) at 2. apply Rmult_le_compat_l; [apply Rabs_pos|]. rewrite <- Rinv_1. apply Rinv_le_contravar; lra. }
    assert (G' : bp (-900) <= Rabs (ln (V x))) by (apply Rle_trans with (2 := Q), Rle_trans with (2 := G); apply bpow_le; lia).
    pose proof (rerr (ln (V x)) (Rabs (ln (V x))) (Rle_refl _) G') as Q'. pose proof (Rabs_pos (ln (V x))).
    apply Rle_trans with (1 := Q'). apply Rmult_le_compat_r; lra.
Qed.

(** The particle emission of narrow bands is lost: with any accurate mathematical library there
    is a band, between two neighbouring doubles below 2, whose energy emission is right to 9
    roundings while the particle emission is at least 1.9 times what it should be. The ratio of
    the ends is rounded before its logarithm is taken. *)
Lemma C65_narrow_refuted_proof : forall L : Libm, accurate_log L ->
  exists (C numin numax rho Ye : b64), forall temp : b64,
  let O := B64_ops L in
  let pc := @PhysicalConstantsCGS b64 O in
  let o := @TophatEmissivity b64 O 3 pc C numin numax in
  let w := Ye_weight NU_ELECTRON (B2R Ye) in
  physical C /\ physical numin /\ physical numax /\ physical rho /\ physical Ye /\ 0 < w /\ B2R numin < B2R numax /\
  returns (nu_Emissivity o rho temp Ye NU_ELECTRON) 9 (4 * PI * (B2R C * (B2R numax - B2R numin)) * w) /\
  exists N, nu_NumberEmissivity o rho temp Ye NU_ELECTRON = Ok N /\ is_finite N = true /\
    19 / 10 * (4 * PI * (B2R C / h_cgs * ln (B2R numax / B2R numin)) * w) <= B2R N.
Proof.
  intros L HL. set (O := B64_ops L). set (pc := @PhysicalConstantsCGS b64 O).
  destruct (V_lit (2 ^ 53 - 2) (-52)) as [E1 F1]; [vm_compute; reflexivity|lia|lia|].
  destruct (V_lit (2 ^ 53 - 1) (-52)) as [E2 F2]; [vm_compute; reflexivity|lia|lia|].
  destruct (V_lit 1 (-2)) as [Ey Fy]; [vm_compute; reflexivity|lia|lia|]. destruct (V_lit 1 0) as [Eo Fo]; [vm_compute; reflexivity|lia|lia|].
  change (bp (-2)) with (/ 4) in Ey. change (bp 0) with 1 in Eo. rewrite Rmult_1_l in Ey, Eo.
  change (bp (-52)) with (/ 4503599627370496) in E1, E2. change (IZR (2 ^ 53 - 2)) with 9007199254740990 in E1. change (IZR (2 ^ 53 - 1)) with 9007199254740991 in E2.
  assert (EZ : B2SF (@Odiv b64 O (b64_ldexp (2 ^ 53 - 1) (-52)) (b64_ldexp (2 ^ 53 - 2) (-52))) = SpecFloat.S754_finite false (2 ^ 52 + 1) (-52)) by (vm_compute; reflexivity).
  set (n1 := b64_ldexp (2 ^ 53 - 2) (-52)) in *. set (n2 := b64_ldexp (2 ^ 53 - 1) (-52)) in *.
  set (ye := b64_ldexp 1 (-2)) in *. set (one := b64_ldexp 1 0) in *. clearbody n1 n2 ye one.
  destruct (frac_value _ _ _ EZ) as [Fz Vz]. cbn [Z.ltb Z.compare] in Vz. change (- -52)%Z with 52%Z in Vz. change (2 ^ 52)%Z with 4503599627370496%Z in Vz.
  change (2 ^ 52 + 1)%positive with 4503599627370497%positive in Vz.
  set (z := @Odiv b64 O n2 n1) in *.
  assert (PHY : forall y : b64, fin y -> / 4 <= V y <= 4 -> physical y).
  { intros y F H. split; [exact F|]. fold (V y). rewrite two_pow_bp. change (bp (Z.of_nat 100)) with (IZR (2 ^ 100)). split.
    - apply Rle_trans with (/ 4); [|lra]. apply Rinv_le_contravar; [lra|]. apply IZR_le. vm_compute. congruence.
    - apply Rle_trans with 4; [lra|]. apply IZR_le. vm_compute. congruence. }
  assert (H1 : physical n1) by (apply PHY; [exact F1|rewrite E1; lra]). assert (H2 : physical n2) by (apply PHY; [exact F2|rewrite E2; lra]).
  assert (Hy : physical ye) by (apply PHY; [exact Fy|rewrite Ey; lra]). assert (Ho : physical one) by (apply PHY; [exact Fo|rewrite Eo; lra]).
  assert (Hw : 0 < Ye_weight NU_ELECTRON (V ye)) by (cbn [Ye_weight]; rewrite Ey; lra).
  pose proof (near_YeF L NU_ELECTRON ye Hy Hw) as NW. pose proof (near_in _ Ho) as NC.
  exists one, n1, n2, one, ye. intros temp. cbv zeta.
  fold O pc. set (w := Ye_weight NU_ELECTRON (B2R ye)). change (Ye_weight NU_ELECTRON (V ye)) with w in Hw, NW.
  fold (V one) (V n1) (V n2).
  split; [exact Ho|]. split; [exact H1|]. split; [exact H2|]. split; [exact Ho|]. split; [exact Hy|]. split; [exact Hw|].
  split; [rewrite E1, E2; lra|].
  pose proof (near_in _ H2) as (_ & _ & R2 & _).
  split.
  - assert (ND := near_sub L n2 n1 (-100) 100 F2 F1 R2 ltac:(rewrite E1; lra) ltac:(rewrite E1, E2; lra) ltac:(lia) ltac:(lia)).
    assert (NB := n_mul L _ _ _ _ _ _ _ _ _ _ NC ND ltac:(zs) ltac:(zs) ltac:(rs)).
    assert (N4 := near_4pi L _ _ _ _ _ NB ltac:(zs) ltac:(zs) ltac:(rs)).
    assert (N5 := n_mul L _ _ _ _ _ _ _ _ _ _ N4 NW ltac:(zs) ltac:(zs) ltac:(rs)).
    apply (near_returns _ _ _ _ _ _ _ N5); [reflexivity|rs|rs].
  - set (t := / 4503599627370496).
    assert (Vz' : V z = 1 + t) by (rewrite Vz; unfold t; lra).
    assert (LT : t / (1 + t) <= ln (1 + t) <= t).
    { assert (Pt : 0 < t) by (unfold t; lra). split.
      - rewrite <- (Rinv_inv (1 + t)). rewrite ln_Rinv by (apply Rinv_0_lt_compat; lra).
        pose proof (exp_ineq1_le (ln (/ (1 + t)))) as E. rewrite exp_ln in E by (apply Rinv_0_lt_compat; lra).
        replace (t / / / (1 + t)) with (1 - / (1 + t)) by (field; lra). lra.
      - pose proof (exp_ineq1_le (ln (1 + t))) as E. rewrite exp_ln in E by lra. lra. }
    assert (TS : t / (1 + t) >= 999 / 1000 * t).
    { apply Rle_ge. apply (Rmult_le_reg_r (1 + t)); [unfold t; lra|]. replace (t / (1 + t) * (1 + t)) with t by (field; unfold t; lra). unfold t. lra. }
    assert (NL : near 2 (-53) (-52) (lm_log L z) (ln (1 + t))).
    { destruct (within_near 2 _ _ (HL z Fz ltac:(fold (V z); rewrite Vz'; unfold t; lra)) ltac:(lra)) as [Fl Bl].
      - fold (V z). rewrite Vz'. unfold t in *. lra.
      - split; [exact Fl|]. split; [lra|]. fold (V z) in Bl. rewrite Vz' in Bl. split; [|exact Bl].
        change (bp (-53)) with (/ 9007199254740992). change (bp (-52)) with (/ 4503599627370496). unfold t in *. lra. }
    assert (HR := n_mul L _ _ _ _ _ _ _ _ _ _ (c_h L) NC ltac:(zs) ltac:(zs) ltac:(rs)).
    assert (NO : near 0 0 0 (@OofZ b64 O 1) 1) by zlit 1%Z.
    assert (M1 := n_div L _ _ _ _ _ _ _ _ _ _ NO HR ltac:(zs) ltac:(zs) ltac:(rs)).
    assert (M2 := n_mul L _ _ _ _ _ _ _ _ _ _ M1 NC ltac:(zs) ltac:(zs) ltac:(rs)).
    assert (M3 := n_mul L _ _ _ _ _ _ _ _ _ _ M2 NL ltac:(zs) ltac:(zs) ltac:(rs)).
    assert (P4 := near_4pi L _ _ _ _ _ NC ltac:(zs) ltac:(zs) ltac:(rs)).
    assert (M4 := n_mul L _ _ _ _ _ _ _ _ _ _ P4 M3 ltac:(zs) ltac:(zs) ltac:(rs)).
    assert (M5 := n_mul L _ _ _ _ _ _ _ _ _ _ M4 NW ltac:(zs) ltac:(zs) ltac:(rs)).
    destruct (near_within _ _ _ _ _ 20 M5 ltac:(rs) ltac:(rs)) as [FN BN]. destruct (near_pos _ _ _ _ _ M5) as [PE _].
    eexists. split; [reflexivity|]. split; [exact FN|].
    match type of BN with Rabs (B2R ?n - _) <= _ => set (N := n) in *; change (B2R N) with (V N) in BN end.
    match goal with |- _ <= B2R ?m => change (B2R m) with (V N) end. clearbody N.
    destruct consts_pos as (Ph & _). pose proof PI_RGT_0 as PP.
    assert (EX : 4 * PI * V one * (1 / (h_cgs * V one) * V one * ln (1 + t)) * w = 4 * PI / h_cgs * w * ln (1 + t)) by (rewrite Eo; field; lra).
    rewrite EX in BN, PE. rewrite (Rabs_pos_eq _ (Rlt_le _ _ PE)) in BN. fold u in BN. pose proof u_small as US. pose proof u_pos as UP.
    set (K := 4 * PI / h_cgs * w) in *.
    assert (PK : 0 < K) by (unfold K; apply Rmult_lt_0_compat; [|exact Hw]; apply Rdiv_lt_0_compat; lra).
    assert (DU : ln (V n2 / V n1) <= 501 / 1000 * t).
    { rewrite E1, E2. pose proof (exp_ineq1_le (ln (9007199254740991 * / 4503599627370496 / (9007199254740990 * / 4503599627370496)))) as E.
      rewrite exp_ln in E by lra. unfold t. lra. }
    apply Rabs_le_inv in BN.
    assert (LO : 999 / 1000 * (K * ln (1 + t)) <= V N).
    { assert (20 * u * (K * ln (1 + t)) <= / 1000 * (K * ln (1 + t))) by (apply Rmult_le_compat_r; lra). lra. }
    apply Rle_trans with (2 := LO).
    replace (19 / 10 * (4 * PI * (V one / h_cgs * ln (V n2 / V n1)) * w)) with (K * (19 / 10 * ln (V n2 / V n1))) by (unfold K; rewrite Eo; field; lra).
    replace (999 / 1000 * (K * ln (1 + t))) with (K * (999 / 1000 * ln (1 + t))) by ring.
    apply Rmult_le_compat_l; [lra|]. assert (0 < t) by (unfold t; lra). lra.
Qed.

(** ** Examples *)
(** A band from 1 to 10^18 Hz, for electron neutrinos at an electron fraction of 1/4: C65_number. *)
Lemma C65_number_example :
  exists (L : Libm) (C numin numax rho Ye : b64),
  accurate_log L /\ physical C /\ physical numin /\ physical numax /\ physical rho /\ physical Ye /\
  0 < Ye_weight NU_ELECTRON (B2R Ye) /\ / 2 ^ 30 <= ln (B2R numax / B2R numin) /\ B2R numin = 1 /\ B2R numax = 10 ^ 18.
Proof.
  destruct ex_values as ((_ & _) & (Fn & En) & (Fo & Eo)).
  exists nearest_libm, ex_one, ex_one, ex_nu, ex_one. destruct C56_tophat_example as (Ye & Hy & Hw & _). exists Ye.
  assert (T : 10 ^ 18 <= 2 ^ 100) by (rewrite two_pow_bp; change (bp (Z.of_nat 100)) with (IZR (2 ^ 100)); rewrite pow_IZR; apply IZR_le; vm_compute; congruence).
  assert (I : / 2 ^ 100 <= 1) by (rewrite <- Rinv_1; apply Rinv_le_contravar; [lra|]; apply pow_R1_Rle; lra).
  assert (T1 : 1 <= 10 ^ 18) by (apply pow_R1_Rle; lra).
  assert (P1 : physical ex_one) by (split; [exact Fo|rewrite Eo; lra]).
  split; [apply nearest_log_accurate|]. split; [exact P1|]. split; [exact P1|]. split; [split; [exact Fn|rewrite En; lra]|]. split; [exact P1|].
  split; [exact Hy|]. split; [rewrite Hw; lra|]. split; [|split; assumption].
  rewrite Eo, En, Rdiv_1. apply Rle_trans with 1; [rewrite <- Rinv_1; apply Rinv_le_contravar; [lra|]; apply pow_R1_Rle; lra|].
  apply Rle_trans with (ln 10); [left; apply ln10|]. apply ln_le_up; [lra|]. simpl. lra.
Qed.

(** 10^18 Hz at 10^7 K, inside a band from 10^7 to 2^70 Hz: C65_absorption. *)
Lemma C65_absorption_example :
  exists (L : Libm) (C numin numax temp Ye nu : b64),
  let w := Ye_weight NU_ELECTRON (B2R Ye) in
  let x := h_cgs * B2R nu / (k_cgs * B2R temp) in
  let B := FermiDirac_B 3 h_cgs k_cgs c_cgs (B2R temp) (B2R nu) in
  accurate_libm L /\ physical C /\ physical numin /\ physical numax /\ physical temp /\ physical nu /\ physical Ye /\ 0 < w /\
  B2R numin < B2R nu < B2R numax /\ x <= 680 /\ / 2 ^ 900 <= B /\ B2R C * w / B <= 2 ^ 1000 /\ B2R nu = 10 ^ 18 /\ B2R temp = 10 ^ 7.
Proof.
  destruct ex_values as ((_ & Et) & (_ & En) & (_ & Eo)). destruct ex_physical as (P1 & P2 & P3). destruct ex_B as [_ F1].
  destruct C56_tophat_example as (Ye & Hy & Hw & _). destruct (V_lit 1 70) as [Em Fm]; [vm_compute; reflexivity|lia|lia|].
  rewrite Rmult_1_l in Em. change (bp 70) with (bp (Z.of_nat 70)) in Em. rewrite <- two_pow_bp in Em.
  exists nearest_libm, ex_one, ex_temp, (b64_ldexp 1 70), ex_temp, Ye, ex_nu. cbv zeta.
  split; [apply nearest_accurate|]. split; [exact P3|]. split; [exact P1|].
  split.
  { split; [exact Fm|]. fold (V (b64_ldexp 1 70)). rewrite Em. split; [|apply Rle_pow; [lra|lia]].
    apply Rle_trans with 1; [rewrite <- Rinv_1; apply Rinv_le_contravar; [lra|]|]; apply pow_R1_Rle; lra. }
  split; [exact P1|]. split; [exact P2|]. split; [exact Hy|]. split; [rewrite Hw; lra|].
  split.
  { fold (V (b64_ldexp 1 70)). rewrite Em, Et, En. split; simpl; lra. }
  split; [pose proof ex_x; lra|]. split; [apply Rle_trans with (2 := F1); apply ex_inv_le; lia|].
  split; [|split; assumption].
  rewrite Eo, Hw. set (B := FermiDirac_B 3 h_cgs k_cgs c_cgs (B2R ex_temp) (B2R ex_nu)) in *. pose proof (ex_inv_pos 10) as I10.
  apply Rle_trans with (1 * 2 ^ 10); [|rewrite Rmult_1_l; apply Rle_pow; [lra|lia]]. unfold Rdiv at 1.
  apply Rmult_le_compat; [lra|left; apply Rinv_0_lt_compat; lra|lra|]. rewrite <- (Rinv_inv (2 ^ 10)). apply Rinv_le_contravar; assumption.
Qed.

(** 10^18 Hz at 10^7 K, above a band from 1 to 10^7 Hz: C65_outside. *)
Lemma C65_outside_example :
  exists (L : Libm) (C numin numax temp nu : b64),
  accurate_libm L /\ physical C /\ physical numin /\ physical numax /\ physical temp /\ physical nu /\
  B2R numin < B2R numax /\ B2R numax <= B2R nu /\ h_cgs * B2R nu / (k_cgs * B2R temp) <= 680 /\
  / 2 ^ 900 <= FermiDirac_B 3 h_cgs k_cgs c_cgs (B2R temp) (B2R nu).
Proof.
  destruct ex_values as ((_ & Et) & (_ & En) & (_ & Eo)). destruct ex_physical as (P1 & P2 & P3). destruct ex_B as [_ F1].
  exists nearest_libm, ex_one, ex_one, ex_temp, ex_temp, ex_nu.
  split; [apply nearest_accurate|]. split; [exact P3|]. split; [exact P3|]. split; [exact P1|]. split; [exact P1|]. split; [exact P2|].
  split; [rewrite Et, Eo; simpl; lra|]. split; [rewrite Et, En; simpl; lra|]. split; [pose proof ex_x; lra|].
  apply Rle_trans with (2 := F1); apply ex_inv_le; lia.
Qed.

(** A correctly rounding library is accurate: C65_narrow_refuted. *)
Lemma C65_narrow_example : exists L : Libm, accurate_log L.
Proof. exists nearest_libm. apply nearest_log_accurate. Qed.
