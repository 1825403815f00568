(** C51. The single-precision logarithm behind the log-spaced frequency lookups. *)
From Coq Require Import Reals ZArith List Lra Lia Bool.
From Flocq Require Import Core IEEE754.BinarySingleNaN Relative.
From Verif Require Import Base.Outcome Base.Ops Inst.B64 Model.Spiner Model.Chebyshev Model.Indexers
  Spec.Tables Spec.SinglePrecision Proofs.B64Facts Proofs.FloatFacts.
Open Scope R_scope.

Lemma ILOG10_V : V ILOG10 = IZR 7823553867474189 * bpow radix2 (-54) /\ is_finite ILOG10 = true.
Proof.
  replace ILOG10 with (b64_ldexp 7823553867474189 (-54)) by (apply B2SF_inj; vm_compute; reflexivity).
  apply V_lit; cbn; lia.
Qed.

Lemma ILOG10_ln10 : Rabs (V ILOG10 * ln 10 - 1) <= / 2 ^ 29.
Proof.
  rewrite (proj1 ILOG10_V). pose proof ln10_bounds as [A B].
  replace (bpow radix2 (-54)) with (/ 2 ^ 54) by (cbn; lra).
  apply Rabs_le. cbn [pow] in *. lra.
Qed.

Lemma ln_le x y : 0 < x -> x <= y -> ln x <= ln y.
Proof. intros Hx [H| ->]; [left; now apply ln_increasing|right; reflexivity]. Qed.

Lemma ln_1p_bound d : Rabs d <= / 2 ^ 24 -> Rabs (ln (1 + d)) <= / 2 ^ 24 + / 2 ^ 40.
Proof.
  intros H. assert (S : / 2 ^ 24 <= / 100) by (cbn [pow]; lra).
  apply Rabs_def2b in H || apply Rabs_le_inv in H.
  assert (U : ln (1 + d) <= d).
  { pose proof (exp_ineq1_le (ln (1 + d))) as E. rewrite exp_ln in E by lra. lra. }
  assert (L : - ln (1 + d) <= - d / (1 + d)).
  { rewrite <- ln_Rinv by lra. pose proof (exp_ineq1_le (ln (/ (1 + d)))) as E.
    rewrite exp_ln in E by (apply Rinv_0_lt_compat; lra).
    replace (- d / (1 + d)) with (/ (1 + d) - 1) by (field; lra). lra. }
  assert (L2 : - d / (1 + d) <= / 2 ^ 24 + / 2 ^ 40).
  { apply (Rmult_le_reg_r (1 + d)); [lra|]. unfold Rdiv. rewrite Rmult_assoc, Rinv_l by lra.
    cbn [pow] in *. nra. }
  apply Rabs_le. assert (0 < / 2 ^ 40) by (cbn [pow]; lra). lra.
Qed.

(** For every logf accurate to one unit in the last place and every double in the range of
    the normal floats: a finite answer, within 2^-22 relative plus 2^-25 absolute of the
    base-10 logarithm. *)
Lemma C51_accuracy_partial_proof :
  forall (L : Libm) (x : b64), accurate_logf (lm_logf L) ->
  is_finite x = true -> float_range (B2R x) ->
  is_finite (BDMath_log10 L x) = true /\
  Rabs (B2R (BDMath_log10 L x) - log10 (B2R x)) <= / 2 ^ 22 * Rabs (log10 (B2R x)) + / 2 ^ 25.
Proof.
  intros L x HL Fx Hr. fold (V x) in *.
  destruct (float_range_conv x Fx Hr) as (d1 & D1 & E1 & F1).
  destruct Hr as [Hr1 Hr2].
  assert (Px : 0 < V x) by (pose proof (pow_lt 2 126 ltac:(lra)) as Q; apply Rinv_0_lt_compat in Q; lra).
  assert (B1 : / 2 <= 1 + d1 <= 2).
  { apply Rabs_le_inv in D1. cbn [pow] in D1. lra. }
  set (f := to_float x) in *.
  assert (Pf : 0 < B2R f) by (rewrite E1; apply Rmult_lt_0_compat; lra).
  destruct (HL f F1 Pf) as [F2 E2]. set (y := lm_logf L f) in *.
  destruct (to_double_V y F2) as [E3 F3]. set (yd := to_double y) in *.
  destruct ILOG10_V as [EI FI]. pose proof ILOG10_ln10 as HI.
  (* sizes *)
  assert (Hln : Rabs (ln (B2R f)) <= 130).
  { rewrite E1, ln_mult by lra.
    assert (A1 : Rabs (ln (1 + d1)) <= 1).
    { eapply Rle_trans; [apply ln_1p_bound; exact D1|]. cbn [pow]. lra. }
    assert (A2 : Rabs (ln (V x)) <= 128).
    { assert (l2 : 0 < ln 2 < 1).
      { split; [rewrite <- ln_1; apply ln_increasing; lra|].
        rewrite <- (ln_exp 1). apply ln_increasing; [lra|]. pose proof (exp_ineq1 1 ltac:(lra)). lra. }
      apply Rabs_le. split.
      - apply Rle_trans with (ln (/ 2 ^ 126)).
        + rewrite ln_Rinv, ln_pow by (try apply pow_lt; lra). rewrite INR_IZR_INZ. cbn [Z.of_nat]. cbn. lra.
        + apply ln_le; [apply Rinv_0_lt_compat, pow_lt; lra|exact Hr1].
      - apply Rle_trans with (ln (2 ^ 128)).
        + apply ln_le; [exact Px|]. pose proof (pow_lt 2 103 ltac:(lra)). lra.
        + rewrite ln_pow by lra. rewrite INR_IZR_INZ. cbn. lra. }
    eapply Rle_trans; [apply Rabs_triang|]. lra. }
  assert (Hy : Rabs (V yd) <= 140).
  { rewrite E3. replace (B2R y) with ((B2R y - ln (B2R f)) + ln (B2R f)) by ring.
    eapply Rle_trans; [apply Rabs_triang|]. cbn [pow] in E2. lra. }
  assert (HIb : 0 < V ILOG10 < 1) by (rewrite EI; replace (bpow radix2 (-54)) with (/ 2 ^ 54) by (cbn; lra); cbn [pow]; lra).
  assert (Hz : Rabs (V yd * V ILOG10) <= 140).
  { rewrite Rabs_mult, (Rabs_pos_eq (V ILOG10)) by lra.
    pose proof (Rabs_pos (V yd)). nra. }
  destruct (mul_V yd ILOG10 8 F3 FI ltac:(lia) ltac:(lia)) as [E4 F4]; [eapply Rle_trans; [exact Hz|]; cbn; lra|].
  set (z := Bmult mode_NE yd ILOG10) in *.
  destruct (error_N_FLT radix2 (-1074) 53 eq_refl (fun z => negb (Z.even z)) (V yd * V ILOG10)) as (e3 & h3 & e3b & h3b & _ & R3).
  change (round radix2 bexp (Znearest (fun z => negb (Z.even z))) (V yd * V ILOG10)) with (rnd (V yd * V ILOG10)) in R3.
  rewrite <- E4 in R3.
  assert (e3' : Rabs e3 <= / 2 ^ 50) by (eapply Rle_trans; [exact e3b|]; cbn; lra).
  assert (h3' : Rabs h3 <= / 2 ^ 100).
  { eapply Rle_trans; [exact h3b|]. apply Rle_trans with (bpow radix2 (-100)); [|cbn; lra].
    apply Rle_trans with (1 * bpow radix2 (-1074)); [apply Rmult_le_compat_r; [apply bpow_ge_0|lra]|].
    rewrite Rmult_1_l. apply bpow_le. lia. }
  assert (Hz2 : Rabs (V z) <= 150).
  { rewrite R3. eapply Rle_trans; [apply Rabs_triang|]. rewrite Rabs_mult.
    assert (Rabs (1 + e3) <= 1 + / 2 ^ 50) by (eapply Rle_trans; [apply Rabs_triang|]; rewrite Rabs_R1; lra).
    pose proof (Rabs_pos (V yd * V ILOG10)). pose proof (Rabs_pos (1 + e3)).
    assert (Rabs (V yd * V ILOG10) * Rabs (1 + e3) <= 140 * (1 + / 2 ^ 50)) by (apply Rmult_le_compat; lra).
    cbn [pow] in *. lra. }
  destruct (to_float_V z F4) as [E5 F5].
  { assert (G : forall w, w <= 150 -> rnd32 w <= 256).
    { intros w Hw. replace 256 with (bpow radix2 8) by (cbn; lra). rewrite <- (rnd32_bpow 8) by lia.
      apply rnd32_mono. cbn. lra. }
    apply Rabs_le_inv in Hz2.
    apply Rle_lt_trans with 256; [|cbn; lra]. apply Rabs_le. split.
    - assert (N : rnd32 (- V z) = - rnd32 (V z)) by apply round_NE_opp.
      pose proof (G (- V z) ltac:(lra)). lra.
    - apply G. lra. }
  destruct (to_double_V (to_float z) F5) as [E6 F6].
  change (BDMath_log10 L x) with (to_double (to_float z)).
  split; [exact F6|]. fold (V (to_double (to_float z))). rewrite E6, E5.
  destruct (error_N_FLT radix2 (-149) 24 eq_refl (fun z => negb (Z.even z)) (V z)) as (e5 & h5 & e5b & h5b & _ & R5).
  change (round radix2 sexp (Znearest (fun z => negb (Z.even z))) (V z)) with (rnd32 (V z)) in R5.
  rewrite R5.
  assert (e5' : Rabs e5 <= / 2 ^ 24) by (eapply Rle_trans; [exact e5b|]; cbn; lra).
  assert (h5' : Rabs h5 <= / 2 ^ 100).
  { eapply Rle_trans; [exact h5b|]. apply Rle_trans with (bpow radix2 (-100)); [|cbn; lra].
    apply Rle_trans with (1 * bpow radix2 (-149)); [apply Rmult_le_compat_r; [apply bpow_ge_0|lra]|].
    rewrite Rmult_1_l. apply bpow_le. lia. }
  (* logarithm of the rounded frequency *)
  set (A := log10 (V x)). set (n := log10 (1 + d1)).
  pose proof ln10_bounds as L10.
  assert (An : ln (B2R f) = (A + n) * ln 10).
  { rewrite E1, ln_mult by lra. unfold A, n, log10. field. cbn [pow] in L10. lra. }
  assert (Hn : Rabs n <= / 2 ^ 25 - / 2 ^ 30).
  { unfold n, log10, Rdiv. rewrite Rabs_mult, (Rabs_pos_eq (/ ln 10)).
    2:{ left. apply Rinv_0_lt_compat. cbn [pow] in L10. lra. }
    pose proof (ln_1p_bound d1 D1) as B.
    apply (Rmult_le_reg_r (ln 10)); [cbn [pow] in L10; lra|].
    rewrite Rmult_assoc, Rinv_l by (cbn [pow] in L10; lra). cbn [pow] in *. nra. }
  (* relative error of logf *)
  assert (Hw : Rabs (B2R y * V ILOG10 - (A + n)) <= / 2 ^ 23 * (1 + / 2 ^ 5) * Rabs (A + n)).
  { rewrite An in E2.
    replace (B2R y * V ILOG10 - (A + n)) with
      ((B2R y - (A + n) * ln 10) * V ILOG10 + (A + n) * (V ILOG10 * ln 10 - 1)) by ring.
    eapply Rle_trans; [apply Rabs_triang|]. rewrite !Rabs_mult. rewrite Rabs_mult in E2.
    rewrite (Rabs_pos_eq (ln 10)) in E2 by (cbn [pow] in L10; lra). rewrite (Rabs_pos_eq (V ILOG10)) by lra.
    set (a := Rabs (A + n)) in *. assert (0 <= a) by apply Rabs_pos.
    assert (X1 : Rabs (B2R y - (A + n) * ln 10) * V ILOG10 <= / 2 ^ 23 * (a * ln 10) * V ILOG10)
      by (apply Rmult_le_compat_r; lra).
    assert (X2 : V ILOG10 * ln 10 <= 1 + / 2 ^ 29) by (apply Rabs_le_inv in HI; lra).
    assert (X3 : / 2 ^ 23 * (a * ln 10) * V ILOG10 <= / 2 ^ 23 * a * (1 + / 2 ^ 29)).
    { replace (/ 2 ^ 23 * (a * ln 10) * V ILOG10) with (/ 2 ^ 23 * a * (V ILOG10 * ln 10)) by ring.
      apply Rmult_le_compat_l; [|exact X2]. apply Rmult_le_pos; [cbn [pow]; lra|assumption]. }
    assert (X4 : a * Rabs (V ILOG10 * ln 10 - 1) <= a * / 2 ^ 29) by (apply Rmult_le_compat_l; assumption).
    cbn [pow] in *. nra. }
  rewrite R3, E3.
  set (w := B2R y * V ILOG10) in *.
  (* assemble *)
  replace (((w * (1 + e3) + h3) * (1 + e5) + h5) - A) with
    ((w - (A + n)) * ((1 + e3) * (1 + e5)) + (A + n) * ((1 + e3) * (1 + e5) - 1) + n + (h3 * (1 + e5) + h5)) by ring.
  set (q := (1 + e3) * (1 + e5)).
  assert (Q : Rabs (q - 1) <= / 2 ^ 24 + / 2 ^ 40).
  { unfold q. replace ((1 + e3) * (1 + e5) - 1) with (e3 + e5 + e3 * e5) by ring.
    eapply Rle_trans; [apply Rabs_triang|]. rewrite Rabs_mult.
    pose proof (Rabs_triang e3 e5). pose proof (Rabs_pos e3). pose proof (Rabs_pos e5).
    assert (Rabs e3 * Rabs e5 <= / 2 ^ 50 * / 2 ^ 24) by (apply Rmult_le_compat; lra).
    cbn [pow] in *. lra. }
  assert (Q2 : Rabs q <= 1 + / 2 ^ 23).
  { replace q with (1 + (q - 1)) by ring. eapply Rle_trans; [apply Rabs_triang|]. rewrite Rabs_R1.
    cbn [pow] in *. lra. }
  assert (H5 : Rabs (h3 * (1 + e5) + h5) <= / 2 ^ 90).
  { eapply Rle_trans; [apply Rabs_triang|]. rewrite Rabs_mult.
    assert (Rabs (1 + e5) <= 2) by (eapply Rle_trans; [apply Rabs_triang|]; rewrite Rabs_R1; cbn [pow] in *; lra).
    assert (Rabs h3 * Rabs (1 + e5) <= / 2 ^ 100 * 2) by (apply Rmult_le_compat; try apply Rabs_pos; assumption).
    cbn [pow] in *. lra. }
  assert (AN : Rabs (A + n) <= Rabs A + / 2 ^ 25) by (eapply Rle_trans; [apply Rabs_triang|]; cbn [pow] in *; lra).
  eapply Rle_trans; [apply Rabs_triang|]. eapply Rle_trans; [apply Rplus_le_compat_r, Rabs_triang|].
  eapply Rle_trans; [apply Rplus_le_compat_r, Rplus_le_compat_r, Rabs_triang|]. rewrite !Rabs_mult.
  set (a := Rabs (A + n)) in *. assert (a0 : 0 <= a) by apply Rabs_pos.
  set (aa := Rabs A) in *. assert (aa0 : 0 <= aa) by apply Rabs_pos.
  assert (Y1 : Rabs (w - (A + n)) * Rabs q <= / 2 ^ 23 * (1 + / 2 ^ 5) * a * (1 + / 2 ^ 23))
    by (apply Rmult_le_compat; try apply Rabs_pos; assumption).
  assert (Y2 : a * Rabs (q - 1) <= a * (/ 2 ^ 24 + / 2 ^ 40)) by (apply Rmult_le_compat_l; assumption).
  cbn [pow] in *. lra.
Qed.

(** ** What single precision cannot see *)
Lemma gap32 x y : generic_format radix2 sexp x -> generic_format radix2 sexp y -> x < y -> 0 < y ->
  y * bpow radix2 (-25) <= y - x.
Proof.
  intros Fx Fy H Hy.
  pose proof (pred_ge_gt radix2 sexp x y Fx Fy H) as H1.
  pose proof (pred_plus_ulp radix2 sexp y Hy Fy) as H2.
  set (p := Ulp.pred radix2 sexp y) in *. set (u := ulp radix2 sexp p) in *.
  assert (Hp : 0 <= p) by (apply pred_ge_0; auto with typeclass_instances).
  pose proof (ulp_FLT_gt radix2 (-149) 24 p) as H3. fold u in H3.
  rewrite Rabs_pos_eq in H3 by exact Hp.
  pose proof (ulp_ge_0 radix2 sexp p) as H4. fold u in H4.
  replace (bpow radix2 (- (24))) with (2 * bpow radix2 (-25)) in H3 by (cbn; lra).
  assert (H6 : 0 < bpow radix2 (-25) <= / 2) by (cbn; lra).
  set (q := bpow radix2 (-25)) in *. nra.
Qed.

Lemma absorb32 x s : generic_format radix2 sexp x -> 0 < x -> 0 <= s -> s <= x * / 2 ^ 27 -> rnd32 (x + s) = x.
Proof.
  intros Fx Hx Hs0 Hs.
  assert (G : generic_format radix2 sexp (rnd32 (x + s))) by (apply generic_format_round; auto with typeclass_instances).
  assert (L : x <= rnd32 (x + s)) by (rewrite <- (rnd32_id x Fx) at 1; apply rnd32_mono; lra).
  destruct L as [L|L]; [exfalso|symmetry; exact L].
  pose proof (gap32 x _ Fx G L ltac:(lra)) as K.
  pose proof (rnd32_nearest x (x + s) Fx) as R. replace (x - (x + s)) with (- s) in R by ring.
  rewrite Rabs_Ropp, (Rabs_pos_eq s) in R by lra.
  apply Rabs_le_inv in R. replace (bpow radix2 (-25)) with (/ 2 ^ 25) in K by (cbn; lra). cbn [pow] in *. nra.
Qed.

Lemma positive_sign (p q : Z) (g : binary_float p q) : 0 < B2R g -> Bsign g = false.
Proof.
  destruct g as [s|s| |s m e Hb]; cbn [B2R Bsign]; try lra. destruct s; [intros H; exfalso|reflexivity].
  assert (Q : F2R (Float radix2 (cond_Zopp true (Zpos m)) e) < 0) by (apply F2R_lt_0; reflexivity).
  exact (Rlt_asym _ _ H Q).
Qed.

Lemma to_float_exact (x : b64) (f : b32) : is_finite x = true -> is_finite f = true -> 0 < B2R f ->
  rnd32 (V x) = B2R f -> to_float x = f.
Proof.
  intros Fx Ff Pf E.
  destruct (to_float_V x Fx) as [E1 F1].
  { rewrite E. apply (abs_B2R_lt_emax 24 128 f). }
  assert (P1 : 0 < B2R (to_float x)) by (rewrite E1, E; exact Pf).
  apply B2R_Bsign_inj; auto; [rewrite E1; exact E|].
  rewrite !positive_sign by assumption. reflexivity.
Qed.

(** a double a little above a positive float that rounds to it *)
Lemma near_float (f : b32) : is_finite f = true -> 0 < B2R f ->
  exists x : b64, is_finite x = true /\ V x = B2R f * (1 + / 2 ^ 27) /\ to_float x = f.
Proof.
  intros Ff Pf. destruct f as [s|s| |s m e Hb] eqn:Ef; cbn in Ff; try discriminate; [cbn in Pf; lra|].
  rewrite <- Ef in *.
  assert (s = false) as ->.
  { pose proof (positive_sign 24 128 f Pf) as Q. rewrite Ef in Q. exact Q. }
  pose proof Hb as Hb'. apply Bool.andb_true_iff in Hb'. destruct Hb' as [Hc He].
  apply Zle_bool_imp_le in He. apply Zeq_bool_eq in Hc.
  assert (M : (Z.pos m < 2 ^ 24)%Z).
  { unfold SpecFloat.fexp, SpecFloat.emin in Hc.
    assert (D : (Digits.Zdigits radix2 (Z.pos m) <= 24)%Z).
    { rewrite <- Digits.Zpos_digits2_pos. lia. }
    pose proof (Digits.Zdigits_correct radix2 (Z.pos m)) as [_ U]. rewrite Z.abs_eq in U by lia.
    eapply Z.lt_le_trans; [exact U|]. change (radix2 : Z) with 2%Z. apply Z.pow_le_mono_r; lia. }
  assert (Elo : (-149 <= e)%Z) by (unfold SpecFloat.fexp, SpecFloat.emin in Hc; lia).
  assert (EV : B2R f = IZR (Zpos m) * bpow radix2 e) by (rewrite Ef; reflexivity).
  destruct (V_lit (Zpos m * (2 ^ 27 + 1)) (e - 27)) as [VE VF]; [lia|lia|lia|].
  exists (b64_ldexp (Zpos m * (2 ^ 27 + 1)) (e - 27)).
  assert (VV : V (b64_ldexp (Zpos m * (2 ^ 27 + 1)) (e - 27)) = B2R f * (1 + / 2 ^ 27)).
  { rewrite VE, EV, mult_IZR. unfold Z.sub. rewrite bpow_plus.
    replace (bpow radix2 (- (27))) with (/ 2 ^ 27) by (cbn; lra). cbn [pow Z.pow Z.pow_pos Pos.iter Z.mul Z.add Pos.mul Pos.add].
    lra. }
  split; [exact VF|]. split; [exact VV|].
  apply to_float_exact; [exact VF|rewrite Ef; reflexivity|exact Pf|].
  rewrite VV. replace (B2R f * (1 + / 2 ^ 27)) with (B2R f + B2R f * / 2 ^ 27) by ring.
  apply absorb32; [apply (generic_format_B2R 24 128 f)|exact Pf| |lra].
  apply Rmult_le_pos; [lra|cbn [pow]; lra].
Qed.

Lemma to_double_float (f : b32) : is_finite f = true -> 0 < B2R f -> to_float (to_double f) = f.
Proof.
  intros Ff Pf. destruct (to_double_V f Ff) as [E F]. apply to_float_exact; auto.
  rewrite E. apply rnd32_id. apply (generic_format_B2R 24 128 f).
Qed.

(** Only the float nearest to the frequency matters: two frequencies with the same one
    get the same answer from every LogLinear and LogCheb object, whatever logf is. *)
Lemma C51_same_float_proof :
  forall (L : Libm) (x y : b64), to_float x = to_float y ->
  BDMath_log10 L x = BDMath_log10 L y /\
  (forall b, @LogLinear_call _ (B64_ops L) b x = @LogLinear_call _ (B64_ops L) b y) /\
  (forall dbg N c, @LogCheb_call _ (B64_ops L) dbg N c x = @LogCheb_call _ (B64_ops L) dbg N c y) /\
  (forall b N, @LogLinear_box _ (B64_ops L) b x y N = Error).
Proof.
  intros L x y H.
  assert (E : BDMath_log10 L x = BDMath_log10 L y) by (unfold BDMath_log10; rewrite H; reflexivity).
  split; [exact E|]. unfold LogLinear_call, LogCheb_call, LogLinear_box. cbn [Olog10f B64_ops]. rewrite E.
  split; [reflexivity|]. split; [reflexivity|].
  intros b N. unfold setRange0, mk_grid. cbn [Oltb B64_ops].
  assert (Z : forall a : b64, Bltb a a = false).
  { intros a. unfold Bltb, SpecFloat.SFltb.
    destruct (SpecFloat.SFcompare (B2SF a) (B2SF a)) as [[| |]|] eqn:C; try reflexivity. exfalso.
    destruct a as [s|s| |s m e Hb]; cbn in C; try (destruct s; discriminate); try discriminate.
    destruct s; rewrite Z.compare_refl, Pos.compare_cont_refl in C; discriminate. }
  rewrite Z. reflexivity.
Qed.

(** At every positive normal float f there is a double, a relative 2^-27 above it, that is
    not told apart from it, so whatever logf is one of the two answers is off by 2^-30 or
    more: the accuracy above cannot be improved much. *)
Lemma C51_lower_bound_proof :
  forall (L : Libm) (f : b32), is_finite f = true -> / 2 ^ 126 <= B2R f ->
  exists x y : b64, is_finite x = true /\ is_finite y = true /\
    float_range (B2R x) /\ float_range (B2R y) /\
    B2R x = B2R f /\ B2R y = B2R f * (1 + / 2 ^ 27) /\ BDMath_log10 L x = BDMath_log10 L y /\
    (/ 2 ^ 30 <= Rabs (B2R (BDMath_log10 L x) - log10 (B2R x)) \/
     / 2 ^ 30 <= Rabs (B2R (BDMath_log10 L y) - log10 (B2R y))).
Proof.
  intros L f Ff Hf.
  assert (P126 : 0 < / 2 ^ 126) by (apply Rinv_0_lt_compat, pow_lt; lra).
  assert (Pf : 0 < B2R f) by lra.
  destruct (near_float f Ff Pf) as (y & Fy & Vy & Ty).
  destruct (to_double_V f Ff) as [Vx Fx]. pose proof (to_double_float f Ff Pf) as Tx.
  exists (to_double f), y. fold (V (to_double f)) (V y). rewrite Vx, Vy.
  assert (U : B2R f <= float_max).
  { rewrite <- (rnd32_id (B2R f)) by apply (generic_format_B2R 24 128 f).
    apply rnd32_below. pose proof (abs_B2R_lt_emax 24 128 f) as A.
    rewrite Rabs_pos_eq in A by lra.
    assert (S : succ radix2 sexp float_max = bpow radix2 128).
    { rewrite succ_eq_pos by (unfold float_max; lra).
      replace (ulp radix2 sexp float_max) with (2 ^ 104); [unfold float_max; cbn; lra|].
      rewrite ulp_neq_0 by (unfold float_max; lra). unfold cexp.
      rewrite (mag_unique_pos radix2 float_max 128).
      - unfold FLT_exp. cbn. lra.
      - unfold float_max. cbn. lra. }
    destruct (Rle_or_lt (B2R f) float_max) as [B|B].
    - unfold float_max in B. cbn [pow] in *. lra.
    - pose proof (succ_le_lt radix2 sexp float_max (B2R f) float_max_fmt (generic_format_B2R 24 128 f) B). lra. }
  assert (RY : B2R f * (1 + / 2 ^ 27) < 2 ^ 128 - 2 ^ 103).
  { unfold float_max in U. cbn [pow] in *. lra. }
  split; [exact Fx|]. split; [exact Fy|]. split; [split; [exact Hf|]|].
  { eapply Rle_lt_trans; [|exact RY]. cbn [pow]. lra. }
  split; [split; [|exact RY]|].
  { eapply Rle_trans; [exact Hf|]. cbn [pow]. lra. }
  split; [reflexivity|]. split; [reflexivity|].
  assert (E : BDMath_log10 L (to_double f) = BDMath_log10 L y).
  { apply C51_same_float_proof. rewrite Tx, Ty. reflexivity. }
  split; [exact E|]. rewrite E. set (r := B2R (BDMath_log10 L y)).
  pose proof ln10_bounds as L10.
  assert (D : / 2 ^ 29 <= log10 (B2R f * (1 + / 2 ^ 27)) - log10 (B2R f)).
  { unfold log10. rewrite ln_mult by (cbn [pow]; lra).
    assert (K : / 2 ^ 27 - / 2 ^ 40 <= ln (1 + / 2 ^ 27)).
    { pose proof (exp_ineq1_le (ln (/ (1 + / 2 ^ 27)))) as X.
      rewrite exp_ln in X by (cbn [pow]; lra). rewrite ln_Rinv in X by (cbn [pow]; lra). cbn [pow] in *. lra. }
    replace ((ln (B2R f) + ln (1 + / 2 ^ 27)) / ln 10 - ln (B2R f) / ln 10) with (ln (1 + / 2 ^ 27) / ln 10)
      by (field; cbn [pow] in L10; lra).
    apply (Rmult_le_reg_r (ln 10)); [cbn [pow] in L10; lra|].
    unfold Rdiv. rewrite Rmult_assoc, Rinv_l by (cbn [pow] in L10; lra). cbn [pow] in *. nra. }
  destruct (Rle_or_lt (/ 2 ^ 30) (Rabs (r - log10 (B2R f)))) as [Q|Q]; [left; exact Q|right].
  apply Rabs_def2 in Q. rewrite Rabs_left1 by (cbn [pow] in *; lra). cbn [pow] in *. lra.
Qed.

(** So no logf makes BDMath::log10 a double-precision logarithm. *)
Lemma C51_double_precision_refuted_proof :
  forall L : Libm,
  ~ (forall x : b64, is_finite x = true -> 0 < B2R x ->
     Rabs (B2R (BDMath_log10 L x) - log10 (B2R x)) <= / 2 ^ 50 * (1 + Rabs (log10 (B2R x)))).
Proof.
  intros L H.
  pose (f := B754_finite false 8388608 (-23) (eq_refl : SpecFloat.bounded 24 128 8388608 (-23) = true) : b32).
  assert (Ff : is_finite f = true) by reflexivity.
  assert (Vf : B2R f = 1).
  { change (B2R f) with (IZR 8388608 * / IZR 8388608). lra. }
  destruct (C51_lower_bound_proof L f Ff) as (x & y & Fx & Fy & [Rx _] & [Ry _] & Vx & Vy & _ & B).
  { rewrite Vf. cbn [pow]. lra. }
  assert (P126 : 0 < / 2 ^ 126) by (apply Rinv_0_lt_compat, pow_lt; lra).
  pose proof (H x Fx ltac:(lra)) as Hx. pose proof (H y Fy ltac:(lra)) as Hy.
  assert (Lx : log10 (B2R x) = 0) by (rewrite Vx, Vf; unfold log10; rewrite ln_1; lra).
  assert (Ly : Rabs (log10 (B2R y)) <= 1).
  { rewrite Vy, Vf. pose proof ln10_bounds as L10.
    assert (K : 0 <= ln (1 + / 2 ^ 27) <= 1).
    { split; [rewrite <- ln_1; apply ln_le; [lra|cbn [pow]; lra]|].
      pose proof (exp_ineq1_le (ln (1 + / 2 ^ 27))) as X. rewrite exp_ln in X by (cbn [pow]; lra). cbn [pow] in *. lra. }
    rewrite Rmult_1_l. unfold log10. rewrite Rabs_pos_eq.
    - apply (Rmult_le_reg_r (ln 10)); [cbn [pow] in L10; lra|]. unfold Rdiv.
      rewrite Rmult_assoc, Rinv_l by (cbn [pow] in L10; lra). cbn [pow] in *. lra.
    - apply Rmult_le_pos; [lra|]. left. apply Rinv_0_lt_compat. cbn [pow] in L10. lra. }
  rewrite Lx, Rabs_R0 in Hx. rewrite Lx in B. cbn [pow] in *. lra.
Qed.

(** Doubles from 2^128 up all look infinite, and those below 2^-150 all look zero. *)
Lemma C51_out_of_range_proof :
  forall (L : Libm) (x : b64), is_finite x = true ->
  (2 ^ 128 <= B2R x -> BDMath_log10 L x = BDMath_log10 L (B754_infinity false)) /\
  (0 < B2R x < / 2 ^ 150 -> BDMath_log10 L x = BDMath_log10 L (B754_zero false)).
Proof.
  intros L x Fx. split; intros H; apply C51_same_float_proof.
  - apply (to_float_big x Fx). rewrite <- (rnd32_bpow 128) by lia. apply rnd32_mono.
    unfold V. eapply Rle_trans; [|exact H]. cbn. lra.
  - destruct x as [s|s| |s m e Hb] eqn:Ex; cbn in Fx; try discriminate; [cbn in H; lra|]. rewrite <- Ex in *.
    assert (s = false) as ->.
    { pose proof (positive_sign 53 1024 x (proj1 H)) as Q. rewrite Ex in Q. exact Q. }
    assert (R0 : rnd32 (B2R x) = 0).
    { unfold rnd32. apply round_N_small_pos with (ex := mag radix2 (B2R x)).
      - destruct (mag radix2 (B2R x)) as [k Hk]. cbn. specialize (Hk ltac:(lra)). rewrite Rabs_pos_eq in Hk by lra. exact Hk.
      - assert (M : (mag radix2 (B2R x) <= -150)%Z).
        { apply mag_le_bpow; [lra|]. rewrite Rabs_pos_eq by lra. eapply Rlt_le_trans; [apply H|].
          replace (bpow radix2 (-150)) with (/ 2 ^ 150) by (cbn; lra). lra. }
        unfold FLT_exp. lia. }
    rewrite Ex in R0. cbn [B2R] in R0. rewrite Ex. unfold to_float.
    pose proof (binary_normalize_correct 24 128 _ _ mode_NE (cond_Zopp false (Zpos m)) e false) as C. cbv zeta in C.
    change (round radix2 (SpecFloat.fexp 24 128) (round_mode mode_NE) (F2R (Float radix2 (cond_Zopp false (Zpos m)) e)))
      with (rnd32 (F2R (Float radix2 (cond_Zopp false (Zpos m)) e))) in C.
    rewrite R0, Rabs_R0, Rlt_bool_true in C by apply bpow_gt_0. destruct C as (C1 & C2 & C3).
    apply B2R_Bsign_inj; auto. rewrite C3, Rcompare_Gt; [reflexivity|]. apply F2R_gt_0. cbn. lia.
Qed.

(** ** The correctly rounded logarithm meets the requirement *)
Definition rounded_log (f : b32) : b32 :=
  binary_normalize 24 128 _ _ mode_NE
    (ZnearestE (scaled_mantissa radix2 sexp (ln (B2R f)))) (cexp radix2 sexp (ln (B2R f))) false.

Lemma ln_float_size (f : b32) : is_finite f = true -> 0 < B2R f ->
  Rabs (ln (B2R f)) <= 149 /\ (B2R f = 1 \/ / 2 ^ 25 <= Rabs (ln (B2R f))).
Proof.
  intros Ff Pf.
  assert (Gf : generic_format radix2 sexp (B2R f)) by apply (generic_format_B2R 24 128 f).
  assert (l2 : 0 < ln 2 < 1).
  { split; [rewrite <- ln_1; apply ln_increasing; lra|].
    rewrite <- (ln_exp 1). apply ln_increasing; [lra|]. pose proof (exp_ineq1 1 ltac:(lra)). lra. }
  split.
  - apply Rabs_le. split.
    + apply Rle_trans with (ln (/ 2 ^ 149)).
      * rewrite ln_Rinv, ln_pow by (try apply pow_lt; lra). rewrite INR_IZR_INZ. cbn. lra.
      * apply ln_le; [apply Rinv_0_lt_compat, pow_lt; lra|].
        pose proof (generic_format_ge_bpow radix2 sexp (-149)) as Q.
        replace (/ 2 ^ 149) with (bpow radix2 (-149)) by (cbn; lra). apply Q; auto.
        intros e. unfold FLT_exp. lia.
    + apply Rle_trans with (ln (2 ^ 128)).
      * apply ln_le; [exact Pf|]. pose proof (abs_B2R_lt_emax 24 128 f) as A. rewrite Rabs_pos_eq in A by lra.
        replace (2 ^ 128) with (bpow radix2 128) by (cbn; lra). lra.
      * rewrite ln_pow by lra. rewrite INR_IZR_INZ. cbn. lra.
  - assert (G1 : generic_format radix2 sexp 1) by (apply (generic_format_FLT_bpow radix2 (-149) 24 0); lia).
    assert (Q25 : bpow radix2 (-25) = / 2 ^ 25) by (cbn; lra).
    destruct (Rtotal_order (B2R f) 1) as [L|[E|L]]; [right|left; exact E|right].
    + pose proof (gap32 _ _ Gf G1 L ltac:(lra)) as K. rewrite Q25 in K.
      pose proof (exp_ineq1_le (ln (B2R f))) as X. rewrite exp_ln in X by lra.
      rewrite Rabs_left1 by (cbn [pow] in *; lra). lra.
    + pose proof (gap32 _ _ G1 Gf L ltac:(lra)) as K. rewrite Q25 in K.
      pose proof (exp_ineq1_le (- ln (B2R f))) as X. rewrite exp_Ropp, exp_ln in X by lra.
      assert (Y : / B2R f <= 1 - / 2 ^ 25).
      { apply (Rmult_le_reg_r (B2R f)); [lra|]. rewrite Rinv_l by lra. lra. }
      rewrite Rabs_pos_eq by (cbn [pow] in *; lra). lra.
Qed.

Lemma rounded_log_accurate : accurate_logf rounded_log.
Proof.
  intros f Ff Pf. destruct (ln_float_size f Ff Pf) as [S1 S2].
  set (z := ln (B2R f)) in *.
  pose proof (binary_normalize_correct 24 128 _ _ mode_NE
    (ZnearestE (scaled_mantissa radix2 sexp z)) (cexp radix2 sexp z) false) as C. cbv zeta in C.
  change (F2R (Float radix2 (ZnearestE (scaled_mantissa radix2 sexp z)) (cexp radix2 sexp z))) with (rnd32 z) in C.
  change (round radix2 (SpecFloat.fexp 24 128) (round_mode mode_NE) (rnd32 z)) with (rnd32 (rnd32 z)) in C.
  rewrite (rnd32_id (rnd32 z)) in C by (apply generic_format_round; auto with typeclass_instances).
  rewrite Rlt_bool_true in C.
  - destruct C as (C1 & C2 & _). split; [exact C2|]. change (B2R (rounded_log f)) with (B2R (binary_normalize 24 128 _ _ mode_NE
      (ZnearestE (scaled_mantissa radix2 sexp z)) (cexp radix2 sexp z) false)). rewrite C1.
    destruct S2 as [E|S2].
    + assert (Z0 : z = 0) by (unfold z; rewrite E; apply ln_1). rewrite Z0. unfold rnd32.
      rewrite round_0 by auto with typeclass_instances. rewrite Rminus_0_r, Rabs_R0. lra.
    + destruct (relative_error_N_FLT_ex radix2 (-149) 24 eq_refl (fun z => negb (Z.even z)) z) as [d [D1 D2]].
      { eapply Rle_trans; [|exact S2]. replace (/ 2 ^ 25) with (bpow radix2 (-25)) by (cbn; lra). apply bpow_le. lia. }
      change (round radix2 sexp (Znearest (fun z => negb (Z.even z))) z) with (rnd32 z) in D2. rewrite D2.
      replace (z * (1 + d) - z) with (d * z) by ring. rewrite Rabs_mult.
      apply Rmult_le_compat_r; [apply Rabs_pos|]. eapply Rle_trans; [exact D1|]. cbn. lra.
  - assert (G : forall w, w <= 149 -> rnd32 w <= 256).
    { intros w Hw. replace 256 with (bpow radix2 8) by (cbn; lra). rewrite <- (rnd32_bpow 8) by lia.
      apply rnd32_mono. cbn. lra. }
    apply Rabs_le_inv in S1. apply Rle_lt_trans with 256; [|cbn; lra]. apply Rabs_le. split.
    + assert (N : rnd32 (- z) = - rnd32 z) by apply round_NE_opp. pose proof (G (- z) ltac:(lra)). lra.
    + apply G. lra.
Qed.

(** The hypotheses of the accuracy bound hold of a library with the rounded logarithm
    and a frequency of 10^15; those of the lower bound of the float 8388609 x 2^20. *)
Lemma C51_accuracy_partial_example :
  exists L : Libm, accurate_logf (lm_logf L) /\ is_finite (b64_of_Z (10 ^ 15)) = true /\
  float_range (B2R (b64_of_Z (10 ^ 15))).
Proof.
  exists {| lm_exp := fun x => x; lm_expm1 := fun x => x; lm_log := fun x => x; lm_log10 := fun x => x; lm_logf := rounded_log;
            lm_pow := fun x _ => x; lm_cos := fun x => x |}.
  split; [exact rounded_log_accurate|].
  destruct (V_lit (10 ^ 15) 0) as [E F]; [cbn; lia|lia|lia|].
  change (b64_of_Z (10 ^ 15)) with (b64_ldexp (10 ^ 15) 0). split; [exact F|].
  fold (V (b64_ldexp (10 ^ 15) 0)). rewrite E. change (IZR (10 ^ 15) * bpow radix2 0) with (1000000000000000 * 1).
  unfold float_range. split; cbn [pow]; lra.
Qed.

Lemma C51_lower_bound_example :
  exists f : b32, is_finite f = true /\ / 2 ^ 126 <= B2R f /\ B2R f <> 1.
Proof.
  exists (B754_finite false 8388609 20 (eq_refl : SpecFloat.bounded 24 128 8388609 20 = true) : b32).
  split; [reflexivity|]. change (B2R _) with (IZR 8388609 * IZR (2 ^ 20)). cbn [Z.pow Z.pow_pos Pos.iter Z.mul Pos.mul pow]. lra.
Qed.
