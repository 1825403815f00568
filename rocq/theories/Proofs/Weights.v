(** The thermal weights in double precision, with the Wien tail. *)
From Coquelicot Require Import Coquelicot.
From Coq Require Import Reals ZArith List Lra Lia Bool.
From Flocq Require Import Core IEEE754.BinarySingleNaN.
From Verif Require Import Base.Outcome Base.Ops Inst.B64 Model.Constants Model.Robust Model.RadTypes Model.ThermalPhotons Model.MeanUtils
  Spec.Physics Spec.Means Spec.Tables Spec.DoublePrecision Spec.DoubleMeans
  Proofs.B64Facts Proofs.Near Proofs.NearConsts Proofs.NearRules Proofs.NearPhotons Proofs.App Proofs.DoubleMeans.
Open Scope R_scope.

(** ** Powers of e *)
Lemma exp_nat a n : exp a ^ n = exp (INR n * a).
Proof.
  induction n as [|n IH]; [simpl; rewrite Rmult_0_l, exp_0; reflexivity|].
  cbn [pow]. rewrite IH, <- exp_plus. f_equal. rewrite S_INR. ring.
Qed.
Lemma e5 : bp 7 <= exp 5 <= bp 8.
Proof.
  split.
  - assert (H : 33 / 32 <= exp (/ 32)) by (pose proof (exp_ineq1_le (/ 32)); lra).
    replace (exp 5) with ((exp (/ 32) ^ 32) ^ 5).
    + change (bp 7) with 128. apply Rle_trans with ((267 / 100) ^ 5); [simpl; lra|]. apply pow_incr. split; [lra|].
      apply Rle_trans with ((33 / 32) ^ 32); [simpl; lra|]. apply pow_incr. lra.
    + rewrite <- pow_mult, exp_nat. f_equal. rewrite INR_IZR_INZ. cbn. lra.
  - change (bp 8) with 256.
    replace 5 with (1 + 1 + 1 + 1 + 1) by lra. rewrite !exp_plus. pose proof exp_le_3. pose proof (exp_pos 1).
    set (e := exp 1) in *. assert (e * e <= 9) by nra. assert (0 <= e * e) by nra. assert (e * e * e <= 27) by nra. nra.
Qed.
Lemma bp_pow k n : bp k ^ n = bp (k * Z.of_nat n).
Proof.
  induction n as [|n IH]; [rewrite Z.mul_0_r; reflexivity|]. cbn [pow]. rewrite IH, <- bpow_plus. f_equal. lia.
Qed.
Lemma exp_5n n : bp (7 * Z.of_nat n) <= exp (INR n * 5) <= bp (8 * Z.of_nat n).
Proof.
  rewrite <- exp_nat, <- !bp_pow. destruct e5 as [A B]. pose proof (bpow_gt_0 radix2 7).
  split; apply pow_incr; lra.
Qed.
Lemma exp_neg_up x : 585 <= x -> exp (- x) <= bp (-819).
Proof.
  intros H. rewrite exp_Ropp. change (-819)%Z with (- (819))%Z. rewrite bpow_opp. apply Rinv_le_contravar; [apply bpow_gt_0|].
  apply Rle_trans with (exp (INR 117 * 5)); [apply (exp_5n 117)|]. rewrite INR_IZR_INZ. cbn [Z.of_nat]. apply exp_mono. cbn. lra.
Qed.
Lemma exp_neg_low590 x : x <= 590 -> bp (-944) <= exp (- x).
Proof.
  intros H. rewrite exp_Ropp. change (-944)%Z with (- (944))%Z. rewrite bpow_opp. apply Rinv_le_contravar; [apply exp_pos|].
  apply Rle_trans with (exp (INR 118 * 5)); [|apply (exp_5n 118)]. rewrite INR_IZR_INZ. apply exp_mono. cbn. lra.
Qed.
Lemma exp_neg_low40 x : x <= 40 -> bp (-64) <= exp (- x).
Proof.
  intros H. rewrite exp_Ropp. change (-64)%Z with (- (64))%Z. rewrite bpow_opp. apply Rinv_le_contravar; [apply exp_pos|].
  apply Rle_trans with (exp (INR 8 * 5)); [|apply (exp_5n 8)]. rewrite INR_IZR_INZ. apply exp_mono. cbn. lra.
Qed.
Lemma exp_neg_79 x : 79 <= x -> exp (- x) <= bp (-105).
Proof.
  intros H. rewrite exp_Ropp. change (-105)%Z with (- (105))%Z. rewrite bpow_opp. apply Rinv_le_contravar; [apply bpow_gt_0|].
  apply Rle_trans with (exp (INR 15 * 5)); [apply (exp_5n 15)|]. rewrite INR_IZR_INZ. apply exp_mono. cbn. lra.
Qed.

(** ** The exact weights *)
Notation BB := (Planck_B h_cgs k_cgs c_cgs).
Definition xr (t nu : R) : R := h_cgs * nu / (k_cgs * t).
Lemma c_bounds : (bp (-87) <= h_cgs <= bp (-86)) /\ (bp (-53) <= k_cgs <= bp (-52)) /\ (bp 34 <= c_cgs <= bp 35).
Proof.
  assert (E : forall n, bp (- Z.of_nat n) = / 2 ^ n) by (intros n; rewrite bpow_opp, two_pow_bp; reflexivity).
  assert (P : forall n, bp (Z.of_nat n) = 2 ^ n) by (intros n; rewrite two_pow_bp; reflexivity).
  rewrite (E 87%nat : bp (-87) = _), (E 86%nat : bp (-86) = _), (E 53%nat : bp (-53) = _), (E 52%nat : bp (-52) = _),
    (P 34%nat : bp 34 = _), (P 35%nat : bp 35 = _). unfold h_cgs, k_cgs, c_cgs.
  repeat split; simpl; lra.
Qed.
Lemma c_pos : 0 < h_cgs /\ 0 < k_cgs /\ 0 < c_cgs.
Proof.
  destruct c_bounds as ((A & _) & (B & _) & (C & _)). pose proof (bpow_gt_0 radix2 (-87)). pose proof (bpow_gt_0 radix2 (-53)).
  pose proof (bpow_gt_0 radix2 34). lra.
Qed.
Lemma one_m x : 0 < x -> 0 < 1 - exp (- x) <= x /\ 1 - exp (- x) < 1.
Proof.
  intros H. pose proof (exp_ineq1_le (- x)). pose proof (exp_pos (- x)).
  assert (exp (- x) < 1) by (rewrite <- exp_0; apply exp_increasing; lra). lra.
Qed.

Section Exact.
  Context (t nu : R) (Ht : 1 <= t <= bp 100) (Hn : bp (-100) <= nu <= bp 100).
  Local Notation x := (xr t nu).
  Lemma nu_pos : 0 < nu. Proof. pose proof (bpow_gt_0 radix2 (-100)). lra. Qed.
  Lemma xr_pos : 0 < x.
  Proof. destruct c_pos as (A & B & C). pose proof nu_pos. unfold xr. apply Rdiv_lt_0_compat; apply Rmult_lt_0_compat; lra. Qed.
  (** both weights are at least this *)
  Definition low : R := 2 * k_cgs * nu ^ 2 / c_cgs ^ 2 * exp (- x).
  Lemma c2_pos : 0 < c_cgs ^ 2. Proof. destruct c_pos as (A & B & C). now apply pow_lt. Qed.
  Lemma BB_form : BB t nu = 2 * k_cgs * nu ^ 2 / c_cgs ^ 2 * exp (- x) * (t * (x / (1 - exp (- x)))).
  Proof.
    destruct c_pos as (A & B & C). pose proof nu_pos. pose proof xr_pos as X. destruct (one_m x X) as [[Q _] _].
    unfold Planck_B. fold x. replace (exp x - 1) with ((1 - exp (- x)) / exp (- x)).
    - assert (E : h_cgs * nu = x * (k_cgs * t)) by (unfold xr; field; lra). pose proof (exp_pos (- x)).
      replace (2 * h_cgs * nu ^ 3) with (2 * (h_cgs * nu) * nu ^ 2) by ring. rewrite E. field. lra.
    - rewrite exp_Ropp. pose proof (exp_pos x). field. lra.
  Qed.
  Lemma dB_form : dPlanck t nu = 2 * k_cgs * nu ^ 2 / c_cgs ^ 2 * exp (- x) * (x / (1 - exp (- x))) ^ 2.
  Proof.
    destruct c_pos as (A & B & C). pose proof nu_pos. pose proof xr_pos as X. destruct (one_m x X) as [[Q _] _].
    unfold dPlanck. fold x.
    assert (E : h_cgs * nu = x * (k_cgs * t)) by (unfold xr; field; lra).
    replace (2 * h_cgs ^ 2 * nu ^ 4) with (2 * (h_cgs * nu) ^ 2 * nu ^ 2) by ring. rewrite E. field. lra.
  Qed.
  Lemma low_pos : 0 < low.
  Proof.
    destruct c_pos as (A & B & C). pose proof nu_pos. unfold low. apply Rmult_lt_0_compat; [|apply exp_pos].
    apply Rdiv_lt_0_compat; [|apply c2_pos]. apply Rmult_lt_0_compat; [lra|]. now apply pow_lt.
  Qed.
  Lemma ratio_ge1 : 1 <= x / (1 - exp (- x)).
  Proof.
    pose proof xr_pos as X. destruct (one_m x X) as [[Q Q1] _]. apply Rmult_le_reg_r with (1 - exp (- x)); [exact Q|].
    unfold Rdiv. rewrite Rmult_assoc, Rinv_l by lra. lra.
  Qed.
  Lemma BB_low : low <= BB t nu.
  Proof.
    pose proof low_pos. pose proof ratio_ge1. rewrite BB_form. fold low.
    rewrite <- (Rmult_1_r low) at 1. apply Rmult_le_compat_l; [lra|]. rewrite <- (Rmult_1_r 1) at 1. apply Rmult_le_compat; lra.
  Qed.
  Lemma dB_low : low <= dPlanck t nu.
  Proof.
    pose proof low_pos. pose proof ratio_ge1. rewrite dB_form. fold low.
    rewrite <- (Rmult_1_r low) at 1. apply Rmult_le_compat_l; [lra|]. apply pow_R1_Rle. assumption.
  Qed.
  (** a frequency far out is large *)
  Lemma nu_large : 40 < x -> bp 39 <= nu.
  Proof.
    intros H. destruct c_pos as (A & B & C). pose proof nu_pos.
    assert (E : h_cgs * nu = x * (k_cgs * t)) by (unfold xr; field; lra).
    assert (Q : bp 39 * h_cgs <= 40 * k_cgs).
    { change 39%Z with (Z.of_nat 39). rewrite <- two_pow_bp. unfold h_cgs, k_cgs. simpl. lra. }
    assert (40 * k_cgs <= x * (k_cgs * t)).
    { apply Rmult_le_compat; try lra. rewrite <- (Rmult_1_r k_cgs) at 1. apply Rmult_le_compat_l; lra. }
    apply Rmult_le_reg_r with h_cgs; [exact A|]. lra.
  Qed.
  Lemma low_prefix a : bp a <= nu -> bp (2 * a - 122) <= 2 * k_cgs * nu ^ 2 / c_cgs ^ 2.
  Proof.
    intros H. destruct c_bounds as (_ & (K1 & _) & (_ & C2)). destruct c_pos as (A & B & C). pose proof (bpow_gt_0 radix2 a).
    replace (2 * a - 122)%Z with (1 + (-53) + (a + a) + - (35 + 35))%Z by lia. rewrite !bpow_plus, bpow_opp, bpow_plus.
    change (bp 1) with 2. unfold Rdiv. apply Rmult_le_compat.
    - apply Rmult_le_pos; [|apply Rmult_le_pos; lra]. apply Rmult_le_pos; [lra|apply bpow_ge_0].
    - left. apply Rinv_0_lt_compat, Rmult_lt_0_compat; apply bpow_gt_0.
    - apply Rmult_le_compat; [apply Rmult_le_pos; [lra|apply bpow_ge_0]|apply Rmult_le_pos; lra|lra|].
      replace (nu ^ 2) with (nu * nu) by ring. apply Rmult_le_compat; lra.
    - apply Rinv_le_contravar; [apply c2_pos|]. replace (c_cgs ^ 2) with (c_cgs * c_cgs) by ring. apply Rmult_le_compat; lra.
  Qed.
  Lemma low_ok : x <= 590 -> / 2 ^ 1000 <= low.
  Proof.
    intros H. rewrite two_pow_bp. change (Z.of_nat 1000) with 1000%Z. rewrite <- bpow_opp. change (- (1000))%Z with (-1000)%Z.
    unfold low. destruct (Rle_lt_dec x 40) as [S|S].
    - apply Rle_trans with (bp (2 * -100 - 122) * bp (-64)); [rewrite <- bpow_plus; apply bpow_le; lia|].
      apply Rmult_le_compat; try apply bpow_ge_0; [apply low_prefix; lra|now apply exp_neg_low40].
    - apply Rle_trans with (bp (2 * 39 - 122) * bp (-944)); [rewrite <- bpow_plus; apply bpow_le; lia|].
      apply Rmult_le_compat; try apply bpow_ge_0; [apply low_prefix; now apply nu_large|now apply exp_neg_low590].
  Qed.
End Exact.

Section Upper.
  Context (t nu : R) (Ht : 1 <= t <= bp 100) (Hn : bp (-100) <= nu <= bp 100).
  Local Notation x := (xr t nu).
  Definition pB : R := 2 * h_cgs * nu ^ 3 / c_cgs ^ 2.
  Definition pD : R := 2 * h_cgs ^ 2 * nu ^ 4 / (t ^ 2 * c_cgs ^ 2 * k_cgs).
  Lemma BB_wien : BB t nu = pB * exp (- x) / (1 - exp (- x)).
  Proof.
    pose proof (xr_pos t nu Ht Hn) as X. destruct (one_m x X) as [[Q _] _]. destruct c_pos as (A & B & C).
    unfold Planck_B, pB. fold x. replace (exp x - 1) with ((1 - exp (- x)) / exp (- x)).
    - pose proof (exp_pos (- x)). field. lra.
    - rewrite exp_Ropp. pose proof (exp_pos x). field. lra.
  Qed.
  Lemma dB_wien : dPlanck t nu = pD * exp (- x) / (1 - exp (- x)) ^ 2.
  Proof. reflexivity. Qed.
  Lemma pB_up : 0 < pB <= bp 147.
  Proof.
    destruct c_bounds as ((_ & H2) & _ & (C1 & _)). destruct c_pos as (A & B & C). pose proof (nu_pos nu Hn) as P.
    assert (Q : 0 < pB) by (unfold pB; apply Rdiv_lt_0_compat; [|now apply pow_lt]; apply Rmult_lt_0_compat; [lra|now apply pow_lt]).
    split; [exact Q|]. replace (bp 147) with (2 * bp (-86) * bp 100 ^ 3 / bp 34 ^ 2).
    - unfold pB, Rdiv. apply Rmult_le_compat.
      + apply Rmult_le_pos; [lra|apply pow_le; lra].
      + left. apply Rinv_0_lt_compat, pow_lt, C.
      + apply Rmult_le_compat; [lra|apply pow_le; lra|lra|apply pow_incr; lra].
      + apply Rinv_le_contravar; [apply pow_lt, bpow_gt_0|apply pow_incr]. pose proof (bpow_gt_0 radix2 34). lra.
    - rewrite !bp_pow. change 2 with (bp 1) at 1. unfold Rdiv. rewrite <- bpow_opp, <- !bpow_plus. reflexivity.
  Qed.
  Lemma pD_up : 0 < pD <= bp 214.
  Proof.
    destruct c_bounds as ((_ & H2) & (K1 & _) & (C1 & _)). destruct c_pos as (A & B & C). pose proof (nu_pos nu Hn) as P.
    assert (D0 : 0 < t ^ 2 * c_cgs ^ 2 * k_cgs) by (apply Rmult_lt_0_compat; [apply Rmult_lt_0_compat; apply pow_lt; lra|exact B]).
    assert (Q : 0 < pD) by (unfold pD; apply Rdiv_lt_0_compat; [|exact D0]; repeat apply Rmult_lt_0_compat; try lra; now apply pow_lt).
    split; [exact Q|]. replace (bp 214) with (2 * bp (-86) ^ 2 * bp 100 ^ 4 / (1 * bp 34 ^ 2 * bp (-53))).
    - pose proof (bpow_gt_0 radix2 (-53)). pose proof (bpow_gt_0 radix2 34). unfold pD, Rdiv. apply Rmult_le_compat.
      + apply Rmult_le_pos; [apply Rmult_le_pos; [lra|apply pow_le; lra]|apply pow_le; lra].
      + left. now apply Rinv_0_lt_compat.
      + apply Rmult_le_compat; [apply Rmult_le_pos; [lra|apply pow_le; lra]|apply pow_le; lra| |apply pow_incr; lra].
        apply Rmult_le_compat_l; [lra|]. apply pow_incr. lra.
      + apply Rinv_le_contravar; [repeat apply Rmult_lt_0_compat; try lra; apply pow_lt, bpow_gt_0|].
        assert (1 <= t ^ 2) by (apply pow_R1_Rle; lra). assert (bp 34 ^ 2 <= c_cgs ^ 2) by (apply pow_incr; lra).
        assert (0 < bp 34 ^ 2) by (apply pow_lt, bpow_gt_0).
        apply Rmult_le_compat; [lra|lra| |exact K1]. apply Rmult_le_compat; lra.
    - rewrite Rmult_1_l, !bp_pow. change 2 with (bp 1) at 1. unfold Rdiv. rewrite <- !bpow_plus, <- bpow_opp, <- !bpow_plus. reflexivity.
  Qed.
  Lemma half_1m : 1 <= x -> / 2 <= 1 - exp (- x).
  Proof.
    intros H. assert (exp (- x) <= / 2); [|lra]. apply Rle_trans with (exp (- (1))); [apply exp_mono; lra|].
    rewrite exp_Ropp. apply Rinv_le_contravar; [lra|]. pose proof (exp_ineq1_le 1). lra.
  Qed.
  Lemma far_up : 1 <= x -> BB t nu <= 2 * pB * exp (- x) /\ dPlanck t nu <= 4 * pD * exp (- x).
  Proof.
    intros H. pose proof (half_1m H) as Q. pose proof (exp_pos (- x)) as E. destruct pB_up as [P1 _], pD_up as [P2 _].
    rewrite BB_wien, dB_wien. unfold Rdiv. split.
    - replace (2 * pB * exp (- x)) with (pB * exp (- x) * / (/ 2)) by field.
      apply Rmult_le_compat_l; [apply Rmult_le_pos; lra|]. apply Rinv_le_contravar; lra.
    - replace (4 * pD * exp (- x)) with (pD * exp (- x) * / ((/ 2) ^ 2)) by field.
      apply Rmult_le_compat_l; [apply Rmult_le_pos; lra|]. apply Rinv_le_contravar; [apply pow_lt; lra|apply pow_incr; lra].
  Qed.
  Lemma dB_up : dPlanck t nu <= bp 216.
  Proof.
    pose proof (xr_pos t nu Ht Hn) as X. destruct (Rle_lt_dec 1 x) as [H|H].
    - destruct (far_up H) as [_ U]. apply Rle_trans with (1 := U). destruct pD_up as [P1 P2].
      assert (exp (- x) <= 1) by (rewrite <- exp_0; apply exp_mono; lra). pose proof (exp_pos (- x)).
      change 216%Z with (2 + 214)%Z. rewrite bpow_plus. change (bp 2) with 4. rewrite <- (Rmult_1_r (4 * bp 214)).
      apply Rmult_le_compat; lra.
    - rewrite (dB_form t nu Ht Hn). destruct (one_m x X) as [[Q _] _].
      assert (R2 : 0 <= x / (1 - exp (- x)) <= 2).
      { split; [left; apply Rdiv_lt_0_compat; lra|]. apply Rmult_le_reg_r with (1 - exp (- x)); [exact Q|].
        unfold Rdiv. rewrite Rmult_assoc, Rinv_l, Rmult_1_r by lra.
        assert (exp (- x) <= 1 - x / 2); [|lra]. rewrite exp_Ropp. pose proof (exp_ineq1_le x).
        apply Rle_trans with (/ (1 + x)); [apply Rinv_le_contravar; lra|].
        apply Rmult_le_reg_r with (1 + x); [lra|]. rewrite Rinv_l by lra. nra. }
      assert (E1 : exp (- x) <= 1) by (rewrite <- exp_0; apply exp_mono; lra). pose proof (exp_pos (- x)) as E0.
      destruct c_bounds as (_ & (_ & K2) & (C1 & _)). destruct c_pos as (A & B & C). pose proof (nu_pos nu Hn) as P.
      assert (U : 2 * k_cgs * nu ^ 2 / c_cgs ^ 2 <= bp 149 /\ 0 <= 2 * k_cgs * nu ^ 2 / c_cgs ^ 2).
      { split; [|left; apply Rdiv_lt_0_compat; [|now apply pow_lt]; apply Rmult_lt_0_compat; [lra|now apply pow_lt]].
        apply Rle_trans with (2 * bp (-52) * bp 100 ^ 2 / 1).
        - unfold Rdiv. pose proof (bpow_gt_0 radix2 (-52)). apply Rmult_le_compat.
          + apply Rmult_le_pos; [lra|apply pow_le; lra].
          + left. apply Rinv_0_lt_compat, pow_lt, C.
          + apply Rmult_le_compat; [lra|apply pow_le; lra|lra|apply pow_incr; lra].
          + apply Rinv_le_contravar; [lra|]. apply pow_R1_Rle. apply Rle_trans with (2 := C1). change 1 with (bp 0). apply bpow_le. lia.
        - unfold Rdiv. rewrite Rinv_1, Rmult_1_r, bp_pow. change 2 with (bp 1) at 1. rewrite <- !bpow_plus. apply bpow_le. lia. }
      apply Rle_trans with (bp 149 * 1 * 2 ^ 2).
      + apply Rmult_le_compat; [apply Rmult_le_pos; lra|apply pow_le; lra| |apply pow_incr; lra]. apply Rmult_le_compat; lra.
      + replace (2 ^ 2) with (bp 2) by (simpl; lra). rewrite Rmult_1_r, <- bpow_plus. apply bpow_le. lia.
  Qed.
  Lemma far_tiny : 590 <= x -> BB t nu <= bp (-600) /\ dPlanck t nu <= bp (-600).
  Proof.
    intros H. destruct (far_up ltac:(lra)) as [U1 U2]. destruct pB_up as [P1 P2], pD_up as [P3 P4].
    pose proof (exp_neg_up x ltac:(lra)) as E. pose proof (exp_pos (- x)) as E0. split.
    - apply Rle_trans with (1 := U1). apply Rle_trans with (bp 1 * bp 147 * bp (-819)).
      + change (bp 1) with 2. apply Rmult_le_compat; lra.
      + rewrite <- !bpow_plus. apply bpow_le. lia.
    - apply Rle_trans with (1 := U2). apply Rle_trans with (bp 2 * bp 214 * bp (-819)).
      + change (bp 2) with 4. apply Rmult_le_compat; lra.
      + rewrite <- !bpow_plus. apply bpow_le. lia.
  Qed.
End Upper.

Lemma near_shift n a b a' b' y r r' : near n a b y r -> r <= r' <= r * (1 + u / 2) -> bp a' <= r' <= bp b' -> near (n + 1) a' b' y r'.
Proof.
  intros N [H1 H2] R. destruct (near_pos _ _ _ _ _ N) as [P _]. destruct N as (F & N0 & _ & [L1 L2]). pose proof u_pos as U. pose proof w_pos as W.
  assert (E : 1 + u / 2 <= exp w).
  { apply Rle_trans with (exp (u / 2)); [apply exp_ineq1_le|]. apply exp_mono. unfold w. lra. }
  repeat split; try tauto; try lra.
  - apply Rle_trans with (2 := L1). replace (- ((n + 1) * w)) with (- w + - (n * w)) by ring. rewrite exp_plus.
    rewrite <- Rmult_assoc. apply Rmult_le_compat_r; [left; apply exp_pos|]. rewrite exp_Ropp.
    pose proof (exp_pos w). apply Rmult_le_reg_r with (exp w); [assumption|]. rewrite Rmult_assoc, Rinv_l, Rmult_1_r by lra.
    apply Rle_trans with (1 := H2). apply Rmult_le_compat_l; lra.
  - apply Rle_trans with (1 := L2). replace ((n + 1) * w) with (w + n * w) by ring. rewrite exp_plus.
    pose proof (exp_pos (n * w)). rewrite <- Rmult_assoc. apply Rmult_le_compat_r; [lra|].
    apply Rle_trans with (1 := H1). rewrite <- (Rmult_1_r r') at 1. apply Rmult_le_compat_l; lra.
Qed.

Section Doubles.
  Context (L : Libm) (HL : accurate_libm L) (HG : graceful_libm L).
  Local Notation O := (B64_ops L).
  Local Notation pc := (@PhysicalConstantsCGS b64 O).
  Context (temp nu : b64) (HT : physical temp) (H1 : 1 <= B2R temp) (HN : physical nu).
  Local Notation x := (xr (V temp) (V nu)).
  Local Notation xd := (@Odiv b64 O (@Omul b64 O (pc_h pc) nu) (@Omul b64 O (pc_kb pc) temp)).
  Lemma rT : 1 <= V temp <= bp 100.
  Proof. destruct HT as [_ [_ H]]. rewrite two_pow_bp in H. split; [exact H1|exact H]. Qed.
  Lemma rN : bp (-100) <= V nu <= bp 100.
  Proof.
    destruct HN as [_ [A B]]. rewrite two_pow_bp in A, B. change (Z.of_nat 100) with 100%Z in A, B. rewrite <- bpow_opp in A. split; [exact A|exact B].
  Qed.
  Local Notation W := (@ThermalWeightsAtNu b64 O pc temp nu).
  Local Notation qB := (@Odiv b64 O (@Omul b64 O (@Omul b64 O (@Omul b64 O (@Omul b64 O (@OofZ b64 O 2) (pc_h pc)) nu) nu) nu) (@Omul b64 O (pc_c pc) (pc_c pc))).
  Local Notation qN := (@Omul b64 O (@Omul b64 O (@Omul b64 O (@Omul b64 O (@Omul b64 O (@Omul b64 O (@OofZ b64 O 2) (pc_h pc)) (pc_h pc)) nu) nu) nu) nu).
  Local Notation qT := (@Omul b64 O (@Omul b64 O (@Omul b64 O (@Omul b64 O temp temp) (pc_c pc)) (pc_c pc)) (pc_kb pc)).
  Local Notation emx := (lm_exp L (Bopp xd)).
  Definition WB : b64 := Bmult mode_NE qB emx.
  Definition WD : b64 := Bdiv mode_NE (Bmult mode_NE qN emx) qT.
  Lemma weights_cases : (@Oltb b64 O xd (@wien_tail_x b64 O) = true /\ W = (@planck_nu b64 O pc temp nu, @planck_dT b64 O pc temp nu)) \/
    (@Oltb b64 O xd (@wien_tail_x b64 O) = false /\ W = (WB, WD)).
  Proof.
    unfold ThermalWeightsAtNu. cbv zeta. destruct (@Oltb b64 O xd (@wien_tail_x b64 O)); [left|right]; split; reflexivity.
  Qed.
  Lemma xd_near : near 5 (-235) 167 xd x.
  Proof. exact (near_x L temp nu HT HN). Qed.
  Lemma e_bounds n : 0 <= n <= 10 -> 1 - / 1000000 <= exp (- (n * w)) /\ exp (n * w) <= 1 + / 1000000.
  Proof.
    intros H. pose proof u_small as U. pose proof u_pos as U0. pose proof w_pos as W0.
    assert (Q : 0 <= n * w <= / 10000000). { split; [apply Rmult_le_pos; lra|]. apply Rle_trans with (10 * w); [apply Rmult_le_compat_r; lra|]. unfold w. lra. }
    set (q := n * w) in *. clearbody q. split; [pose proof (exp_ineq1_le (- q)); lra|].
    pose proof (exp_ineq1_le (- q)) as A. rewrite <- (Ropp_involutive q) at 1. rewrite exp_Ropp.
    apply Rle_trans with (/ (1 - q)); [apply Rinv_le_contravar; lra|].
    apply Rmult_le_reg_r with (1 - q); [lra|]. rewrite Rinv_l by lra. nra.
  Qed.
  Lemma tail_x : @Oltb b64 O xd (@wien_tail_x b64 O) = false -> 79 <= x.
  Proof.
    intros H. destruct xd_near as (F & _ & _ & [_ B]). change (Bltb xd (b64_ldexp 80 0) = false) in H. set (y := xd) in *. clearbody y.
    destruct (V_lit 80 0) as [E Fl]; [vm_compute; reflexivity|lia|lia|].
    rewrite Bltb_correct in H by assumption. unfold V in E. rewrite E in H. change (bp 0) with 1 in H. change (B2R y) with (V y) in H.
    destruct (Rlt_bool_spec (V y) (80 * 1)) as [|C]; [discriminate H|].
    destruct (e_bounds 5 ltac:(lra)) as [_ E5]. pose proof (xr_pos (V temp) (V nu) rT rN) as X.
    assert (x * exp (5 * w) <= x * (1 + / 1000000)) by (apply Rmult_le_compat_l; lra). lra.
  Qed.
  Lemma head_x : @Oltb b64 O xd (@wien_tail_x b64 O) = true -> x <= 81.
  Proof.
    intros H. destruct xd_near as (F & _ & _ & [B _]). change (Bltb xd (b64_ldexp 80 0) = true) in H. set (y := xd) in *. clearbody y.
    destruct (V_lit 80 0) as [E Fl]; [vm_compute; reflexivity|lia|lia|].
    rewrite Bltb_correct in H by assumption. unfold V in E. rewrite E in H. change (bp 0) with 1 in H. change (B2R y) with (V y) in H.
    destruct (Rlt_bool_spec (V y) (80 * 1)) as [C|]; [|discriminate H].
    destruct (e_bounds 5 ltac:(lra)) as [E5 _]. pose proof (xr_pos (V temp) (V nu) rT rN) as X.
    assert (x * (1 - / 1000000) <= x * exp (- (5 * w))) by (apply Rmult_le_compat_l; lra). lra.
  Qed.
  Lemma near_qB : near 7 (-600) 147 qB (pB (V nu)).
  Proof.
    destruct c_pos as (A & B & C).
    assert (N : near 7 (-600) 600 qB (pB (V nu))).
    { pose proof (near_in _ HN) as Hn. eapply near_conv; [nearg HL| |rs|zs|zs]. unfold pB. field. lra. }
    apply (near_weaken _ _ _ _ _ _ _ _ N); [lra|]. split; [apply N|]. apply (pB_up (V nu) rN).
  Qed.
  Lemma near_qN : near 9 (-600) 230 qN (2 * h_cgs ^ 2 * V nu ^ 4).
  Proof. pose proof (near_in _ HN) as Hn. eapply near_conv; [nearg HL|ring|rs|zs|zs]. Qed.
  Lemma near_qT : near 8 15 400 qT (V temp ^ 2 * c_cgs ^ 2 * k_cgs).
  Proof.
    pose proof (near_in _ HT) as Ht. destruct c_bounds as (_ & (K & _) & (C & _)). destruct c_pos as (A & B & C0).
    assert (N : near 8 (-300) 400 qT (V temp ^ 2 * c_cgs ^ 2 * k_cgs)) by (eapply near_conv; [nearg HL|ring|rs|zs|zs]).
    apply (near_weaken _ _ _ _ _ _ _ _ N); [lra|]. split; [|apply N].
    change 15%Z with (0 + (34 + 34) + -53)%Z. rewrite !bpow_plus. change (bp 0) with 1. pose proof (bpow_gt_0 radix2 34). pose proof (bpow_gt_0 radix2 (-53)).
    assert (0 < bp 34 * bp 34) by (apply Rmult_lt_0_compat; lra).
    assert (1 <= V temp ^ 2) by (apply pow_R1_Rle; apply rT).
    apply Rmult_le_compat; [lra|lra| |exact K]. apply Rmult_le_compat; [lra|lra|lra|]. replace (c_cgs ^ 2) with (c_cgs * c_cgs) by ring.
    apply Rmult_le_compat; lra.
  Qed.

  (** up to 590 kT/h *)
  Lemma weights_near : x <= 590 -> near (36 + 6 * x) (-1000) 382 (fst W) (BB (V temp) (V nu)) /\ near (36 + 6 * x) (-1000) 216 (snd W) (dPlanck (V temp) (V nu)).
  Proof.
    intros Hx. pose proof (xr_pos (V temp) (V nu) rT rN) as X.
    pose proof (low_ok (V temp) (V nu) rT rN Hx) as Lw. pose proof (BB_low (V temp) (V nu) rT rN) as LB. pose proof (dB_low (V temp) (V nu) rT rN) as LD.
    pose proof (dB_up (V temp) (V nu) rT rN) as UD.
    destruct weights_cases as [[C E]|[C E]]; rewrite E; cbn [fst snd].
    - pose proof (near_planck L HL temp nu HT HN ltac:(fold x; lra) ltac:(lra)) as NB. fold x in NB.
      pose proof (near_planck_dT L HL temp nu HT HN ltac:(fold x; lra) ltac:(lra)) as ND. fold x in ND. split.
      + apply (near_conv _ _ _ _ _ _ _ _ _ NB); [reflexivity|lra|lia|lia].
      + apply (near_weaken _ _ _ _ _ _ _ _ ND); [lra|]. split; [apply ND|exact UD].
    - apply tail_x in C. pose proof (exp_neg_79 x C) as E79. pose proof (exp_pos (- x)) as E0.
      assert (U2 : bp (-105) <= u / 16). { rewrite u_bpow. change (bp (-53) / 16) with (bp (-53) * bp (-4)). rewrite <- bpow_plus. apply bpow_le. lia. }
      pose proof u_small as US. pose proof u_pos as U0.
      assert (S1 : 1 <= / (1 - exp (- x)) <= 1 + u / 8).
      { split; [rewrite <- Rinv_1 at 1; apply Rinv_le_contravar; lra|]. apply Rmult_le_reg_r with (1 - exp (- x)); [lra|]. rewrite Rinv_l by lra. nra. }
      assert (S2 : 1 <= / (1 - exp (- x)) ^ 2 <= 1 + u / 2).
      { rewrite <- pow_inv. set (s := / (1 - exp (- x))) in *. split; [apply pow_R1_Rle; lra|].
        apply Rle_trans with ((1 + u / 8) ^ 2); [apply pow_incr; lra|]. simpl. nra. }
      assert (NE := near_exp_neg L HL _ _ _ _ _ xd_near ltac:(lra) ltac:(rs) ltac:(rs)).
      pose proof (BB_wien (V temp) (V nu) rT rN) as EB. pose proof (dB_wien (V temp) (V nu)) as ED. fold x in ED.
      destruct (pB_up (V nu) rN) as [PB _]. destruct (pD_up (V temp) (V nu) rT rN) as [PD _].
      apply range_hyp in Lw.
      split.
      + assert (RB : bp (-1001) <= pB (V nu) * exp (- x)).
        { replace (pB (V nu) * exp (- x)) with (BB (V temp) (V nu) * (1 - exp (- x))) by (rewrite EB; field; lra).
          change (-1001)%Z with (-1000 + -1)%Z. rewrite bpow_plus. change (bp (-1)) with (/ 2). pose proof (bpow_gt_0 radix2 (-1000)). apply Rmult_le_compat; lra. }
        pose proof (near_mul_low _ _ _ _ _ _ _ _ _ _ (-1001) near_qB NE RB ltac:(lia) ltac:(lia) ltac:(rs)) as N.
        eapply near_conv; [apply (near_shift _ _ _ (-1000) 382 _ _ (BB (V temp) (V nu)) N)|reflexivity|lra|lia|lia].
        * rewrite EB. unfold Rdiv. split; [rewrite <- (Rmult_1_r (_ * _)) at 1|]; apply Rmult_le_compat_l; try (apply Rmult_le_pos; lra); lra.
        * split; [lra|]. rewrite EB. destruct N as (_ & _ & [_ N2] & _). unfold Rdiv.
          apply Rle_trans with (bp (147 + 0) * bp 1); [|rewrite <- bpow_plus; apply bpow_le; lia].
          apply Rmult_le_compat; [apply Rmult_le_pos; lra|lra|exact N2|change (bp 1) with 2; lra].
      + assert (LN : bp 39 <= V nu) by (apply (nu_large (V temp) (V nu) rT rN); lra).
        assert (RN : bp (-1000) <= 2 * h_cgs ^ 2 * V nu ^ 4 * exp (- x)).
        { apply Rle_trans with (bp 1 * bp (-87) ^ 2 * bp 39 ^ 4 * bp (-944)).
          - rewrite !bp_pow, <- !bpow_plus. apply bpow_le. lia.
          - destruct c_bounds as ((Hh & _) & _). pose proof (bpow_gt_0 radix2 (-87)). pose proof (bpow_gt_0 radix2 39). change (bp 1) with 2.
            pose proof (exp_neg_low590 x Hx).
            assert (0 <= bp (-87) ^ 2) by (apply pow_le; lra). assert (0 <= bp 39 ^ 4) by (apply pow_le; lra).
            assert (bp (-87) ^ 2 <= h_cgs ^ 2) by (apply pow_incr; lra). assert (bp 39 ^ 4 <= V nu ^ 4) by (apply pow_incr; lra).
            apply Rmult_le_compat; [apply Rmult_le_pos; lra|apply bpow_ge_0| |lra]. apply Rmult_le_compat; lra. }
        pose proof (near_mul_low _ _ _ _ _ _ _ _ _ _ (-1000) near_qN NE RN ltac:(lia) ltac:(lia) ltac:(rs)) as N.
        assert (EQ : 2 * h_cgs ^ 2 * V nu ^ 4 * exp (- x) / (V temp ^ 2 * c_cgs ^ 2 * k_cgs) = pD (V temp) (V nu) * exp (- x)).
        { unfold pD. destruct c_pos as (A & B & C0). pose proof rT. field. lra. }
        assert (RD : bp (-1001) <= pD (V temp) (V nu) * exp (- x)).
        { replace (pD (V temp) (V nu) * exp (- x)) with (dPlanck (V temp) (V nu) * (1 - exp (- x)) ^ 2) by (rewrite ED; field; lra).
          change (-1001)%Z with (-1000 + -1)%Z. rewrite bpow_plus. change (bp (-1)) with (/ 2). pose proof (bpow_gt_0 radix2 (-1000)).
          apply Rmult_le_compat; [lra|lra|lra|]. set (s := exp (- x)) in *. simpl. nra. }
        rewrite <- EQ in RD.
        pose proof (near_div_low _ _ _ _ _ _ _ _ _ _ (-1001) N near_qT RD ltac:(lia) ltac:(lia) ltac:(rs)) as N2. rewrite EQ in N2.
        eapply near_conv; [apply (near_shift _ _ _ (-1000) 216 _ _ (dPlanck (V temp) (V nu)) N2)|reflexivity|lra|lia|lia].
        * rewrite ED. unfold Rdiv. split; [rewrite <- (Rmult_1_r (_ * _)) at 1|]; apply Rmult_le_compat_l; try (apply Rmult_le_pos; lra); lra.
        * split; [lra|exact UD].
  Qed.

  (** beyond *)
  Lemma emx_far : 590 < x -> fin emx /\ 0 <= V emx <= bp (-818).
  Proof.
    intros Hx. destruct xd_near as (F & _ & _ & [B _]). pose proof (xr_pos (V temp) (V nu) rT rN) as X.
    destruct (e_bounds 5 ltac:(lra)) as [E5 _].
    assert (x * (1 - / 1000000) <= x * exp (- (5 * w))) by (apply Rmult_le_compat_l; lra).
    set (y := xd) in *. clearbody y. assert (Y : 585 <= V y) by lra.
    assert (Fo : fin (Bopp y)) by (rewrite is_finite_Bopp; exact F). assert (Vo : B2R (Bopp y) = - V y) by apply B2R_Bopp.
    pose proof (exp_neg_up _ Y) as U. pose proof (exp_pos (- V y)) as P.
    destruct (Rlt_le_dec (exp (- V y)) (/ 2 ^ 1022)) as [C|C].
    - destruct (HG (Bopp y) Fo) as [G1 [G2 G3]]; [rewrite Vo; exact C|]. split; [exact G1|]. split; [exact G2|].
      apply Rle_trans with (1 := G3). rewrite two_pow_bp, <- bpow_opp. apply bpow_le. vm_compute. congruence.
    - destruct HL as [HE _]. destruct (HE (Bopp y) Fo) as [G1 G2].
      + rewrite Vo. unfold normal. rewrite Rabs_pos_eq by lra. split; [exact C|].
        apply Rle_trans with (1 := U). rewrite two_pow_bp. apply bpow_le. vm_compute. congruence.
      + split; [exact G1|]. rewrite Vo in G2. rewrite (Rabs_pos_eq (exp _)) in G2 by lra. apply Rabs_le_inv in G2.
        fold u in G2. fold (V (lm_exp L (Bopp y))) in G2. pose proof u_small as US. pose proof u_pos as U0.
        assert (0 <= 2 * u * exp (- V y) <= / 2 * exp (- V y)) by (split; [apply Rmult_le_pos; lra|apply Rmult_le_compat_r; lra]).
        change (-818)%Z with (1 + -819)%Z. rewrite bpow_plus. change (bp 1) with 2. lra.
  Qed.
  Lemma near_up n a b y r : near n a b y r -> n <= 10 -> fin y /\ bp (a - 1) <= V y <= bp (b + 1).
  Proof.
    intros N Hn. destruct (near_pos _ _ _ _ _ N) as [P _]. destruct N as (F & N0 & [R1 R2] & [B1 B2]). destruct (e_bounds n ltac:(lra)) as [E1 E2].
    split; [exact F|]. unfold Z.sub. rewrite !bpow_plus. change (bp (-(1))) with (/ 2). change (bp 1) with 2.
    assert (r * / 2 <= r * exp (- (n * w))) by (apply Rmult_le_compat_l; lra).
    assert (r * exp (n * w) <= r * 2) by (apply Rmult_le_compat_l; lra). lra.
  Qed.
  Lemma small_mul y z a b : fin y -> fin z -> 0 <= V y <= bp a -> 0 <= V z <= bp b -> (-1074 <= a + b < 1024)%Z ->
    fin (Bmult mode_NE y z) /\ 0 <= V (Bmult mode_NE y z) <= bp (a + b).
  Proof.
    intros Fy Fz Hy Hz Hab. assert (P : 0 <= V y * V z <= bp (a + b)).
    { split; [apply Rmult_le_pos; lra|]. rewrite bpow_plus. apply Rmult_le_compat; lra. }
    destruct (mul_V y z (a + b) Fy Fz ltac:(lia) ltac:(lia) ltac:(rewrite Rabs_pos_eq by lra; lra)) as [E F].
    split; [exact F|]. rewrite E. split; [apply rnd_pos; lra|]. apply rnd_le_bpow; [lia|lra].
  Qed.
  Lemma weights_far : 590 < x -> (fin (fst W) /\ 0 <= V (fst W) <= bp (-600)) /\ (fin (snd W) /\ 0 <= V (snd W) <= bp (-600)).
  Proof.
    intros Hx. destruct (emx_far Hx) as [FE RE].
    destruct weights_cases as [[C _]|[_ E]]; [apply head_x in C; lra|]. rewrite E. cbn [fst snd]. unfold WB, WD.
    destruct (near_up _ _ _ _ _ near_qB ltac:(lra)) as [F1 R1]. destruct (near_up _ _ _ _ _ near_qN ltac:(lra)) as [F2 R2].
    destruct (near_up _ _ _ _ _ near_qT ltac:(lra)) as [F3 R3]. set (e := emx) in *. clearbody e.
    set (a := qB) in *. set (b := qN) in *. set (c := qT) in *. clearbody a b c. clear E.
    pose proof (bpow_gt_0 radix2 (-600 - 1)). pose proof (bpow_gt_0 radix2 (15 - 1)) as P3.
    destruct (small_mul a e 148 (-818) F1 FE ltac:(simpl in *; lra) RE ltac:(lia)) as [G1 [G2 G3]].
    destruct (small_mul b e 231 (-818) F2 FE ltac:(simpl in *; lra) RE ltac:(lia)) as [K1 [K2 K3]].
    split; (split; [|split]); try assumption.
    - apply Rle_trans with (1 := G3). apply bpow_le. lia.
    - set (m := Bmult mode_NE b e) in *.
      assert (Q : 0 <= V m / V c <= bp (-600)).
      { split; [apply Rmult_le_pos; [lra|left; apply Rinv_0_lt_compat; lra]|].
        apply Rmult_le_reg_r with (V c); [lra|]. unfold Rdiv. rewrite Rmult_assoc, Rinv_l, Rmult_1_r by lra.
        apply Rle_trans with (1 := K3). apply Rle_trans with (bp (-600) * bp (15 - 1)); [rewrite <- bpow_plus; apply bpow_le; lia|].
        apply Rmult_le_compat_l; [apply bpow_ge_0|lra]. }
      apply (div_V m c 0 K1); [lra|lia|lia|]. rewrite Rabs_pos_eq by lra. apply Rle_trans with (bp (-600)); [lra|apply bpow_le; lia].
    - set (m := Bmult mode_NE b e) in *.
      assert (Q : 0 <= V m / V c <= bp (-600)).
      { split; [apply Rmult_le_pos; [lra|left; apply Rinv_0_lt_compat; lra]|].
        apply Rmult_le_reg_r with (V c); [lra|]. unfold Rdiv. rewrite Rmult_assoc, Rinv_l, Rmult_1_r by lra.
        apply Rle_trans with (1 := K3). apply Rle_trans with (bp (-600) * bp (15 - 1)); [rewrite <- bpow_plus; apply bpow_le; lia|].
        apply Rmult_le_compat_l; [apply bpow_ge_0|lra]. }
      destruct (div_V m c (-600) K1) as [E _]; [lra|lia|lia|rewrite Rabs_pos_eq by lra; lra|]. rewrite E. apply rnd_pos. lra.
    - set (m := Bmult mode_NE b e) in *.
      assert (Q : 0 <= V m / V c <= bp (-600)).
      { split; [apply Rmult_le_pos; [lra|left; apply Rinv_0_lt_compat; lra]|].
        apply Rmult_le_reg_r with (V c); [lra|]. unfold Rdiv. rewrite Rmult_assoc, Rinv_l, Rmult_1_r by lra.
        apply Rle_trans with (1 := K3). apply Rle_trans with (bp (-600) * bp (15 - 1)); [rewrite <- bpow_plus; apply bpow_le; lia|].
        apply Rmult_le_compat_l; [apply bpow_ge_0|lra]. }
      destruct (div_V m c (-600) K1) as [E _]; [lra|lia|lia|rewrite Rabs_pos_eq by lra; lra|]. rewrite E. apply rnd_le_bpow; [lia|lra].
  Qed.

  (** both regions in one statement *)
  Definition tol : R := (37 + 7 * Rmin x 590) * u.
  Lemma within_to n y r : within n y r -> 0 <= r -> Rabs (V y - r) <= n * u * r.
  Proof. intros [_ E] P. rewrite (Rabs_pos_eq r P) in E. exact E. Qed.
  Lemma weights_ok :
    (upto 400 (fst W) /\ Rabs (V (fst W) - BB (V temp) (V nu)) <= tol * BB (V temp) (V nu) + bp (-599)) /\
    (upto 400 (snd W) /\ Rabs (V (snd W) - dPlanck (V temp) (V nu)) <= tol * dPlanck (V temp) (V nu) + bp (-599)).
  Proof.
    pose proof (xr_pos (V temp) (V nu) rT rN) as X. pose proof (low_pos (V temp) (V nu) rN) as LP.
    pose proof (BB_low (V temp) (V nu) rT rN) as LB. pose proof (dB_low (V temp) (V nu) rT rN) as LD.
    pose proof (bpow_gt_0 radix2 (-599)) as P9. pose proof u_pos as U0.
    assert (T400 : 2 ^ 400 = bp 400) by apply two_pow_bp.
    destruct (Rle_lt_dec x 590) as [C|C].
    - destruct (weights_near C) as [NB ND]. unfold tol. rewrite Rmin_left by exact C.
      assert (G : forall y r b, (b <= 382)%Z -> near (36 + 6 * x) (-1000) b y r -> upto 400 y /\ Rabs (V y - r) <= (37 + 7 * x) * u * r + bp (-599)).
      { intros y r b Hb N. destruct (near_pos _ _ _ _ _ N) as [P Py]. split.
        - destruct (small_exp (36 + 6 * x)) as [S _]; [rs|]. destruct N as (F & _ & [_ R2] & [_ B2]). split; [exact F|]. split; [exact (Rlt_le _ _ Py)|].
          rewrite T400. apply Rle_trans with (1 := B2). apply Rle_trans with (bp b * bp 1); [change (bp 1) with 2; apply Rmult_le_compat; try lra; left; apply exp_pos|].
          rewrite <- bpow_plus. apply bpow_le. lia.
        - pose proof (within_to _ _ _ (near_within _ _ _ _ _ (37 + 7 * x) N ltac:(lra) ltac:(rs)) ltac:(lra)). lra. }
      split; eapply G; [|exact NB| |exact ND]; lia.
    - destruct (weights_far C) as [[F1 R1] [F2 R2]]. destruct (far_tiny (V temp) (V nu) rT rN ltac:(lra)) as [T1 T2].
      assert (Q : bp (-599) = 2 * bp (-600)) by (change (-599)%Z with (1 + -600)%Z; rewrite bpow_plus; reflexivity).
      assert (B4 : bp (-600) <= bp 400) by (apply bpow_le; lia).
      assert (TP : 0 <= tol) by (unfold tol; rewrite Rmin_right by lra; apply Rmult_le_pos; lra).
      assert (G : forall y r, fin y -> 0 <= V y <= bp (-600) -> 0 <= r <= bp (-600) -> upto 400 y /\ Rabs (V y - r) <= tol * r + bp (-599)).
      { intros y r F H1' H2'. split; [split; [exact F|]; rewrite T400; fold (V y); lra|].
        assert (0 <= tol * r) by (apply Rmult_le_pos; lra). apply Rabs_le. lra. }
      split; apply G; try assumption; lra.
  Qed.
End Doubles.
