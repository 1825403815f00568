(** Error analysis of binary64 expressions of positive quantities: an expression is near a
    real number when it differs from it by a factor of at most exp (n w), w slightly more
    than 2^-53, and the real number lies between two powers of two. *)
From Coq Require Import Reals ZArith Lra Lia Bool.
From Flocq Require Import Core IEEE754.BinarySingleNaN Relative.
From Verif Require Import Base.Ops Inst.B64 Spec.DoublePrecision Proofs.B64Facts.
Open Scope R_scope.

Definition u : R := / 2 ^ 53.
Definition w : R := 1001 / 1000 * u.
Notation bp := (bpow radix2).

Definition near (n : R) (a b : Z) (x : b64) (r : R) : Prop :=
  fin x /\ 0 <= n /\ bp a <= r <= bp b /\ r * exp (- (n * w)) <= V x <= r * exp (n * w).

Lemma u_pos : 0 < u. Proof. unfold u. apply Rinv_0_lt_compat, pow_lt. lra. Qed.
Lemma u_small : u <= / 1000000000000000.
Proof. unfold u. apply Rinv_le_contravar; [lra|]. simpl. lra. Qed.
Lemma w_pos : 0 < w. Proof. unfold w. pose proof u_pos. lra. Qed.
Lemma u_bpow : u = bp (-53).
Proof. unfold u. change (-53)%Z with (- (53))%Z. rewrite bpow_opp. f_equal.
  change (bp 53) with (IZR (2 ^ 53)). simpl. lra. Qed.

Lemma exp_mono x y : x <= y -> exp x <= exp y.
Proof. intros [H| ->]; [apply Rlt_le, exp_increasing, H|lra]. Qed.

Lemma exp_up k : 0 <= k <= 1000 -> 1 + k * u <= exp (k * w).
Proof.
  intros Hk. apply Rle_trans with (1 + k * w); [|apply exp_ineq1_le].
  unfold w. pose proof u_pos. assert (0 <= k * u) by (apply Rmult_le_pos; lra). lra.
Qed.
Lemma exp_down k : 0 <= k <= 1000 -> exp (- (k * w)) <= 1 - k * u.
Proof.
  intros Hk. rewrite exp_Ropp. pose proof (exp_ineq1_le (k * w)) as H. pose proof u_pos. pose proof u_small.
  assert (K : 0 <= k * w) by (apply Rmult_le_pos; [lra|apply Rlt_le, w_pos]).
  apply Rle_trans with (/ (1 + k * w)); [apply Rinv_le_contravar; lra|].
  apply Rmult_le_reg_l with (1 + k * w); [lra|]. rewrite Rinv_r by lra.
  replace ((1 + k * w) * (1 - k * u)) with (1 + k * (w - u - k * (u * w))) by (unfold w; ring).
  assert (0 <= k * (w - u - k * (u * w))); [|lra].
  apply Rmult_le_pos; [lra|]. unfold w.
  assert (k * (u * (1001 / 1000 * u)) <= 1000 * (u * (1001 / 1000 * u))).
  { apply Rmult_le_compat_r; [|lra]. apply Rmult_le_pos; lra. }
  assert (u * u <= / 1000000000000000 * u) by (apply Rmult_le_compat_r; lra). lra.
Qed.

Lemma small_exp m : 0 <= m <= 2 ^ 40 -> exp (m * w) <= 2 /\ / 2 <= exp (- (m * w)).
Proof.
  intros Hm. assert (K : m * w <= / 2).
  { apply Rle_trans with (2 ^ 40 * w); [apply Rmult_le_compat_r; [apply Rlt_le, w_pos|lra]|].
    unfold w. pose proof u_small. assert (2 ^ 40 * u = / 2 ^ 13); [|simpl in *; lra].
    unfold u. replace (2 ^ 53) with (2 ^ 40 * 2 ^ 13) by (rewrite <- pow_add; reflexivity).
    field. }
  assert (E : exp (m * w) <= 2).
  { apply Rle_trans with (exp (/ 2)).
    - destruct (Rle_lt_or_eq_dec _ _ K) as [K'|K']; [apply Rlt_le, exp_increasing, K'|rewrite K'; lra].
    - pose proof (exp_ineq1_le (- / 2)) as H. rewrite exp_Ropp in H.
      pose proof (exp_pos (/ 2)). apply Rmult_le_reg_l with (/ exp (/ 2)); [apply Rinv_0_lt_compat; lra|].
      rewrite Rinv_l by lra. lra. }
  split; [exact E|]. rewrite exp_Ropp. apply Rinv_le_contravar; [apply exp_pos|exact E].
Qed.

(** relative error of one rounding *)
Lemma rnd_rel z : bp (-1022) <= z -> z * (1 - u) <= rnd z <= z * (1 + u).
Proof.
  intros Hz. pose proof (bpow_gt_0 radix2 (-1022)) as P.
  pose proof (relative_error_N_FLT radix2 (-1074) 53 eq_refl (fun z => negb (Z.even z)) z) as H.
  assert (E : / 2 * bp (- (53) + 1) = u).
  { rewrite u_bpow. change (-(53) + 1)%Z with (-53 + 1)%Z. rewrite bpow_plus.
    change (bp 1) with 2. lra. }
  rewrite E in H. rewrite (Rabs_pos_eq z) in H by lra.
  specialize (H Hz). fold (rnd z) in H. apply Rabs_le_inv in H. lra.
Qed.

Lemma w_scale r m : r * exp (- (m * w)) * exp (- (1 * w)) = r * exp (- ((m + 1) * w)).
Proof. rewrite Rmult_assoc, <- exp_plus. f_equal. f_equal. ring. Qed.
Lemma w_scale' r m : r * exp (m * w) * exp (1 * w) = r * exp ((m + 1) * w).
Proof. rewrite Rmult_assoc, <- exp_plus. f_equal. f_equal. ring. Qed.

(** the value before rounding is inside the normal range *)
Lemma near_normal m a b z r : 0 <= m <= 2 ^ 40 -> (-1021 <= a)%Z -> (b <= 1021)%Z ->
  bp a <= r <= bp b -> r * exp (- (m * w)) <= z <= r * exp (m * w) ->
  bp (-1022) <= z <= bp 1022.
Proof.
  intros Hm Ha Hb [Hr1 Hr2] [Hz1 Hz2]. destruct (small_exp m Hm) as [E1 E2].
  pose proof (bpow_gt_0 radix2 a). split.
  - apply Rle_trans with (bp a * / 2).
    + change (/ 2) with (bp (-1)). rewrite <- bpow_plus. apply bpow_le. lia.
    + apply Rle_trans with (r * exp (- (m * w))); [|exact Hz1]. apply Rmult_le_compat; lra.
  - apply Rle_trans with (bp b * 2).
    + apply Rle_trans with (r * exp (m * w)); [exact Hz2|]. apply Rmult_le_compat; try lra.
      apply Rlt_le, exp_pos.
    + change 2 with (bp 1). rewrite <- bpow_plus. apply bpow_le. lia.
Qed.

Lemma near_round m a b x z r : 0 <= m <= 2 ^ 40 -> (-1021 <= a)%Z -> (b <= 1021)%Z ->
  bp a <= r <= bp b -> r * exp (- (m * w)) <= z <= r * exp (m * w) ->
  fin x -> V x = rnd z -> near (m + 1) a b x r.
Proof.
  intros Hm Ha Hb Hr Hz Fx Vx. destruct (near_normal m a b z r Hm Ha Hb Hr Hz) as [N1 N2].
  destruct Hz as [Hz1 Hz2]. pose proof (bpow_gt_0 radix2 a).
  pose proof N1 as Hz0.
  destruct (rnd_rel z Hz0) as [R1 R2].
  pose proof (exp_up 1 ltac:(lra)) as U. pose proof (exp_down 1 ltac:(lra)) as D.
  pose proof (bpow_gt_0 radix2 (-1022)). pose proof u_pos. pose proof u_small.
  repeat split; try tauto; try lra; rewrite Vx.
  - apply Rle_trans with (z * (1 - u)); [|exact R1]. rewrite <- w_scale.
    apply Rmult_le_compat; try lra; [apply Rmult_le_pos; [lra|apply Rlt_le, exp_pos]|apply Rlt_le, exp_pos].
  - apply Rle_trans with (z * (1 + u)); [exact R2|]. rewrite <- w_scale'.
    apply Rmult_le_compat; lra.
Qed.

Lemma near_pos n a b x r : near n a b x r -> 0 < r /\ 0 < V x.
Proof.
  intros (Fx & Hn & [H1 H2] & [H3 H4]). pose proof (bpow_gt_0 radix2 a). split; [lra|].
  apply Rlt_le_trans with (r * exp (- (n * w))); [apply Rmult_lt_0_compat; [lra|apply exp_pos]|exact H3].
Qed.

Lemma near_weaken n n' a b a' b' x r : near n a b x r -> n <= n' -> bp a' <= r <= bp b' ->
  near n' a' b' x r.
Proof.
  intros H Hn Hr. destruct (near_pos _ _ _ _ _ H) as [P _]. destruct H as (Fx & Hn0 & _ & [H3 H4]).
  repeat split; try tauto; try lra.
  - apply Rle_trans with (r * exp (- (n * w))); [|exact H3]. apply Rmult_le_compat_l; [lra|].
    apply exp_mono. apply Ropp_le_contravar, Rmult_le_compat_r; [apply Rlt_le, w_pos|exact Hn].
  - apply Rle_trans with (r * exp (n * w)); [exact H4|]. apply Rmult_le_compat_l; [lra|].
    apply exp_mono, Rmult_le_compat_r; [apply Rlt_le, w_pos|exact Hn].
Qed.

(** ** Operations *)
(** products and quotients, the range of the result being known *)
Lemma near_mul_range n1 a1 b1 x r n2 a2 b2 y s a b :
  near n1 a1 b1 x r -> near n2 a2 b2 y s ->
  bp a <= r * s <= bp b -> (-1021 <= a)%Z -> (b <= 1021)%Z -> n1 + n2 <= 2 ^ 40 ->
  near (n1 + n2 + 1) a b (Bmult mode_NE x y) (r * s).
Proof.
  intros Hx Hy R Ha Hb Hn.
  destruct (near_pos _ _ _ _ _ Hx) as [Pr Px], (near_pos _ _ _ _ _ Hy) as [Ps Py].
  destruct Hx as (Fx & Nx & [X1 X2] & [X3 X4]), Hy as (Fy & Ny & [Y1 Y2] & [Y3 Y4]).
  assert (Z : r * s * exp (- ((n1 + n2) * w)) <= V x * V y <= r * s * exp ((n1 + n2) * w)).
  { replace (- ((n1 + n2) * w)) with (- (n1 * w) + - (n2 * w)) by ring.
    replace ((n1 + n2) * w) with (n1 * w + n2 * w) by ring. rewrite !exp_plus.
    pose proof (exp_pos (- (n1 * w))). pose proof (exp_pos (- (n2 * w))). split.
    - replace (r * s * (exp (- (n1 * w)) * exp (- (n2 * w)))) with
        ((r * exp (- (n1 * w))) * (s * exp (- (n2 * w)))) by ring.
      apply Rmult_le_compat; try lra; apply Rmult_le_pos; lra.
    - replace (r * s * (exp (n1 * w) * exp (n2 * w))) with
        ((r * exp (n1 * w)) * (s * exp (n2 * w))) by ring.
      apply Rmult_le_compat; lra. }
  destruct (near_normal (n1 + n2) _ _ _ _ ltac:(lra) Ha Hb R Z) as [N1 N2].
  pose proof (bpow_gt_0 radix2 (-1022)).
  destruct (mul_V x y 1022 Fx Fy ltac:(lia) ltac:(lia)) as [E F]; [rewrite Rabs_pos_eq; lra|].
  apply near_round with (V x * V y); try assumption; lra.
Qed.

Lemma near_div_range n1 a1 b1 x r n2 a2 b2 y s a b :
  near n1 a1 b1 x r -> near n2 a2 b2 y s ->
  bp a <= r / s <= bp b -> (-1021 <= a)%Z -> (b <= 1021)%Z -> n1 + n2 <= 2 ^ 40 ->
  near (n1 + n2 + 1) a b (Bdiv mode_NE x y) (r / s).
Proof.
  intros Hx Hy R Ha Hb Hn.
  destruct (near_pos _ _ _ _ _ Hx) as [Pr Px], (near_pos _ _ _ _ _ Hy) as [Ps Py].
  destruct Hx as (Fx & Nx & [X1 X2] & [X3 X4]), Hy as (Fy & Ny & [Y1 Y2] & [Y3 Y4]).
  pose proof (Rinv_0_lt_compat _ Ps) as Is. pose proof (Rinv_0_lt_compat _ Py) as Iy.
  assert (Z : r / s * exp (- ((n1 + n2) * w)) <= V x / V y <= r / s * exp ((n1 + n2) * w)).
  { replace (- ((n1 + n2) * w)) with (- (n1 * w) + - (n2 * w)) by ring.
    replace ((n1 + n2) * w) with (n1 * w + n2 * w) by ring. rewrite !exp_plus.
    pose proof (exp_pos (- (n1 * w))) as E1. pose proof (exp_pos (- (n2 * w))) as E2.
    pose proof (exp_pos (n1 * w)) as E3. pose proof (exp_pos (n2 * w)) as E4. unfold Rdiv. split.
    - replace (r * / s * (exp (- (n1 * w)) * exp (- (n2 * w)))) with
        ((r * exp (- (n1 * w))) * (/ (s * exp (n2 * w)))).
      + apply Rmult_le_compat; try lra; [apply Rmult_le_pos; lra| |apply Rinv_le_contravar; lra].
        apply Rlt_le, Rinv_0_lt_compat, Rmult_lt_0_compat; lra.
      + rewrite (exp_Ropp (n2 * w)), Rinv_mult. ring.
    - replace (r * / s * (exp (n1 * w) * exp (n2 * w))) with
        ((r * exp (n1 * w)) * (/ (s * exp (- (n2 * w))))).
      + apply Rmult_le_compat; try lra. apply Rinv_le_contravar; [apply Rmult_lt_0_compat; lra|lra].
      + rewrite (exp_Ropp (n2 * w)), Rinv_mult, Rinv_inv. ring. }
  destruct (near_normal (n1 + n2) _ _ _ _ ltac:(lra) Ha Hb R Z) as [N1 N2].
  pose proof (bpow_gt_0 radix2 (-1022)).
  destruct (div_V x y 1022 Fx ltac:(lra) ltac:(lia) ltac:(lia)) as [E F]; [rewrite Rabs_pos_eq; lra|].
  apply near_round with (V x / V y); try assumption; lra.
Qed.

(** and computed from the ranges of the operands *)
Lemma near_mul n1 a1 b1 x r n2 a2 b2 y s :
  near n1 a1 b1 x r -> near n2 a2 b2 y s ->
  (-1021 <= a1 + a2)%Z -> (b1 + b2 <= 1021)%Z -> n1 + n2 <= 2 ^ 40 ->
  near (n1 + n2 + 1) (a1 + a2) (b1 + b2) (Bmult mode_NE x y) (r * s).
Proof.
  intros Hx Hy Ha Hb Hn. apply (near_mul_range _ _ _ _ _ _ _ _ _ _ _ _ Hx Hy); try assumption.
  destruct Hx as (Fx & Nx & [X1 X2] & _), Hy as (Fy & Ny & [Y1 Y2] & _).
  pose proof (bpow_gt_0 radix2 a1). pose proof (bpow_gt_0 radix2 a2).
  rewrite !bpow_plus. split; apply Rmult_le_compat; lra.
Qed.

Lemma near_div n1 a1 b1 x r n2 a2 b2 y s :
  near n1 a1 b1 x r -> near n2 a2 b2 y s ->
  (-1021 <= a1 - b2)%Z -> (b1 - a2 <= 1021)%Z -> n1 + n2 <= 2 ^ 40 ->
  near (n1 + n2 + 1) (a1 - b2) (b1 - a2) (Bdiv mode_NE x y) (r / s).
Proof.
  intros Hx Hy Ha Hb Hn. apply (near_div_range _ _ _ _ _ _ _ _ _ _ _ _ Hx Hy); try assumption.
  destruct (near_pos _ _ _ _ _ Hy) as [Ps Py].
  destruct Hx as (Fx & Nx & [X1 X2] & _), Hy as (Fy & Ny & [Y1 Y2] & _).
  pose proof (bpow_gt_0 radix2 a1). pose proof (bpow_gt_0 radix2 a2).
  unfold Zminus, Rdiv. rewrite !bpow_plus, !bpow_opp.
  assert (/ bp b2 <= / s) by (apply Rinv_le_contravar; lra).
  assert (/ s <= / bp a2) by (apply Rinv_le_contravar; lra).
  assert (0 < / bp b2) by (apply Rinv_0_lt_compat, bpow_gt_0).
  split; apply Rmult_le_compat; lra.
Qed.

(** the lower end being known *)
Lemma near_div_low n1 a1 b1 x r n2 a2 b2 y s a :
  near n1 a1 b1 x r -> near n2 a2 b2 y s ->
  bp a <= r / s -> (-1021 <= a)%Z -> (b1 - a2 <= 1021)%Z -> n1 + n2 <= 2 ^ 40 ->
  near (n1 + n2 + 1) a (b1 - a2) (Bdiv mode_NE x y) (r / s).
Proof.
  intros Hx Hy Hr Ha Hb Hn. apply (near_div_range _ _ _ _ _ _ _ _ _ _ _ _ Hx Hy); try assumption.
  split; [exact Hr|]. destruct (near_pos _ _ _ _ _ Hx) as [Pr Px].
  destruct (near_pos _ _ _ _ _ Hy) as [Ps Py].
  destruct Hx as (Fx & Nx & [X1 X2] & _), Hy as (Fy & Ny & [Y1 Y2] & _).
  pose proof (bpow_gt_0 radix2 a2). unfold Zminus, Rdiv. rewrite bpow_plus, bpow_opp.
  assert (/ s <= / bp a2) by (apply Rinv_le_contravar; lra).
  assert (0 < / s) by (apply Rinv_0_lt_compat; lra).
  apply Rmult_le_compat; lra.
Qed.
Lemma near_mul_low n1 a1 b1 x r n2 a2 b2 y s a :
  near n1 a1 b1 x r -> near n2 a2 b2 y s ->
  bp a <= r * s -> (-1021 <= a)%Z -> (b1 + b2 <= 1021)%Z -> n1 + n2 <= 2 ^ 40 ->
  near (n1 + n2 + 1) a (b1 + b2) (Bmult mode_NE x y) (r * s).
Proof.
  intros Hx Hy Hr Ha Hb Hn. apply (near_mul_range _ _ _ _ _ _ _ _ _ _ _ _ Hx Hy); try assumption.
  split; [exact Hr|]. destruct (near_pos _ _ _ _ _ Hx) as [Pr Px].
  destruct (near_pos _ _ _ _ _ Hy) as [Ps Py].
  destruct Hx as (Fx & Nx & [X1 X2] & _), Hy as (Fy & Ny & [Y1 Y2] & _).
  rewrite bpow_plus. apply Rmult_le_compat; lra.
Qed.

Lemma near_add n1 a1 b1 x r n2 a2 b2 y s :
  near n1 a1 b1 x r -> near n2 a2 b2 y s ->
  (-1021 <= Z.max a1 a2)%Z -> (Z.max b1 b2 + 1 <= 1021)%Z -> Rmax n1 n2 <= 2 ^ 40 ->
  near (Rmax n1 n2 + 1) (Z.max a1 a2) (Z.max b1 b2 + 1) (Bplus mode_NE x y) (r + s).
Proof.
  intros Hx Hy Ha Hb Hn.
  destruct (near_pos _ _ _ _ _ Hx) as [Pr Px], (near_pos _ _ _ _ _ Hy) as [Ps Py].
  pose proof (Rmax_l n1 n2) as M1. pose proof (Rmax_r n1 n2) as M2. set (m := Rmax n1 n2) in *.
  assert (R : bp (Z.max a1 a2) <= r + s <= bp (Z.max b1 b2 + 1)).
  { destruct Hx as (_ & _ & [X1 X2] & _), Hy as (_ & _ & [Y1 Y2] & _). split.
    - destruct (Z.max_spec a1 a2) as [[_ ->]|[_ ->]]; lra.
    - rewrite bpow_plus. change (bp 1) with 2.
      assert (bp b1 <= bp (Z.max b1 b2)) by (apply bpow_le; lia).
      assert (bp b2 <= bp (Z.max b1 b2)) by (apply bpow_le; lia). lra. }
  assert (X' : near m a1 b1 x r) by (apply (near_weaken _ _ _ _ _ _ _ _ Hx M1); apply Hx).
  assert (Y' : near m a2 b2 y s) by (apply (near_weaken _ _ _ _ _ _ _ _ Hy M2); apply Hy).
  destruct X' as (Fx & Nx & [X1 X2] & [X3 X4]), Y' as (Fy & Ny & [Y1 Y2] & [Y3 Y4]).
  assert (Z : (r + s) * exp (- (m * w)) <= V x + V y <= (r + s) * exp (m * w)) by lra.
  destruct (near_normal m _ _ _ _ ltac:(lra) Ha Hb R Z) as [N1 N2].
  destruct (add_V x y 1022 Fx Fy ltac:(lia) ltac:(lia)) as [E F]; [rewrite Rabs_pos_eq; lra|].
  apply near_round with (V x + V y); try assumption; lra.
Qed.

Lemma near_exact a b x r : fin x -> V x = r -> bp a <= r <= bp b -> near 0 a b x r.
Proof.
  intros Fx E R. repeat split; try tauto; try lra; rewrite E, Rmult_0_l, ?Ropp_0, exp_0; lra.
Qed.

Lemma near_sqrt n a b x r : near n a b x r -> (-1021 <= Z.div a 2)%Z -> ((b + 1) / 2 <= 1021)%Z -> n <= 2 ^ 40 ->
  near (n / 2 + 1) (Z.div a 2) ((b + 1) / 2) (Bsqrt mode_NE x) (sqrt r).
Proof.
  intros Hx Ha Hb Hn. destruct (near_pos _ _ _ _ _ Hx) as [Pr Px].
  destruct Hx as (Fx & Nx & [X1 X2] & [X3 X4]).
  assert (R : bp (Z.div a 2) <= sqrt r <= bp ((b + 1) / 2)).
  { split.
    - apply Rsqr_incr_0; [|apply bpow_ge_0|apply sqrt_pos]. rewrite Rsqr_sqrt by lra. unfold Rsqr.
      rewrite <- bpow_plus. apply Rle_trans with (bp a); [apply bpow_le; pose proof (Z_div_mod_eq_full a 2); pose proof (Z.mod_pos_bound a 2 eq_refl); lia|exact X1].
    - apply Rsqr_incr_0; [|apply sqrt_pos|apply bpow_ge_0]. rewrite Rsqr_sqrt by lra. unfold Rsqr.
      rewrite <- bpow_plus. apply Rle_trans with (bp b); [exact X2|].
      apply bpow_le; pose proof (Z_div_mod_eq_full (b + 1) 2); pose proof (Z.mod_pos_bound (b + 1) 2 eq_refl); lia. }
  assert (S : forall t, sqrt (exp t) = exp (t / 2)).
  { intros t. replace (exp t) with (exp (t / 2) * exp (t / 2)) by (rewrite <- exp_plus; f_equal; lra).
    apply sqrt_square, Rlt_le, exp_pos. }
  assert (Z : sqrt r * exp (- (n / 2 * w)) <= sqrt (V x) <= sqrt r * exp (n / 2 * w)).
  { replace (- (n / 2 * w)) with (- (n * w) / 2) by lra. replace (n / 2 * w) with (n * w / 2) by lra.
    rewrite <- !S, <- !sqrt_mult_alt by lra. split; apply sqrt_le_1_alt; lra. }
  pose proof (Bsqrt_correct 53 1024 _ _ mode_NE x) as (E & F & _).
  apply near_round with (sqrt (V x)); try assumption; try lra.
  rewrite F. destruct x as [s|s| |s m e He]; try reflexivity; try discriminate Fx.
  destruct s; [|reflexivity]. exfalso. cbn in Px.
  assert (F2R (Float radix2 (Zneg m) e) < 0) by (apply F2R_lt_0; reflexivity). unfold V, B2R in Px. simpl in Px. lra.
Qed.

(** ** Library functions *)
Lemma within_near k x r : within k x r -> 0 <= k <= 1000 -> 0 < r ->
  fin x /\ r * exp (- (k * w)) <= V x <= r * exp (k * w).
Proof.
  intros [Fx H] Hk Hr. split; [exact Fx|]. fold u in H. fold (V x) in H.
  rewrite (Rabs_pos_eq r) in H by lra. apply Rabs_le_inv in H.
  pose proof (exp_up k Hk) as U. pose proof (exp_down k Hk) as D. split.
  - apply Rle_trans with (r * (1 - k * u)); [apply Rmult_le_compat_l; lra|lra].
  - apply Rle_trans with (r * (1 + k * u)); [lra|apply Rmult_le_compat_l; lra].
Qed.

Lemma near_within n a b x r k : near n a b x r -> n * (1002 / 1000) <= k -> n <= 2 ^ 40 -> within k x r.
Proof.
  intros H Hk Hn. destruct (near_pos _ _ _ _ _ H) as [P _]. destruct H as (Fx & Hn0 & _ & [H1 H2]).
  split; [exact Fx|]. fold u. fold (V x). rewrite (Rabs_pos_eq r) by lra.
  pose proof w_pos as W. pose proof u_pos as U. pose proof u_small as U'.
  assert (T0 : 0 <= n * w) by (apply Rmult_le_pos; lra).
  assert (T1 : n * w <= / 8000).
  { apply Rle_trans with (2 ^ 40 * w); [apply Rmult_le_compat_r; lra|]. unfold w.
    assert (2 ^ 40 * u = / 2 ^ 13); [|simpl in *; lra].
    unfold u. replace (2 ^ 53) with (2 ^ 40 * 2 ^ 13) by (rewrite <- pow_add; reflexivity). field. }
  assert (E1 : 1 - n * w <= exp (- (n * w))) by (pose proof (exp_ineq1_le (- (n * w))); lra).
  assert (E2 : exp (n * w) <= 1 + n * w * (1 + / 4000)).
  { rewrite <- (Rinv_inv (exp (n * w))), <- exp_Ropp.
    apply Rle_trans with (/ (1 - n * w)); [apply Rinv_le_contravar; lra|].
    apply Rmult_le_reg_l with (1 - n * w); [lra|]. rewrite Rinv_r by lra.
    replace ((1 - n * w) * (1 + n * w * (1 + / 4000))) with
      (1 + n * w * (/ 4000 - n * w * (1 + / 4000))) by ring.
    assert (0 <= n * w * (/ 4000 - n * w * (1 + / 4000))); [|lra]. apply Rmult_le_pos; lra. }
  assert (K : n * w * (1 + / 4000) <= k * u).
  { unfold w. replace (n * (1001 / 1000 * u) * (1 + / 4000)) with (n * (1001 / 1000 * (1 + / 4000)) * u) by ring.
    apply Rmult_le_compat_r; lra. }
  apply Rabs_le. assert (n * w <= n * w * (1 + / 4000)) by lra. split.
  - apply Rle_trans with (r * (1 - n * w) - r).
    + replace (r * (1 - n * w) - r) with (- (r * (n * w))) by ring.
      rewrite <- Ropp_mult_distr_l_reverse. replace (- (k * u) * r) with (- (r * (k * u))) by ring.
      apply Ropp_le_contravar, Rmult_le_compat_l; lra.
    + assert (r * (1 - n * w) <= r * exp (- (n * w))) by (apply Rmult_le_compat_l; lra). lra.
  - apply Rle_trans with (r * (1 + k * u) - r); [|lra].
    assert (r * exp (n * w) <= r * (1 + k * u)) by (apply Rmult_le_compat_l; lra). lra.
Qed.

(** a factor of exp (n w) as a difference *)
Lemma small_diff n r v : 0 <= n <= 2 ^ 40 -> 0 < r -> r * exp (- (n * w)) <= v <= r * exp (n * w) ->
  Rabs (v - r) <= 1001 / 1000 * r * n * w.
Proof.
  intros Hn P [H1 H2]. pose proof w_pos as W. pose proof u_pos as U. pose proof u_small as U'.
  assert (T0 : 0 <= n * w) by (apply Rmult_le_pos; lra).
  assert (T1 : n * w <= / 8000).
  { apply Rle_trans with (2 ^ 40 * w); [apply Rmult_le_compat_r; lra|]. unfold w.
    assert (2 ^ 40 * u = / 2 ^ 13); [|simpl in *; lra].
    unfold u. replace (2 ^ 53) with (2 ^ 40 * 2 ^ 13) by (rewrite <- pow_add; reflexivity). field. }
  assert (E1 : 1 - n * w <= exp (- (n * w))) by (pose proof (exp_ineq1_le (- (n * w))); lra).
  assert (E2 : exp (n * w) <= 1 + n * w * (1001 / 1000)).
  { rewrite <- (Rinv_inv (exp (n * w))), <- exp_Ropp.
    apply Rle_trans with (/ (1 - n * w)); [apply Rinv_le_contravar; lra|].
    apply Rmult_le_reg_l with (1 - n * w); [lra|]. rewrite Rinv_r by lra.
    replace ((1 - n * w) * (1 + n * w * (1001 / 1000))) with
      (1 + n * w * (/ 1000 - n * w * (1001 / 1000))) by field.
    assert (0 <= n * w * (/ 1000 - n * w * (1001 / 1000))); [|lra]. apply Rmult_le_pos; lra. }
  assert (r * (1 - n * w) <= r * exp (- (n * w))) by (apply Rmult_le_compat_l; lra).
  assert (r * exp (n * w) <= r * (1 + n * w * (1001 / 1000))) by (apply Rmult_le_compat_l; lra).
  assert (0 <= r * (n * w)) by (apply Rmult_le_pos; lra).
  apply Rabs_le. split; lra.
Qed.

Lemma exp2_le_8 : exp 2 <= 8.
Proof.
  assert (A : exp (/ 64) <= 64 / 63).
  { rewrite <- (Rinv_inv (exp (/ 64))), <- exp_Ropp. pose proof (exp_ineq1_le (- / 64)).
    replace (64 / 63) with (/ (63 / 64)) by field. apply Rinv_le_contravar; lra. }
  pose proof (exp_pos (/ 64)) as P0.
  assert (D : forall t q, 0 < exp t <= q -> 0 < exp (2 * t) <= q * q).
  { intros t q H. replace (2 * t) with (t + t) by ring. rewrite exp_plus. split.
    - apply Rmult_lt_0_compat; lra.
    - apply Rmult_le_compat; lra. }
  assert (M : forall t q q', 0 < exp t <= q -> q <= q' -> 0 < exp t <= q') by (intros; lra).
  pose proof (D _ _ (conj P0 A)) as B1. apply M with (q' := 10323 / 10000) in B1; [|lra].
  apply D in B1. apply M with (q' := 10657 / 10000) in B1; [|lra].
  apply D in B1. apply M with (q' := 11358 / 10000) in B1; [|lra].
  apply D in B1. apply M with (q' := 12901 / 10000) in B1; [|lra].
  apply D in B1. apply M with (q' := 16644 / 10000) in B1; [|lra].
  apply D in B1. apply M with (q' := 27703 / 10000) in B1; [|lra].
  apply D in B1. replace 2 with (2 * (2 * (2 * (2 * (2 * (2 * (2 * / 64))))))) by field. lra.
Qed.

Lemma exp_range r : 0 <= r <= 680 -> bp 0 <= exp r <= bp 1020.
Proof.
  intros [H1 H2]. split.
  - change (bp 0) with 1. pose proof (exp_ineq1_le r). lra.
  - apply Rle_trans with (exp 680); [apply exp_mono, H2|].
    replace (bp 1020) with (8 ^ 340).
    + replace 680 with (INR 340 * 2) by (rewrite INR_IZR_INZ; simpl; ring).
      assert (E : forall n, exp (INR n * 2) <= 8 ^ n).
      { induction n as [|n IH]; [simpl; rewrite Rmult_0_l, exp_0; lra|].
        rewrite S_INR, Rmult_plus_distr_r, Rmult_1_l, exp_plus. simpl pow. rewrite Rmult_comm.
        apply Rmult_le_compat; [apply Rlt_le, exp_pos|apply Rlt_le, exp_pos|exact exp2_le_8|exact IH]. }
      apply E.
    + change 8 with (IZR (2 ^ 3)). rewrite pow_IZR. change (bp 1020) with (IZR (2 ^ 1020)). f_equal.
Qed.

Lemma two_pow_bp k : 2 ^ k = bp (Z.of_nat k).
Proof.
  change 2 with (IZR 2). rewrite pow_IZR. rewrite <- IZR_Zpower by lia. f_equal.
Qed.
Lemma normal_pos r : bp (-1022) <= r <= bp 1023 -> normal r.
Proof.
  intros H. pose proof (bpow_gt_0 radix2 (-1022)). unfold normal. rewrite Rabs_pos_eq by lra.
  rewrite !two_pow_bp. change (Z.of_nat 1023) with 1023%Z. change (Z.of_nat 1022) with 1022%Z.
  rewrite <- bpow_opp. exact H.
Qed.
Lemma normal_neg r : bp (-1022) <= r <= bp 1023 -> normal (- r).
Proof. intros H. unfold normal. rewrite Rabs_Ropp. apply normal_pos, H. Qed.
Lemma within_opp k x r : within k x (- r) -> within k (Bopp x) r.
Proof.
  intros [F H]. split; [rewrite is_finite_Bopp; exact F|]. rewrite B2R_Bopp.
  replace (- B2R x - r) with (- (B2R x - - r)) by ring. rewrite Rabs_Ropp. rewrite Rabs_Ropp in H. exact H.
Qed.

(** conditioning of e^x - 1 and 1 - e^-x *)
Lemma expm1_scale a x : 1 <= a -> 0 <= x ->
  exp (a * x) - 1 <= a * exp ((a - 1) * x) * (exp x - 1).
Proof.
  intros Ha Hx.
  set (f := fun x => a * exp ((a - 1) * x) * (exp x - 1) - (exp (a * x) - 1)).
  set (f' := fun x => a * (a - 1) * exp ((a - 1) * x) * (exp x - 1)).
  assert (D : forall y, derivable_pt_lim f y (f' y)).
  { intros y. unfold f, f'.
    replace (a * (a - 1) * exp ((a - 1) * y) * (exp y - 1)) with
      ((a * (exp ((a - 1) * y) * ((a - 1) * 1)) * (exp y - 1) + a * exp ((a - 1) * y) * (exp y - 0)) -
       (exp (a * y) * (a * 1) - 0)).
    - apply derivable_pt_lim_minus.
      + apply (derivable_pt_lim_mult (fun x => a * exp ((a - 1) * x)) (fun x => exp x - 1)).
        * apply (derivable_pt_lim_scal (fun x => exp ((a - 1) * x))).
          apply (derivable_pt_lim_comp (fun x => (a - 1) * x) exp); [|apply derivable_pt_lim_exp].
          apply (derivable_pt_lim_scal (fun x => x)), derivable_pt_lim_id.
        * apply (derivable_pt_lim_minus exp (fun _ => 1)); [apply derivable_pt_lim_exp|apply derivable_pt_lim_const].
      + apply (derivable_pt_lim_minus (fun x => exp (a * x)) (fun _ => 1)); [|apply derivable_pt_lim_const].
        apply (derivable_pt_lim_comp (fun x => a * x) exp); [|apply derivable_pt_lim_exp].
        apply (derivable_pt_lim_scal (fun x => x)), derivable_pt_lim_id.
    - replace (exp (a * y)) with (exp ((a - 1) * y) * exp y) by (rewrite <- exp_plus; f_equal; ring). ring. }
  assert (f 0 <= f x).
  { destruct Hx as [Hx| <-]; [|lra].
    destruct (MVT_cor2 f f' 0 x Hx) as (c & E & [C1 C2]); [intros; apply D|].
    assert (0 <= f' c).
    { unfold f'. pose proof (exp_pos ((a - 1) * c)). pose proof (exp_ineq1_le c).
      apply Rmult_le_pos; [|lra]. apply Rmult_le_pos; [apply Rmult_le_pos; lra|lra]. }
    assert (0 <= f' c * (x - 0)) by (apply Rmult_le_pos; lra). lra. }
  assert (f 0 = 0) by (unfold f; rewrite !Rmult_0_r, !exp_0; ring).
  unfold f in H at 2. lra.
Qed.
Lemma one_minus_scale a x : 1 <= a -> 0 <= x -> 1 - exp (- (a * x)) <= a * (1 - exp (- x)).
Proof.
  intros Ha Hx.
  set (f := fun x => a * (1 - exp (- x)) - (1 - exp (- (a * x)))).
  set (f' := fun x => a * (exp (- x) - exp (- (a * x)))).
  assert (D : forall y, derivable_pt_lim f y (f' y)).
  { intros y. unfold f, f'.
    replace (a * (exp (- y) - exp (- (a * y)))) with
      (a * (0 - exp (- y) * (- (1))) - (0 - exp (- (a * y)) * - (a * 1))) by ring.
    apply derivable_pt_lim_minus.
    - apply (derivable_pt_lim_scal (fun x => 1 - exp (- x))).
      apply (derivable_pt_lim_minus (fun _ => 1) (fun x => exp (- x))); [apply derivable_pt_lim_const|].
      apply (derivable_pt_lim_comp Ropp exp); [|apply derivable_pt_lim_exp].
      apply (derivable_pt_lim_opp (fun x => x)), derivable_pt_lim_id.
    - apply (derivable_pt_lim_minus (fun _ => 1) (fun x => exp (- (a * x)))); [apply derivable_pt_lim_const|].
      apply (derivable_pt_lim_comp (fun x => - (a * x)) exp); [|apply derivable_pt_lim_exp].
      apply (derivable_pt_lim_opp (fun x => a * x)).
      apply (derivable_pt_lim_scal (fun x => x)), derivable_pt_lim_id. }
  assert (f 0 <= f x).
  { destruct Hx as [Hx| <-]; [|lra].
    destruct (MVT_cor2 f f' 0 x Hx) as (c & E & [C1 C2]); [intros; apply D|].
    assert (0 <= f' c).
    { unfold f'. apply Rmult_le_pos; [lra|].
      assert (exp (- (a * c)) <= exp (- c)); [|lra]. apply exp_mono, Ropp_le_contravar.
      replace c with (1 * c) at 1 by ring. apply Rmult_le_compat_r; lra. }
    assert (0 <= f' c * (x - 0)) by (apply Rmult_le_pos; lra). lra. }
  assert (f 0 = 0) by (unfold f; rewrite !Rmult_0_r, !Ropp_0, !exp_0; ring).
  unfold f in H at 2. lra.
Qed.

Lemma scale_add r m k : r * exp (m * w) * exp (k * w) = r * exp ((m + k) * w).
Proof. rewrite Rmult_assoc, <- exp_plus. f_equal. f_equal. ring. Qed.
Lemma scale_add' r m k : r * exp (- (m * w)) * exp (- (k * w)) = r * exp (- ((m + k) * w)).
Proof. rewrite Rmult_assoc, <- exp_plus. f_equal. f_equal. ring. Qed.

(** a library call on a value near r *)
Lemma near_call m a b y z r : 0 <= m <= 2 ^ 40 -> (-1021 <= a)%Z -> (b <= 1021)%Z ->
  bp a <= r <= bp b -> r * exp (- (m * w)) <= z <= r * exp (m * w) ->
  (normal z -> within 2 y z) -> near (m + 2) a b y r.
Proof.
  intros Hm Ha Hb Hr Hz W. destruct (near_normal m a b z r Hm Ha Hb Hr Hz) as [N1 N2].
  pose proof (bpow_gt_0 radix2 (-1022)) as P. pose proof (bpow_gt_0 radix2 a).
  assert (bp 1022 <= bp 1023) by (apply bpow_le; lia).
  destruct (within_near 2 y z) as (F & Y1 & Y2); [apply W, normal_pos; lra|lra|lra|].
  pose proof (exp_pos (2 * w)). pose proof (exp_pos (- (2 * w))).
  repeat split; try tauto; try lra.
  - rewrite <- scale_add'. apply Rle_trans with (z * exp (- (2 * w))); [|exact Y1].
    apply Rmult_le_compat_r; lra.
  - rewrite <- scale_add. apply Rle_trans with (z * exp (2 * w)); [exact Y2|].
    apply Rmult_le_compat_r; lra.
Qed.

Lemma ln_mono x y : 0 < x -> x <= y -> ln x <= ln y.
Proof. intros H [K| ->]; [apply Rlt_le, ln_increasing; assumption|lra]. Qed.

Section Library.
  Context (L : Libm) (HL : accurate_libm L).

  Lemma near_exp n a b x r : near n a b x r -> r <= 680 -> 1001 / 1000 * r * n <= 2 ^ 40 -> n <= 2 ^ 40 ->
    near (1001 / 1000 * r * n + 2) 0 1020 (lm_exp L x) (exp r).
  Proof.
    intros Hx Hr Hm Hn. destruct (near_pos _ _ _ _ _ Hx) as [Pr _].
    destruct Hx as (Fx & Nx & _ & Vx).
    pose proof (small_diff n r (V x) ltac:(lra) Pr Vx) as D. apply Rabs_le_inv in D.
    assert (M : 0 <= 1001 / 1000 * r * n) by (apply Rmult_le_pos; lra).
    apply near_call with (exp (V x)); try lia; try lra.
    - apply exp_range. lra.
    - rewrite <- !exp_plus. split; apply exp_mono; lra.
    - intros N. apply (proj1 HL); assumption.
  Qed.

  Lemma near_exp_neg n a b x r : near n a b x r -> r <= 680 -> 1001 / 1000 * r * n <= 2 ^ 40 -> n <= 2 ^ 40 ->
    near (1001 / 1000 * r * n + 2) (-1020) 0 (lm_exp L (Bopp x)) (exp (- r)).
  Proof.
    intros Hx Hr Hm Hn. destruct (near_pos _ _ _ _ _ Hx) as [Pr _].
    destruct Hx as (Fx & Nx & _ & Vx).
    pose proof (small_diff n r (V x) ltac:(lra) Pr Vx) as D. apply Rabs_le_inv in D.
    assert (M : 0 <= 1001 / 1000 * r * n) by (apply Rmult_le_pos; lra).
    destruct (exp_range r ltac:(lra)) as [E1 E2]. pose proof (exp_pos r).
    apply near_call with (exp (- V x)); try lia; try lra.
    - rewrite exp_Ropp. change (-1020)%Z with (- (1020))%Z. rewrite bpow_opp. split.
      + apply Rinv_le_contravar; lra.
      + change (bp 0) with 1 in *. rewrite <- Rinv_1. apply Rinv_le_contravar; lra.
    - rewrite <- !exp_plus. split; apply exp_mono; lra.
    - intros N. unfold V in *. rewrite <- B2R_Bopp in *. apply (proj1 HL); [|exact N].
      rewrite is_finite_Bopp. exact Fx.
  Qed.

  Lemma near_expm1 n a b x r : near n a b x r -> r <= 680 ->
    n + 1001 / 1000 * r * n <= 2 ^ 40 -> (-1021 <= a)%Z ->
    near (n + 1001 / 1000 * r * n + 2) a 1020 (lm_expm1 L x) (exp r - 1).
  Proof.
    intros Hx Hr Hm Ha. destruct (near_pos _ _ _ _ _ Hx) as [Pr Px].
    destruct Hx as (Fx & Nx & [X1 X2] & Vx).
    assert (M : 0 <= 1001 / 1000 * r * n) by (apply Rmult_le_pos; lra).
    pose proof (small_diff n r (V x) ltac:(lra) Pr Vx) as D. apply Rabs_le_inv in D.
    destruct Vx as [V1 V2]. pose proof (exp_ineq1_le r) as Er. pose proof (exp_ineq1_le (V x)) as Ex.
    assert (K : forall y z m, 0 < y -> y <= z -> z <= y * exp (n * w) -> z - y <= m * w ->
      exp z - 1 <= (exp y - 1) * exp ((n + m) * w)).
    { intros y z m Py Hyz Hz Hd. pose proof (expm1_scale (z / y) y) as S.
      assert (Q : 1 <= z / y).
      { apply Rmult_le_reg_r with y; [lra|]. unfold Rdiv. rewrite Rmult_assoc, Rinv_l by lra. lra. }
      specialize (S Q ltac:(lra)). replace (z / y * y) with z in S by (field; lra).
      replace ((z / y - 1) * y) with (z - y) in S by (field; lra).
      apply Rle_trans with (1 := S).
      pose proof (exp_ineq1_le y). pose proof (exp_pos (z - y)).
      rewrite (Rmult_comm (exp y - 1)). apply Rmult_le_compat_r; [lra|].
      replace ((n + m) * w) with (n * w + m * w) by ring. rewrite exp_plus.
      apply Rmult_le_compat; try lra; [|apply exp_mono; lra].
      apply Rmult_le_reg_r with y; [lra|]. unfold Rdiv. rewrite Rmult_assoc, Rinv_l by lra. lra. }
    apply near_call with (exp (V x) - 1); try lia; try lra.
    - destruct (exp_range r ltac:(lra)). lra.
    - set (m := 1001 / 1000 * r * n) in *.
      pose proof (exp_pos ((n + m) * w)) as P1. pose proof (exp_pos (- ((n + m) * w))) as P2.
      assert (I : exp (- ((n + m) * w)) * exp ((n + m) * w) = 1) by (rewrite <- exp_plus, Rplus_opp_l; apply exp_0).
      assert (W1 : 1 <= exp (n * w)).
      { pose proof (exp_ineq1_le (n * w)). assert (0 <= n * w) by (apply Rmult_le_pos; [lra|apply Rlt_le, w_pos]). lra. }
      assert (W2 : 1 <= exp ((n + m) * w)).
      { pose proof (exp_ineq1_le ((n + m) * w)). assert (0 <= (n + m) * w) by (apply Rmult_le_pos; [lra|apply Rlt_le, w_pos]). lra. }
      destruct (Rle_lt_dec r (V x)) as [C|C].
      + split; [|apply K; lra].
        apply Rle_trans with (exp r - 1); [|pose proof (exp_mono _ _ C); lra].
        rewrite <- (Rmult_1_r (exp r - 1)) at 2. apply Rmult_le_compat_l; [lra|].
        rewrite exp_Ropp. rewrite <- Rinv_1. apply Rinv_le_contravar; lra.
      + assert (H : exp r - 1 <= (exp (V x) - 1) * exp ((n + m) * w)).
        { apply K; try lra.
          apply Rmult_le_reg_r with (exp (- (n * w))); [apply exp_pos|].
          rewrite Rmult_assoc, <- exp_plus, Rplus_opp_r, exp_0. lra. }
        split.
        * apply Rmult_le_reg_r with (exp ((n + m) * w)); [exact P1|].
          rewrite Rmult_assoc, I. lra.
        * assert (exp (V x) <= exp r) by (apply exp_mono; lra).
          apply Rle_trans with (exp r - 1); [lra|].
          rewrite <- (Rmult_1_r (exp r - 1)) at 1. apply Rmult_le_compat_l; lra.
    - intros N. apply (proj1 (proj2 HL)); assumption.
  Qed.

  (** 1 - e^-x, computed as -expm1(-x) *)
  Lemma near_1mexp n a b x r : near n a b x r -> n <= 2 ^ 40 -> (-1020 <= a)%Z ->
    near (n + 2) (Z.min a 0 - 1) 0 (Bopp (lm_expm1 L (Bopp x))) (1 - exp (- r)).
  Proof.
    intros Hx Hn Ha. destruct (near_pos _ _ _ _ _ Hx) as [Pr Px].
    destruct Hx as (Fx & Nx & [X1 X2] & Vx). destruct Vx as [V1 V2].
    assert (K : forall y z, 0 < y -> y <= z -> z <= y * exp (n * w) ->
      1 - exp (- z) <= (1 - exp (- y)) * exp (n * w)).
    { intros y z Py Hyz Hz. pose proof (one_minus_scale (z / y) y) as S.
      assert (Q : 1 <= z / y).
      { apply Rmult_le_reg_r with y; [lra|]. unfold Rdiv. rewrite Rmult_assoc, Rinv_l by lra. lra. }
      specialize (S Q ltac:(lra)). replace (z / y * y) with z in S by (field; lra).
      apply Rle_trans with (1 := S). assert (exp (- y) <= 1) by (rewrite <- exp_0; apply exp_mono; lra).
      rewrite Rmult_comm. apply Rmult_le_compat_l; [lra|].
      apply Rmult_le_reg_r with y; [lra|]. unfold Rdiv. rewrite Rmult_assoc, Rinv_l by lra. lra. }
    assert (R : bp (Z.min a 0 - 1) <= 1 - exp (- r) <= bp 0).
    { split; [|change (bp 0) with 1; pose proof (exp_pos (- r)); lra].
      apply Rle_trans with (r / (1 + r)).
      - unfold Zminus. rewrite bpow_plus. change (bp (-(1))) with (/ 2).
        assert (B : bp (Z.min a 0) <= bp a /\ bp (Z.min a 0) <= bp 0) by (split; apply bpow_le; lia).
        change (bp 0) with 1 in B. pose proof (bpow_gt_0 radix2 (Z.min a 0)).
        apply Rmult_le_reg_r with (1 + r); [lra|]. unfold Rdiv. rewrite (Rmult_assoc r), Rinv_l by lra.
        destruct (Rle_lt_dec r 1).
        + assert (bp (Z.min a 0) * (/ 2 * (1 + r)) <= bp (Z.min a 0) * 1) by (apply Rmult_le_compat_l; lra). lra.
        + assert (bp (Z.min a 0) * (/ 2 * (1 + r)) <= 1 * (/ 2 * (1 + r))) by (apply Rmult_le_compat_r; lra). lra.
      - pose proof (exp_ineq1_le r). rewrite exp_Ropp.
        assert (/ exp r <= / (1 + r)) by (apply Rinv_le_contravar; lra).
        replace (r / (1 + r)) with (1 - / (1 + r)) by (field; lra). lra. }
    apply near_call with (1 - exp (- V x)); try lia; try lra.
    - assert (W1 : 1 <= exp (n * w)).
      { pose proof (exp_ineq1_le (n * w)). assert (0 <= n * w) by (apply Rmult_le_pos; [lra|apply Rlt_le, w_pos]). lra. }
      assert (I : exp (- (n * w)) * exp (n * w) = 1) by (rewrite <- exp_plus, Rplus_opp_l; apply exp_0).
      pose proof (bpow_gt_0 radix2 (Z.min a 0 - 1)).
      destruct (Rle_lt_dec r (V x)) as [C|C].
      + split; [|apply K; lra].
        apply Rle_trans with (1 - exp (- r)).
        * rewrite <- (Rmult_1_r (1 - exp (- r))) at 2. apply Rmult_le_compat_l; [lra|].
          rewrite exp_Ropp. rewrite <- Rinv_1. apply Rinv_le_contravar; lra.
        * assert (exp (- V x) <= exp (- r)) by (apply exp_mono; lra). lra.
      + assert (HK : 1 - exp (- r) <= (1 - exp (- V x)) * exp (n * w)).
        { apply K; try lra. apply Rmult_le_reg_r with (exp (- (n * w))); [apply exp_pos|].
          rewrite Rmult_assoc, <- exp_plus, Rplus_opp_r, exp_0. lra. }
        split.
        * apply Rmult_le_reg_r with (exp (n * w)); [apply exp_pos|]. rewrite Rmult_assoc, I. lra.
        * assert (exp (- r) <= exp (- V x)) by (apply exp_mono; lra).
          apply Rle_trans with (1 - exp (- r)); [lra|].
          rewrite <- (Rmult_1_r (1 - exp (- r))) at 1. apply Rmult_le_compat_l; lra.
    - intros N. apply within_opp. unfold V in *. rewrite <- B2R_Bopp in *.
      replace (- (1 - exp (B2R (Bopp x)))) with (exp (B2R (Bopp x)) - 1) by ring.
      apply (proj1 (proj2 HL)); [rewrite is_finite_Bopp; exact Fx|].
      replace (exp (B2R (Bopp x)) - 1) with (- (1 - exp (B2R (Bopp x)))) by ring.
      unfold normal. rewrite Rabs_Ropp. exact N.
  Qed.

  Lemma near_pow n a b x r y p a' b' : near n a b x r -> fin y -> V y = p ->
    bp a' <= Rpower r p <= bp b' -> (-1021 <= a')%Z -> (b' <= 1021)%Z -> Rabs p * n <= 2 ^ 40 ->
    near (Rabs p * n + 2) a' b' (lm_pow L x y) (Rpower r p).
  Proof.
    intros Hx Fy Vy R Ha Hb Hm. destruct (near_pos _ _ _ _ _ Hx) as [Pr Px].
    destruct Hx as (Fx & Nx & _ & [V1 V2]).
    assert (M : 0 <= Rabs p * n) by (apply Rmult_le_pos; [apply Rabs_pos|lra]).
    apply near_call with (Rpower (V x) p); try assumption; try lra.
    - unfold Rpower. rewrite <- !exp_plus.
      assert (D : Rabs (ln (V x) - ln r) <= n * w).
      { pose proof (exp_pos (n * w)). pose proof (exp_pos (- (n * w))).
        apply Rabs_le. split.
        - assert (H' : ln (r * exp (- (n * w))) <= ln (V x)) by (apply ln_mono; [apply Rmult_lt_0_compat; lra|exact V1]).
          rewrite ln_mult, ln_exp in H' by lra. lra.
        - assert (H' : ln (V x) <= ln (r * exp (n * w))) by (apply ln_mono; lra).
          rewrite ln_mult, ln_exp in H' by lra. lra. }
      assert (E : Rabs (p * ln (V x) - p * ln r) <= Rabs p * n * w).
      { rewrite <- Rmult_minus_distr_l, Rabs_mult, Rmult_assoc. apply Rmult_le_compat_l; [apply Rabs_pos|exact D]. }
      apply Rabs_le_inv in E. split; apply exp_mono; lra.
    - intros N. rewrite <- Vy in *. apply (proj2 (proj2 HL)); assumption.
  Qed.

  Lemma near_pow_nat n a b x r y k : near n a b x r -> fin y -> V y = INR k ->
    (-1021 <= Z.of_nat k * a)%Z -> (Z.of_nat k * b <= 1021)%Z -> INR k * n <= 2 ^ 40 ->
    near (INR k * n + 2) (Z.of_nat k * a) (Z.of_nat k * b) (lm_pow L x y) (r ^ k).
  Proof.
    intros Hx Fy Vy Ha Hb Hm. destruct (near_pos _ _ _ _ _ Hx) as [Pr Px].
    assert (P : Rabs (INR k) = INR k) by (apply Rabs_pos_eq, pos_INR).
    assert (B : forall e, bp (Z.of_nat k * e) = bp e ^ k).
    { intros e. induction k as [|k IH]; [reflexivity|].
      rewrite Nat2Z.inj_succ, Z.mul_succ_l, bpow_plus. simpl pow.
      assert (IH' : bp (Z.of_nat k * e) = bp e ^ k).
      { clear. induction k as [|k IH]; [reflexivity|]. rewrite Nat2Z.inj_succ, Z.mul_succ_l, bpow_plus, IH.
        simpl pow. ring. }
      rewrite IH'. ring. }
    rewrite <- (Rpower_pow k r Pr). rewrite <- P at 1.
    apply near_pow with (1 := Hx); try assumption; [|rewrite P; exact Hm].
    rewrite (Rpower_pow k r Pr), !B. destruct Hx as (_ & _ & [X1 X2] & _).
    pose proof (bpow_gt_0 radix2 a). split; apply pow_incr; lra.
  Qed.
End Library.
