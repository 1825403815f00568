(** Relative error with underflow: a nonnegative double that is [n] roundings off a real
    number, plus an absolute error [e]; and sums of many of them. *)
From Coquelicot Require Import Coquelicot.
From Coq Require Import Reals ZArith Lra Lia Bool.
From Flocq Require Import Core IEEE754.BinarySingleNaN Relative.
From Verif Require Import Base.Outcome Base.Ops Inst.B64 Spec.Means Proofs.B64Facts Proofs.Near.
Open Scope R_scope.

Definition app (n e : R) (b : Z) (x : b64) (r : R) : Prop :=
  fin x /\ 0 <= n /\ 0 <= e /\ 0 <= r <= bp b /\ 0 <= V x /\
  r * exp (- (n * w)) - e <= V x <= r * exp (n * w) + e.

(** half of the smallest positive double *)
Definition eta : R := bp (-1075).
Lemma eta_pos : 0 < eta. Proof. apply bpow_gt_0. Qed.

Lemma rnd_under z : 0 <= z -> z * (1 - u) - eta <= rnd z <= z * (1 + u) + eta.
Proof.
  intros Hz. destruct (error_N_FLT radix2 (-1074) 53 eq_refl (fun z => negb (Z.even z)) z) as (e & t & He & Ht & _ & E).
  fold (rnd z) in E. rewrite E.
  assert (Hu : / 2 * bp (- (53) + 1) = u) by (rewrite u_bpow; change (/ 2) with (bp (-1)); rewrite <- bpow_plus; reflexivity).
  rewrite Hu in He. assert (Hn : / 2 * bp (-1074) = eta) by (unfold eta; change (/ 2) with (bp (-1)); rewrite <- bpow_plus; reflexivity).
  rewrite Hn in Ht. apply Rabs_le_inv in He, Ht.
  assert (z * - u <= z * e <= z * u) by (split; apply Rmult_le_compat_l; lra). lra.
Qed.

Lemma app_round m e b x z r : 0 <= m <= 1000000000000 -> 0 <= e -> 0 <= r <= bp b -> 0 <= z ->
  r * exp (- (m * w)) - e <= z <= r * exp (m * w) + e ->
  fin x -> V x = rnd z -> app (m + 1) (e * (1 + u) + eta) b x r.
Proof.
  intros Hm He Hr Hz [H1 H2] Fx Vx. destruct (rnd_under z Hz) as [R1 R2]. pose proof eta_pos. pose proof u_pos. pose proof u_small.
  pose proof (exp_up 1 ltac:(lra)) as U. pose proof (exp_down 1 ltac:(lra)) as D.
  pose proof (exp_pos (- (m * w))) as P1. pose proof (exp_pos (m * w)) as P2.
  assert (E1 : 0 <= r * exp (- (m * w))) by (apply Rmult_le_pos; lra). assert (E2 : 0 <= r * exp (m * w)) by (apply Rmult_le_pos; lra).
  assert (0 <= e * u) by (apply Rmult_le_pos; lra).
  split; [exact Fx|]. split; [lra|]. split; [lra|]. split; [exact Hr|]. rewrite Vx. split; [now apply rnd_pos|]. split.
  - rewrite <- w_scale. apply Rle_trans with (r * exp (- (m * w)) * (1 - u) - (e * (1 + u) + eta)).
    + apply Rplus_le_compat_r, Rmult_le_compat_l; [exact E1|]. lra.
    + assert ((r * exp (- (m * w)) - e) * (1 - u) <= z * (1 - u)) by (apply Rmult_le_compat_r; lra). lra.
  - rewrite <- w_scale'. apply Rle_trans with (r * exp (m * w) * (1 + u) + (e * (1 + u) + eta)).
    + assert (z * (1 + u) <= (r * exp (m * w) + e) * (1 + u)) by (apply Rmult_le_compat_r; lra). lra.
    + apply Rplus_le_compat_r, Rmult_le_compat_l; [exact E2|]. lra.
Qed.

Lemma app_near n a b x r : near n a b x r -> app n 0 b x r.
Proof.
  intros N. destruct (near_pos _ _ _ _ _ N) as [P Q]. destruct N as (F & Hn & [_ R2] & [B1 B2]).
  repeat split; try assumption; lra.
Qed.
Lemma app_exact b x : fin x -> 0 <= V x <= bp b -> app 0 0 b x (V x).
Proof. intros F H. repeat split; try assumption; try lra; rewrite Rmult_0_l, ?Ropp_0, exp_0; lra. Qed.
Lemma app_weaken n e b x r n' e' : app n e b x r -> n <= n' -> e <= e' -> app n' e' b x r.
Proof.
  intros (F & Hn & He & Hr & Hx & [B1 B2]) Hn' He'. pose proof w_pos.
  repeat split; try tauto; try lra.
  - apply Rle_trans with (r * exp (- (n * w)) - e); [|exact B1].
    apply Rplus_le_compat; [|lra]. apply Rmult_le_compat_l; [lra|]. apply exp_mono. apply Ropp_le_contravar, Rmult_le_compat_r; lra.
  - apply Rle_trans with (r * exp (n * w) + e); [exact B2|].
    apply Rplus_le_compat; [|lra]. apply Rmult_le_compat_l; [lra|]. apply exp_mono. apply Rmult_le_compat_r; lra.
Qed.
Lemma two40 m : m <= 1000000000000 -> m <= 2 ^ 40. Proof. intros H. simpl. lra. Qed.

(** back to relative error, where the absolute one is negligible *)
Lemma near_app n e a b x r : app n e b x r -> n <= 1000000000000 -> bp a <= r -> e <= u / 2 * r -> near (n + 1) a b x r.
Proof.
  intros (F & Hn & He & Hr & Hx & [B1 B2]) Hm Ha Hs. destruct (small_exp n (conj Hn (two40 n Hm))) as [S1 S2].
  pose proof (bpow_gt_0 radix2 a). pose proof u_pos. pose proof u_small. pose proof w_pos.
  pose proof (exp_up 1 ltac:(lra)) as U. pose proof (exp_down 1 ltac:(lra)) as D.
  assert (S3 : 1 <= exp (n * w)) by (pose proof (exp_ineq1_le (n * w)); assert (0 <= n * w) by (apply Rmult_le_pos; lra); lra).
  assert (K : u / 2 * r <= u * (r * exp (- (n * w)))).
  { replace (u / 2 * r) with (u * (r * / 2)) by lra. apply Rmult_le_compat_l; [lra|]. apply Rmult_le_compat_l; lra. }
  assert (K' : u / 2 * r <= u * (r * exp (n * w))).
  { apply Rle_trans with (u * (r * 1)); [assert (0 <= u * r) by (apply Rmult_le_pos; lra); lra|].
    apply Rmult_le_compat_l; [lra|]. apply Rmult_le_compat_l; lra. }
  repeat split; try tauto; try lra.
  - rewrite <- w_scale. apply Rle_trans with (r * exp (- (n * w)) * (1 - u)); [|lra].
    apply Rmult_le_compat_l; [apply Rmult_le_pos; [lra|apply Rlt_le, exp_pos]|]. lra.
  - rewrite <- w_scale'. apply Rle_trans with (r * exp (n * w) * (1 + u)); [lra|].
    apply Rmult_le_compat_l; [apply Rmult_le_pos; [lra|apply Rlt_le, exp_pos]|]. lra.
Qed.

(** products by a number without absolute error *)
Lemma app_mul n1 e1 b1 x r n2 b2 y s : app n1 e1 b1 x r -> app n2 0 b2 y s ->
  n1 + n2 <= 1000000000000 -> e1 <= 1 -> (0 <= b1)%Z -> (0 <= b2)%Z -> (b1 + b2 <= 1000)%Z ->
  app (n1 + n2 + 1) (4 * e1 * bp b2 + eta) (b1 + b2) (Bmult mode_NE x y) (r * s).
Proof.
  intros (Fx & Hn1 & He & Hr & Hx & [X1 X2]) (Fy & Hn2 & _ & Hs & Hy & [Y1 Y2]) Hn E1 Hb1 Hb2 Hb.
  pose proof (bpow_gt_0 radix2 b2) as P2. pose proof (bpow_gt_0 radix2 b1) as P1. pose proof u_pos. pose proof u_small.
  destruct (small_exp n1 (conj Hn1 (two40 n1 ltac:(lra)))) as [S1 S1']. destruct (small_exp n2 (conj Hn2 (two40 n2 ltac:(lra)))) as [S2 S2'].
  pose proof (exp_pos (- (n1 * w))). pose proof (exp_pos (- (n2 * w))). pose proof (exp_pos (n1 * w)). pose proof (exp_pos (n2 * w)).
  set (A := exp (n1 * w)) in *. set (B := exp (n2 * w)) in *. set (A' := exp (- (n1 * w))) in *. set (B' := exp (- (n2 * w))) in *.
  assert (EA : exp ((n1 + n2) * w) = A * B) by (unfold A, B; rewrite <- exp_plus; f_equal; ring).
  assert (EB : exp (- ((n1 + n2) * w)) = A' * B') by (unfold A', B'; rewrite <- exp_plus; f_equal; ring).
  assert (SB : 0 <= s * B <= 2 * bp b2).
  { split; [apply Rmult_le_pos; lra|]. rewrite Rmult_comm. apply Rmult_le_compat; lra. }
  assert (RA : 0 <= r * A <= 2 * bp b1).
  { split; [apply Rmult_le_pos; lra|]. rewrite Rmult_comm. apply Rmult_le_compat; lra. }
  assert (Z0 : 0 <= V x * V y) by (apply Rmult_le_pos; assumption).
  assert (B1le : bp 0 <= bp b1) by (apply bpow_le; exact Hb1). assert (B2le : bp 0 <= bp b2) by (apply bpow_le; exact Hb2).
  change (bp 0) with 1 in B1le, B2le.
  assert (Z2 : V x * V y <= r * s * (A * B) + 2 * e1 * bp b2).
  { apply Rle_trans with ((r * A + e1) * (s * B)); [apply Rmult_le_compat; lra|].
    assert (e1 * (s * B) <= e1 * (2 * bp b2)) by (apply Rmult_le_compat_l; lra). lra. }
  assert (Z1 : r * s * (A' * B') - 2 * e1 * bp b2 <= V x * V y).
  { assert (SB' : 0 <= s * B' <= 2 * bp b2).
    { split; [apply Rmult_le_pos; lra|]. assert (B' <= 1) by (unfold B'; rewrite <- exp_0; apply exp_mono; pose proof w_pos;
        assert (0 <= n2 * w) by (apply Rmult_le_pos; lra); lra). rewrite Rmult_comm. apply Rmult_le_compat; lra. }
    assert (e1 * (s * B') <= e1 * (2 * bp b2)) by (apply Rmult_le_compat_l; lra).
    destruct (Rle_or_lt 0 (r * A' - e1)) as [G|G].
    - assert ((r * A' - e1) * (s * B') <= V x * V y) by (apply Rmult_le_compat; lra). lra.
    - assert (r * A' * (s * B') <= e1 * (s * B')) by (apply Rmult_le_compat_r; lra). lra. }
  assert (Rs : 0 <= r * s <= bp (b1 + b2)).
  { split; [apply Rmult_le_pos; lra|]. rewrite bpow_plus. apply Rmult_le_compat; lra. }
  assert (Zb : V x * V y <= bp 1010).
  { apply Rle_trans with ((2 * bp b1 + 1) * (2 * bp b2)); [apply Rmult_le_compat; lra|].
    apply Rle_trans with ((4 * bp b1) * (4 * bp b2)); [apply Rmult_le_compat; lra|].
    replace (4 * bp b1 * (4 * bp b2)) with (16 * bp (b1 + b2)) by (rewrite bpow_plus; ring).
    change 16 with (bp 4). rewrite <- bpow_plus. apply bpow_le. lia. }
  destruct (mul_V x y 1010 Fx Fy ltac:(lia) ltac:(lia)) as [E F]; [rewrite Rabs_pos_eq; lra|].
  rewrite <- EB in Z1. rewrite <- EA in Z2.
  assert (P : 0 <= e1 * bp b2) by (apply Rmult_le_pos; lra). assert (P' : 0 <= e1 * bp b2 * u <= e1 * bp b2 * 1) by (split; [apply Rmult_le_pos|apply Rmult_le_compat_l]; lra).
  pose proof (app_round (n1 + n2) (2 * e1 * bp b2) (b1 + b2) _ _ _ ltac:(lra) ltac:(lra) Rs Z0 (conj Z1 Z2) F E) as Q.
  apply (app_weaken _ _ _ _ _ _ _ Q); lra.
Qed.

Lemma app_add n1 e1 b1 x r n2 e2 b2 y s b : app n1 e1 b1 x r -> app n2 e2 b2 y s ->
  n2 <= n1 -> n1 <= 1000000000000 -> e1 + e2 <= 1 -> r + s <= bp b -> (0 <= b <= 1000)%Z ->
  app (n1 + 1) ((e1 + e2) * (1 + u) + eta) b (Bplus mode_NE x y) (r + s).
Proof.
  intros Hx Hy Hn Hm He Hb B. apply (app_weaken _ _ _ _ _ n1 e2) in Hy; [|lra|lra].
  destruct Hx as (Fx & Hn1 & He1 & Hr & Hx & [X1 X2]). destruct Hy as (Fy & Hn2 & He2 & Hs & Hy & [Y1 Y2]).
  destruct (small_exp n1 (conj Hn1 (two40 n1 ltac:(lra)))) as [S1 S1']. pose proof (bpow_gt_0 radix2 b).
  assert (B1le : bp 0 <= bp b) by (apply bpow_le; lia). change (bp 0) with 1 in B1le.
  assert (Q : (r + s) * exp (n1 * w) <= bp b * 2) by (apply Rmult_le_compat; try lra; apply Rlt_le, exp_pos).
  assert (Zb : V x + V y <= bp 1010).
  { apply Rle_trans with (4 * bp b); [lra|]. change 4 with (bp 2). rewrite <- bpow_plus. apply bpow_le. lia. }
  destruct (add_V x y 1010 Fx Fy ltac:(lia) ltac:(lia)) as [E F]; [rewrite Rabs_pos_eq; lra|].
  apply app_round with (V x + V y); try assumption; try lra.
Qed.

(** sums in the order of the loops *)
Section Sum.
  Context (L : Libm).
  Local Notation O := (B64_ops L).
  Fixpoint fsum (k : nat) (t : nat -> b64) : b64 :=
    match k with Datatypes.O => @OofZ b64 O 0 | S j => @Oadd b64 O (fsum j t) (t j) end.

  Lemma rsum_le k f b : (forall i, (i < k)%nat -> 0 <= f i <= b) -> 0 <= rsum k f <= INR k * b.
  Proof.
    induction k as [|k IH]; intros H; [simpl; lra|]. destruct (IH (fun i Hi => H i (Nat.lt_lt_succ_r _ _ Hi))).
    destruct (H k (Nat.lt_succ_diag_r k)). rewrite S_INR. simpl. lra.
  Qed.

  Lemma fsum_app k t f m e b : 0 <= m -> m + INR k <= 1000000000 -> 0 <= e -> e <= / 1000000000000 -> (0 <= b <= 960)%Z ->
    (forall i, (i < k)%nat -> app m e b (t i) (f i)) ->
    app (m + INR k) (INR k * (e + eta) * exp (INR k * w)) (b + 30) (fsum k t) (rsum k f).
  Proof.
    intros Hm Hk He He1 Hb. pose proof eta_pos as EP. pose proof u_pos as UP.
    assert (ES : eta <= / 1000000000000).
    { unfold eta. apply Rle_trans with (bp (-40)); [apply bpow_le; lia|]. change (bp (-40)) with (/ IZR (2 ^ 40)). apply Rinv_le_contravar; [lra|]. simpl. lra. }
    induction k as [|k IH]; intros H.
    - simpl (INR 0). rewrite Rplus_0_r, !Rmult_0_l. cbn [fsum rsum].
      apply app_weaken with 0 0; [|lra|lra]. apply (app_exact (b + 30) (@OofZ b64 O 0)); [reflexivity|].
      change (V (@OofZ b64 O 0)) with 0. split; [lra|apply bpow_ge_0].
    - rewrite S_INR in Hk |- *. pose proof (pos_INR k) as Pk.
      assert (HK : forall i, (i < k)%nat -> app m e b (t i) (f i)) by (intros; apply H; lia).
      specialize (IH ltac:(lra) HK). pose proof (H k (Nat.lt_succ_diag_r k)) as Hk'.
      destruct (small_exp (INR k) ltac:(split; [lra|apply two40; lra])) as [S1 _].
      assert (S3 : 1 <= exp (INR k * w)) by (pose proof (exp_ineq1_le (INR k * w)); pose proof w_pos; assert (0 <= INR k * w) by (apply Rmult_le_pos; lra); lra).
      assert (T0 : 0 <= INR k * (e + eta)) by (apply Rmult_le_pos; lra).
      assert (T1 : INR k * (e + eta) <= 1000000000 * (2 * / 1000000000000)) by (apply Rmult_le_compat; lra).
      assert (T2 : INR k * (e + eta) * exp (INR k * w) <= INR k * (e + eta) * 2) by (apply Rmult_le_compat_l; lra).
      assert (T3 : 0 <= INR k * (e + eta) * exp (INR k * w)) by (apply Rmult_le_pos; lra).
      assert (SS : 0 <= rsum (S k) f <= INR (S k) * bp b).
      { apply rsum_le. intros i Hi. apply (H i Hi). }
      assert (SB : rsum (S k) f <= bp (b + 30)).
      { apply Rle_trans with (INR (S k) * bp b); [apply SS|]. rewrite Z.add_comm, bpow_plus.
        apply Rmult_le_compat_r; [apply bpow_ge_0|]. rewrite S_INR. change (bp 30) with 1073741824. lra. }
      assert (A : app (m + INR k + 1) ((INR k * (e + eta) * exp (INR k * w) + e) * (1 + u) + eta) (b + 30)
                    (fsum (S k) t) (rsum (S k) f)).
      { cbn [fsum rsum]. apply (app_add _ _ _ _ _ _ _ _ _ _ _ IH Hk'); try lra; try lia. exact SB. }
      apply (app_weaken _ _ _ _ _ _ _ A); [lra|].
      pose proof (exp_up 1 ltac:(lra)) as U. rewrite Rmult_1_l in U.
      replace ((INR k + 1) * w) with (INR k * w + 1 * w) by ring. rewrite exp_plus.
      set (X := exp (INR k * w)) in *. set (Y := exp (1 * w)) in *.
      assert (Q : (INR k * (e + eta) * X + (e + eta) * X) * (1 + u) <= (INR k * (e + eta) * X + (e + eta) * X) * Y).
      { apply Rmult_le_compat_l; [|lra]. assert (0 <= (e + eta) * X) by (apply Rmult_le_pos; lra). lra. }
      assert (Q2 : e + eta <= (e + eta) * X) by (rewrite <- (Rmult_1_r (e + eta)) at 1; apply Rmult_le_compat_l; lra).
      assert (Q3 : (e + eta) * (1 + u) <= (e + eta) * X * (1 + u)) by (apply Rmult_le_compat_r; lra).
      assert (0 <= eta * u) by (apply Rmult_le_pos; lra). lra.
  Qed.
End Sum.
