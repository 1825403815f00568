(** How a weighted mean changes with its weights. *)
From Coq Require Import Reals ZArith List Lra Lia.
From Flocq Require Import Core IEEE754.BinarySingleNaN.
From Verif Require Import Inst.B64 Spec.Means Spec.DoublePrecision Spec.DoubleMeans Proofs.B64Facts Proofs.Near Proofs.NearRules Proofs.App Proofs.DoubleMeans.
Open Scope R_scope.

Lemma rsum_plus n f g : rsum n (fun i => f i + g i) = rsum n f + rsum n g.
Proof. induction n as [|n IH]; [simpl; lra|]. cbn [rsum]. rewrite IH. ring. Qed.
Lemma rsum_const n c : rsum n (fun _ => c) = INR n * c.
Proof. induction n as [|n IH]; [simpl; ring|]. cbn [rsum]. rewrite IH, S_INR. ring. Qed.
Lemma rsum_nonneg n f : (forall i, (i < n)%nat -> 0 <= f i) -> 0 <= rsum n f.
Proof. intros H. rewrite <- (Rmult_0_r (INR n)), <- rsum_const. now apply rsum_mono. Qed.

(** a sum with perturbed weights *)
Lemma rsum_perturb n (r R kap : nat -> R) c s e kmin kmax : 0 < c -> 0 <= s -> 0 <= e -> 0 < kmin ->
  (forall i, (i < n)%nat -> 0 <= R i /\ kmin <= kap i <= kmax /\ Rabs (r i - c * R i) <= s * (c * R i) + c * e) ->
  INR n * e * kmax <= u / 4 * (kmin * rsum n R) ->
  Rabs (rsum n (fun i => kap i * r i) - c * rsum n (fun i => kap i * R i)) <= (s + u / 4) * (c * rsum n (fun i => kap i * R i)).
Proof.
  intros Hc Hs He Hk H T. set (S := rsum n (fun i => kap i * R i)).
  assert (LS : kmin * rsum n R <= S). { apply (rsum_between n R kap kmin kmax). intros i Hi. destruct (H i Hi) as (A & B & _). split; [exact A|exact B]. }
  assert (UB : INR n * (c * (e * kmax)) <= u / 4 * (c * S)).
  { replace (INR n * (c * (e * kmax))) with (c * (INR n * e * kmax)) by ring. replace (u / 4 * (c * S)) with (c * (u / 4 * S)) by field.
    apply Rmult_le_compat_l; [lra|]. apply Rle_trans with (1 := T). apply Rmult_le_compat_l; [pose proof u_pos; lra|exact LS]. }
  apply Rabs_le. split.
  - assert (Q : c * (1 - s) * S - INR n * (c * (e * kmax)) <= rsum n (fun i => kap i * r i)).
    { unfold S. rewrite <- rsum_scal. unfold Rminus at 1. rewrite Ropp_mult_distr_r, <- rsum_const, <- rsum_plus. apply rsum_mono. intros i Hi.
      destruct (H i Hi) as (A & [B1 B2] & D). apply Rabs_le_inv in D.
      assert (M : kap i * (c * R i - s * (c * R i) - c * e) <= kap i * r i) by (apply Rmult_le_compat_l; lra).
      assert (M2 : c * e * kap i <= c * e * kmax) by (apply Rmult_le_compat_l; [apply Rmult_le_pos; lra|lra]). lra. }
    fold S in Q. lra.
  - assert (Q : rsum n (fun i => kap i * r i) <= c * (1 + s) * S + INR n * (c * (e * kmax))).
    { unfold S. rewrite <- rsum_scal, <- rsum_const, <- rsum_plus. apply rsum_mono. intros i Hi.
      destruct (H i Hi) as (A & [B1 B2] & D). apply Rabs_le_inv in D.
      assert (M : kap i * r i <= kap i * (c * R i + s * (c * R i) + c * e)) by (apply Rmult_le_compat_l; lra).
      assert (M2 : c * e * kap i <= c * e * kmax) by (apply Rmult_le_compat_l; [apply Rmult_le_pos; lra|lra]). lra. }
    fold S in Q. lra.
Qed.
Lemma quotient_perturb a a' b b' s : 0 < a -> 0 < b -> 0 <= s <= / 1000 -> Rabs (a' - a) <= s * a -> Rabs (b' - b) <= s * b ->
  0 < a' / b' /\ Rabs (a' / b' - a / b) <= 201 / 100 * s * (a / b).
Proof.
  intros Ha Hb Hs A B. apply Rabs_le_inv in A, B.
  assert (SA : s * a <= / 1000 * a) by (apply Rmult_le_compat_r; lra). assert (SB : s * b <= / 1000 * b) by (apply Rmult_le_compat_r; lra).
  assert (Pa : 0 < a') by lra. assert (Pb : 0 < b') by lra. split; [now apply Rdiv_lt_0_compat|].
  replace (a' / b' - a / b) with ((a' * b - a * b') / (b' * b)) by (field; lra).
  unfold Rdiv at 1. rewrite Rabs_mult, (Rabs_pos_eq (/ _)) by (left; apply Rinv_0_lt_compat, Rmult_lt_0_compat; assumption).
  apply Rmult_le_reg_r with (b' * b); [now apply Rmult_lt_0_compat|]. rewrite Rmult_assoc, Rinv_l, Rmult_1_r by (apply Rgt_not_eq, Rmult_lt_0_compat; assumption).
  replace (201 / 100 * s * (a / b) * (b' * b)) with (201 / 100 * s * a * b') by (field; lra).
  assert (D : Rabs (a' * b - a * b') <= 2 * s * (a * b)).
  { replace (a' * b - a * b') with ((a' - a) * b - a * (b' - b)) by ring. apply Rabs_le.
    assert (Rabs (a' - a) * b <= s * a * b) by (apply Rmult_le_compat_r; [lra|apply Rabs_le; lra]).
    assert (a * Rabs (b' - b) <= a * (s * b)) by (apply Rmult_le_compat_l; [lra|apply Rabs_le; lra]).
    assert (- (s * a * b) <= (a' - a) * b <= s * a * b).
    { split; [replace (- (s * a * b)) with (- (s * a) * b) by ring|]; apply Rmult_le_compat_r; lra. }
    assert (- (a * (s * b)) <= a * (b' - b) <= a * (s * b)).
    { split; [replace (- (a * (s * b))) with (a * - (s * b)) by ring|]; apply Rmult_le_compat_l; lra. }
    lra. }
  apply Rle_trans with (1 := D). replace (2 * s * (a * b)) with (s * a * (2 * b)) by ring. replace (201 / 100 * s * a * b') with (s * a * (201 / 100 * b')) by ring.
  apply Rmult_le_compat_l; [apply Rmult_le_pos; lra|lra].
Qed.
(** the two means *)
Lemma means_perturb n (r R kap : nat -> R) c s e kmin kmax : 0 < c -> 0 <= s <= / 2000 -> 0 <= e -> 0 < kmin <= kmax -> 0 < rsum n R ->
  (forall i, (i < n)%nat -> 0 <= R i /\ kmin <= kap i <= kmax /\ Rabs (r i - c * R i) <= s * (c * R i) + c * e) ->
  INR n * e * kmax <= u / 4 * (kmin * rsum n R) ->
  let q := 201 / 100 * (s + u / 4) in
  Rabs (arithmetic_mean n r kap - arithmetic_mean n R kap) <= q * arithmetic_mean n R kap /\
  Rabs (harmonic_mean n r kap - harmonic_mean n R kap) <= q * harmonic_mean n R kap /\
  0 < arithmetic_mean n R kap /\ 0 < harmonic_mean n R kap.
Proof.
  intros Hc Hs He Hk HR H T q. pose proof u_small as US. pose proof u_pos as U0. pose proof (pos_INR n) as N0.
  assert (E1 : forall f, rsum n (fun i => 1 * f i) = rsum n f) by (intros f; rewrite rsum_scal; ring).
  assert (T1 : INR n * e * 1 <= u / 4 * (1 * rsum n R)).
  { apply Rmult_le_reg_r with kmax; [lra|]. rewrite Rmult_1_r. apply Rle_trans with (1 := T).
    replace (u / 4 * (1 * rsum n R) * kmax) with (u / 4 * (kmax * rsum n R)) by ring. apply Rmult_le_compat_l; [lra|]. apply Rmult_le_compat_r; lra. }
  assert (T2 : INR n * e * / kmin <= u / 4 * (/ kmax * rsum n R)).
  { apply Rmult_le_reg_r with (kmin * kmax); [apply Rmult_lt_0_compat; lra|].
    replace (INR n * e * / kmin * (kmin * kmax)) with (INR n * e * kmax) by (field; lra).
    replace (u / 4 * (/ kmax * rsum n R) * (kmin * kmax)) with (u / 4 * (kmin * rsum n R)) by (field; lra). exact T. }
  pose proof (rsum_perturb n r R kap c s e kmin kmax Hc ltac:(lra) He ltac:(lra) H T) as PA.
  assert (P1 := rsum_perturb n r R (fun _ => 1) c s e 1 1 Hc ltac:(lra) He ltac:(lra)
    (fun i Hi => conj (proj1 (H i Hi)) (conj (conj (Rle_refl 1) (Rle_refl 1)) (proj2 (proj2 (H i Hi))))) T1).
  cbv beta in P1. rewrite !E1 in P1.
  assert (P2 := rsum_perturb n r R (fun i => / kap i) c s e (/ kmax) (/ kmin) Hc ltac:(lra) He ltac:(apply Rinv_0_lt_compat; lra)).
  assert (P3 : Rabs (rsum n (fun i => / kap i * r i) - c * rsum n (fun i => / kap i * R i)) <= (s + u / 4) * (c * rsum n (fun i => / kap i * R i))).
  { apply P2; [|exact T2]. intros i Hi. destruct (H i Hi) as (A & [B1 B2] & D). split; [exact A|]. split; [|exact D]. split; apply Rinv_le_contravar; lra. }
  clear P2. cbv beta in P3.
  assert (B1 : kmin * rsum n R <= rsum n (fun i => kap i * R i)) by (apply (rsum_between n R kap kmin kmax); intros i Hi; destruct (H i Hi) as (A & B & _); split; [exact A|exact B]).
  assert (B2 : / kmax * rsum n R <= rsum n (fun i => / kap i * R i)).
  { apply (rsum_between n R (fun i => / kap i) (/ kmax) (/ kmin)). intros i Hi. destruct (H i Hi) as (A & B & _). split; [exact A|]. split; apply Rinv_le_contravar; lra. }
  assert (S1 : 0 < rsum n (fun i => kap i * R i)) by (apply Rlt_le_trans with (2 := B1); apply Rmult_lt_0_compat; lra).
  assert (S2 : 0 < rsum n (fun i => / kap i * R i)) by (apply Rlt_le_trans with (2 := B2); apply Rmult_lt_0_compat; [apply Rinv_0_lt_compat; lra|lra]).
  assert (EH : forall f, harmonic_mean n f kap = rsum n f / rsum n (fun i => / kap i * f i)).
  { intros f. unfold harmonic_mean. f_equal. apply rsum_ext. intros i _. unfold Rdiv. ring. }
  rewrite !EH. unfold arithmetic_mean.
  assert (CR : 0 < c * rsum n R) by (apply Rmult_lt_0_compat; lra).
  assert (C1 : 0 < c * rsum n (fun i => kap i * R i)) by (apply Rmult_lt_0_compat; lra).
  assert (C2 : 0 < c * rsum n (fun i => / kap i * R i)) by (apply Rmult_lt_0_compat; lra).
  destruct (quotient_perturb _ _ _ _ (s + u / 4) C1 CR ltac:(lra) PA P1) as [_ Q1].
  destruct (quotient_perturb _ _ _ _ (s + u / 4) CR C2 ltac:(lra) P1 P3) as [_ Q2].
  replace (c * rsum n (fun i => kap i * R i) / (c * rsum n R)) with (rsum n (fun i => kap i * R i) / rsum n R) in Q1 by (field; lra).
  replace (c * rsum n R / (c * rsum n (fun i => / kap i * R i))) with (rsum n R / rsum n (fun i => / kap i * R i)) in Q2 by (field; lra).
  split; [exact Q1|]. split; [exact Q2|]. split; apply Rdiv_lt_0_compat; assumption.
Qed.
