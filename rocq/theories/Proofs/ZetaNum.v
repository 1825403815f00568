(** Numerical enclosures of zeta(3) and zeta(5): rational partial sums plus
    telescoping bounds for the tail. *)
From Coq Require Import Reals ZArith QArith Qpower Qreals Lra Lia.
From Coquelicot Require Import Coquelicot.
From Verif Require Import Proofs.Zeta.
Open Scope R_scope.

Section Tele.
  Context (a f g : nat -> R) (N : nat).
  Hypotheses (Ha : forall n, 0 <= a n) (Hg : forall n, (N <= n)%nat -> 0 <= g n)
    (Hf0 : is_lim_seq f 0)
    (Hlo : forall n, (N <= n)%nat -> f n - f (S n) <= a n)
    (Hhi : forall n, (N <= n)%nat -> a n <= g n - g (S n)).

  Lemma tele_step k :
    csum a N + f N - f (N + k)%nat <= csum a (N + k) <= csum a N + g N - g (N + k)%nat.
  Proof.
    induction k as [|k IH].
    - rewrite Nat.add_0_r. lra.
    - rewrite Nat.add_succ_r. cbn [csum].
      specialize (Hlo (N + k)%nat ltac:(lia)). specialize (Hhi (N + k)%nat ltac:(lia)). lra.
  Qed.

  Lemma csum_sum_n n : sum_n a n = csum a (S n).
  Proof.
    induction n as [|n IH]; [rewrite sum_O; cbn; ring|].
    rewrite sum_Sn, IH. reflexivity.
  Qed.

  Lemma tele_bounds : exists z, is_series a z /\ csum a N + f N <= z <= csum a N + g N.
  Proof.
    assert (Hinc : forall n, csum a n <= csum a (S n)).
    { intros n; cbn [csum]. specialize (Ha n). lra. }
    assert (Hmono : forall n k, csum a n <= csum a (n + k)).
    { intros n k; induction k; [rewrite Nat.add_0_r; lra|].
      rewrite Nat.add_succ_r. eapply Rle_trans; [apply IHk|apply Hinc]. }
    destruct (ex_finite_lim_seq_incr (csum a) (csum a N + g N)) as [z Hz]; auto.
    { intros n. eapply Rle_trans; [apply (Hmono n N)|].
      rewrite Nat.add_comm. pose proof (tele_step n). pose proof (Hg (N + n)%nat ltac:(lia)). lra. }
    exists z. split; [|split].
    - change (is_lim_seq (sum_n a) z). apply is_lim_seq_ext with (fun n => csum a (S n)).
      + intros; symmetry; apply csum_sum_n.
      + apply (is_lim_seq_incr_1 (csum a)) in Hz. exact Hz.
    - apply (is_lim_seq_incr_n _ N) in Hz.
      apply (is_lim_seq_incr_n _ N) in Hf0.
      assert (H1 : is_lim_seq (fun k => (csum a N + f N) - f (k + N)%nat) (csum a N + f N - 0)).
      { apply (is_lim_seq_minus' (fun _ => csum a N + f N)); [apply is_lim_seq_const|exact Hf0]. }
      rewrite Rminus_0_r in H1.
      refine (is_lim_seq_le _ _ (Finite _) (Finite _) _ H1 Hz).
      intros k. cbn beta. rewrite (Nat.add_comm k N). apply tele_step.
    - apply (is_lim_seq_incr_n _ N) in Hz.
      refine (is_lim_seq_le _ _ (Finite _) (Finite _) _ Hz (is_lim_seq_const (csum a N + g N))).
      intros k. cbn beta. rewrite (Nat.add_comm k N). pose proof (tele_step k). pose proof (Hg (N + k)%nat ltac:(lia)). lra.
  Qed.
End Tele.

(** partial sums in Q *)
Fixpoint qsum (s : positive) (N : nat) : Q :=
  match N with
  | O => 0%Q
  | S N' => Qred (qsum s N' + Qinv (inject_Z (Z.of_nat (S N')) ^ Z.pos s))%Q
  end.

Lemma Q2R_Zpow (q : Q) (p : positive) : Q2R (q ^ Z.pos p) = Q2R q ^ Pos.to_nat p.
Proof.
  change (q ^ Z.pos p)%Q with (Qpower_positive q p).
  induction p using Pos.peano_ind.
  - change (Pos.to_nat 1) with 1%nat. rewrite pow_1. reflexivity.
  - rewrite Pos2Nat.inj_succ. cbn [pow]. rewrite <- IHp, <- Q2R_mult.
    apply Qeq_eqR. rewrite <- Pos.add_1_l, Qpower_plus_positive. reflexivity.
Qed.

Lemma qsum_csum s N :
  Q2R (qsum s N) = csum (fun n => / INR (S n) ^ Pos.to_nat s) N.
Proof.
  induction N as [|N IH].
  - cbn. unfold Q2R; cbn. field.
  - cbn [qsum csum]. rewrite (Qeq_eqR _ _ (Qred_correct _)), Q2R_plus, IH.
    f_equal. 
    assert (Hz : Q2R (inject_Z (Z.of_nat (S N))) = INR (S N)).
    { unfold Q2R, inject_Z. cbn [Qnum Qden]. rewrite <- INR_IZR_INZ. field. }
    rewrite Q2R_inv.
    + rewrite Q2R_Zpow, Hz. reflexivity.
    + intros H. apply Qeq_eqR in H. rewrite Q2R_Zpow, Hz in H.
      rewrite RMicromega.Q2R_0 in H. revert H. apply pow_nonzero, not_0_INR. lia.
Qed.

Lemma qsum_enclose s N lo hi :
  andb (Qle_bool lo (qsum s N)) (Qle_bool (qsum s N) hi) = true ->
  Q2R lo <= csum (fun n => / INR (S n) ^ Pos.to_nat s) N <= Q2R hi.
Proof.
  intros H. apply andb_prop in H as [H1 H2].
  rewrite <- qsum_csum. split; apply Qle_Rle, Qle_bool_iff; assumption.
Qed.

Lemma lim_inv_S : is_lim_seq (fun n => / INR (S n)) 0.
Proof.
  apply (is_lim_seq_incr_1 (fun n => / INR n) 0).
  replace (Finite 0) with (Rbar_inv p_infty) by reflexivity.
  apply is_lim_seq_inv; [apply is_lim_seq_INR|discriminate].
Qed.

Lemma lim_squeeze f : (forall n, (1 <= n)%nat -> 0 <= f n <= / INR (S n)) -> is_lim_seq f 0.
Proof.
  intros H. apply is_lim_seq_le_le_loc with (fun _ => 0) (fun n => / INR (S n)).
  - exists 1%nat. exact H.
  - apply is_lim_seq_const.
  - apply lim_inv_S.
Qed.

Lemma inv_le_cross a b c d : 0 < b -> 0 < d -> a * d <= c * b -> a / b <= c / d.
Proof.
  intros Hb Hd H. apply Rmult_le_reg_r with (b * d); [nra|].
  replace (a / b * (b * d)) with (a * d) by (field; lra).
  replace (c / d * (b * d)) with (c * b) by (field; lra). exact H.
Qed.

(** ** zeta(3) *)
Definition t3 (c x : R) : R := / (2 * (x * x - x + c)).

Lemma t3_diff c x : / 4 < c -> 1 <= x ->
  t3 c x - t3 c (x + 1) = x / (x ^ 4 + (2 * c - 1) * x ^ 2 + c ^ 2).
Proof.
  intros Hc Hx. unfold t3.
  assert (0 < x * x - x + c) by nra. assert (0 < x * x + x + c) by nra.
  replace (x ^ 4 + (2 * c - 1) * x ^ 2 + c ^ 2) with ((x * x - x + c) * (x * x + x + c)) by ring.
  replace ((x + 1) * (x + 1) - (x + 1) + c) with (x * x + x + c) by ring.
  field. split; lra.
Qed.

Lemma S_ge1 n : 1 <= INR (S n).
Proof. rewrite S_INR. pose proof (pos_INR n). lra. Qed.

Lemma t3_range n : 0 <= t3 (1 / 2) (INR (S n)) <= / INR (S n).
Proof.
  pose proof (S_ge1 n) as H. set (x := INR (S n)) in *. unfold t3.
  assert (0 < 2 * (x * x - x + 1 / 2)) by nra. split.
  - apply Rlt_le, Rinv_0_lt_compat; assumption.
  - apply Rinv_le_contravar; [lra|]. nra.
Qed.

Theorem zeta3_bounds : exists z, is_series (fun n => / INR (S n) ^ 3) z /\
  12020569031595935 / 10 ^ 16 <= z <= 12020569031595955 / 10 ^ 16.
Proof.
  set (d := 1 / 320000).
  destruct (tele_bounds (fun n => / INR (S n) ^ 3) (fun n => t3 (1 / 2) (INR (S n)))
              (fun n => t3 (1 / 2 - d) (INR (S n))) 200) as [z [Hz [H1 H2]]].
  - intros n. apply Rlt_le, Rinv_0_lt_compat, pow_lt. pose proof (S_ge1 n). lra.
  - intros n _. pose proof (S_ge1 n). unfold t3, d. apply Rlt_le, Rinv_0_lt_compat. nra.
  - apply lim_squeeze. intros n _. apply t3_range.
  - intros n Hn. pose proof (S_ge1 n) as Hx. rewrite (S_INR (S n)). set (x := INR (S n)) in *.
    rewrite t3_diff by lra. replace (/ x ^ 3) with (1 / x ^ 3) by (field; lra).
    assert (0 < x ^ 3) by (apply pow_lt; lra). assert (0 < x ^ 4) by (apply pow_lt; lra).
    apply inv_le_cross; [nra|lra|]. replace (x * x ^ 3) with (x ^ 4) by ring. nra.
  - intros n Hn. pose proof (S_ge1 n) as Hx. rewrite (S_INR (S n)).
    assert (Hx2 : 200 <= INR (S n)).
    { replace 200 with (INR 200) by (rewrite INR_IZR_INZ; reflexivity). apply le_INR. lia. }
    set (x := INR (S n)) in *.
    rewrite t3_diff by (unfold d; lra). replace (/ x ^ 3) with (1 / x ^ 3) by (field; lra).
    assert (0 < x ^ 3) by (apply pow_lt; lra). assert (0 < x ^ 4) by (apply pow_lt; lra).
    assert (Hx2' : 40000 <= x ^ 2) by nra.
    assert (x ^ 4 = x ^ 2 * x ^ 2) by ring.
    unfold d. apply inv_le_cross; [lra|nra|]. replace (x * x ^ 3) with (x ^ 4) by ring. lra.
  - exists z. split; [exact Hz|].
    pose proof (qsum_enclose 3 200 (120204446550334558745 # 100000000000000000000)
      (120204446550334558746 # 100000000000000000000) ltac:(vm_compute; reflexivity)) as Hq.
    change (Pos.to_nat 3) with 3%nat in Hq.
    assert (E : INR (S 200) = 201) by (rewrite INR_IZR_INZ; reflexivity).
    rewrite E in *. unfold t3, d in *. unfold Q2R in Hq. cbn [Qnum Qden] in Hq. 
    lra.
Qed.

(** ** zeta(5) *)
Definition t5 (d x : R) : R := / (4 * ((x * x - x + 2 / 3) ^ 2 + d)).

Lemma t5_den d x : - (1 / 2) <= d -> 2 <= x -> 0 < (x * x - x + 2 / 3) ^ 2 + d.
Proof.
  intros Hd Hx. assert (2 <= x * x - x + 2 / 3) by nra. nra.
Qed.

Lemma t5_diff d x : - (1 / 2) <= d -> 2 <= x ->
  t5 d x - t5 d (x + 1) = (x ^ 3 + 2 / 3 * x) /
    (x ^ 8 + 2 / 3 * x ^ 6 + (1 + 2 * d) * x ^ 4 + (8 / 27 + 14 * d / 3) * x ^ 2 +
     (16 / 81 + 8 * d / 9 + d * d)).
Proof.
  intros Hd Hx. unfold t5.
  pose proof (t5_den d x Hd Hx) as H1. pose proof (t5_den d (x + 1) Hd ltac:(lra)) as H2.
  set (A := (x * x - x + 2 / 3) ^ 2 + d) in *.
  set (B := ((x + 1) * (x + 1) - (x + 1) + 2 / 3) ^ 2 + d) in *.
  replace (x ^ 8 + 2 / 3 * x ^ 6 + (1 + 2 * d) * x ^ 4 + (8 / 27 + 14 * d / 3) * x ^ 2 +
     (16 / 81 + 8 * d / 9 + d * d)) with (A * B) by (unfold A, B; field).
  replace (x ^ 3 + 2 / 3 * x) with ((B - A) / 4) by (unfold A, B; field).
  field. split; lra.
Qed.

Lemma t5_range d n : - (1 / 2) <= d -> (1 <= n)%nat -> 0 <= t5 d (INR (S n)) <= / INR (S n).
Proof.
  intros Hd Hn.
  assert (Hx : 2 <= INR (S n)).
  { replace 2 with (INR 2) by reflexivity. apply le_INR. lia. }
  set (x := INR (S n)) in *. pose proof (t5_den d x Hd Hx). unfold t5. split.
  - apply Rlt_le, Rinv_0_lt_compat. lra.
  - apply Rinv_le_contravar; [lra|].
    assert (x <= x * x - x + 2 / 3) by nra. nra.
Qed.

Theorem zeta5_bounds : exists z, is_series (fun n => / INR (S n) ^ 5) z /\
  1036927755143369920 / 10 ^ 18 <= z <= 1036927755143369944 / 10 ^ 18.
Proof.
  set (d := - (1 / 2) + 1 / 1500).
  destruct (tele_bounds (fun n => / INR (S n) ^ 5) (fun n => t5 d (INR (S n)))
              (fun n => t5 (- (1 / 2)) (INR (S n))) 40) as [z [Hz [H1 H2]]].
  - intros n. apply Rlt_le, Rinv_0_lt_compat, pow_lt. pose proof (S_ge1 n). lra.
  - intros n Hn. apply t5_range; [lra|lia].
  - apply lim_squeeze. intros n Hn. apply t5_range; [unfold d; lra|lia].
  - intros n Hn. rewrite (S_INR (S n)).
    assert (Hx : 40 <= INR (S n)).
    { replace 40 with (INR 40) by (rewrite INR_IZR_INZ; reflexivity). apply le_INR. lia. }
    set (x := INR (S n)) in *.
    rewrite t5_diff by (unfold d; lra). replace (/ x ^ 5) with (1 / x ^ 5) by (field; lra).
    set (y := x ^ 2). assert (Hy : 1600 <= y) by (unfold y; nra).
    assert (Hk : 0 < x ^ 5) by (apply pow_lt; lra).
    replace (x ^ 8) with (y * y * y * y) by (unfold y; ring).
    replace (x ^ 6) with (y * y * y) by (unfold y; ring).
    replace (x ^ 4) with (y * y) by (unfold y; ring).
    assert (1600 * y <= y * y) by nra.
    assert (0 <= y * y * y) by (apply Rmult_le_pos; nra).
    assert (0 <= y * y * y * y) by (apply Rmult_le_pos; nra).
    unfold d. apply inv_le_cross; [lra|exact Hk|].
    replace ((x ^ 3 + 2 / 3 * x) * x ^ 5) with (y * y * y * y + 2 / 3 * (y * y * y))
      by (unfold y; ring). lra.
  - intros n Hn. rewrite (S_INR (S n)).
    assert (Hx : 40 <= INR (S n)).
    { replace 40 with (INR 40) by (rewrite INR_IZR_INZ; reflexivity). apply le_INR. lia. }
    set (x := INR (S n)) in *.
    rewrite t5_diff by lra. replace (/ x ^ 5) with (1 / x ^ 5) by (field; lra).
    set (y := x ^ 2). assert (Hy : 1600 <= y) by (unfold y; nra).
    assert (Hk : 0 < x ^ 5) by (apply pow_lt; lra).
    replace (x ^ 8) with (y * y * y * y) by (unfold y; ring).
    replace (x ^ 6) with (y * y * y) by (unfold y; ring).
    replace (x ^ 4) with (y * y) by (unfold y; ring).
    assert (H2560000 : 1600 * 1600 <= y * y) by nra.
    assert (1600 * (y * y) <= y * y * y) by nra.
    assert (0 <= y * y * y * y) by (apply Rmult_le_pos; nra).
    assert (1600 * y <= y * y) by nra.
    apply inv_le_cross; [exact Hk|lra|].
    replace ((x ^ 3 + 2 / 3 * x) * x ^ 5) with (y * y * y * y + 2 / 3 * (y * y * y))
      by (unfold y; ring). lra.
  - exists z. split; [exact Hz|].
    pose proof (qsum_enclose 5 40 (103692766226825162311 # 100000000000000000000)
      (103692766226825162312 # 100000000000000000000) ltac:(vm_compute; reflexivity)) as Hq.
    change (Pos.to_nat 5) with 5%nat in Hq.
    assert (E : INR (S 40) = 41) by (rewrite INR_IZR_INZ; reflexivity).
    rewrite E in *. unfold t5, d in *. unfold Q2R in Hq. cbn [Qnum Qden] in Hq. 
    replace (/ (4 * ((41 * 41 - 41 + 2 / 3) ^ 2 + (- (1 / 2) + 1 / 1500))))
      with (1125 / 12113039753) in H1 by field.
    replace (/ (4 * ((41 * 41 - 41 + 2 / 3) ^ 2 + - (1 / 2))))
      with (9 / 96904318) in H2 by field.
    lra.
Qed.
