(** zeta(4) = pi^4/90 and zeta(6) = pi^6/945, by Fourier coefficients of
    polynomials and the Dirichlet kernel. *)
From Coq Require Import Reals ZArith Lra Lia.
From Coquelicot Require Import Coquelicot.
From Verif Require Import Inst.ERTac Proofs.BoseIntegral.
Open Scope R_scope.

Fixpoint Dker (N : nat) (x : R) : R :=
  match N with O => 1 / 2 | S N' => Dker N' x + cos (INR (S N') * x) end.
Fixpoint csum (c : nat -> R) (N : nat) : R :=
  match N with O => 0 | S N' => csum c N' + c N' end.

Lemma Dker_closed N x :
  Dker N x * (2 * sin (x / 2)) = sin ((INR N + 1 / 2) * x).
Proof.
  induction N as [|N IH].
  - simpl. replace ((0 + 1 / 2) * x) with (x / 2) by field. field.
  - cbn [Dker]. rewrite Rmult_plus_distr_r, IH. rewrite S_INR.
    replace ((INR N + 1 / 2) * x) with ((INR N + 1) * x - x / 2) by field.
    replace ((INR N + 1 + 1 / 2) * x) with ((INR N + 1) * x + x / 2) by field.
    rewrite sin_minus, sin_plus. ring.
Qed.

Lemma sin_half_lb x : 0 <= x <= PI -> x / 6 <= sin (x / 2).
Proof.
  intros Hx. pose proof PI_4 as H4.
  destruct (pre_sin_bound (x / 2) 0) as [H _]; try lra.
  unfold sin_approx, sin_term in H. simpl in H.
  assert (x * x <= 16) by nra.
  assert (0 <= (x / 2) * (16 - x * x)) by (apply Rmult_le_pos; nra).
  nra.
Qed.

Lemma Dker_cont N x : continuous (Dker N) x.
Proof.
  induction N as [|N IH]; cbn [Dker].
  - apply continuous_const.
  - apply @continuous_plus; [exact IH|].
    apply (ex_derive_continuous (fun x => cos (INR (S N) * x))). auto_derive. trivial.
Qed.

Lemma Dker_bound N x : Rabs (Dker N x) <= INR N + 1.
Proof.
  induction N as [|N IH]; cbn [Dker].
  - rewrite Rabs_pos_eq; simpl; lra.
  - eapply Rle_trans; [apply Rabs_triang|]. rewrite S_INR.
    assert (Rabs (cos ((INR N + 1) * x)) <= 1).
    { apply Rabs_le. pose proof (COS_bound ((INR N + 1) * x)). lra. }
    lra.
Qed.

Section Fourier.
  Context (p p' : R -> R) (K1 K2 c0 : R) (c : nat -> R).
  Hypotheses (Hd : forall x, is_derive p x (p' x)) (Hc : forall x, continuous p' x)
    (HK1 : 0 <= K1) (HK2 : 0 <= K2)
    (B1 : forall x, 0 <= x <= PI -> Rabs (p' x) <= K1 * x)
    (B2 : forall x, 0 <= x <= PI -> Rabs (p x) <= K2 * x ^ 2)
    (I0 : is_RInt p 0 PI c0)
    (In : forall n, is_RInt (fun x => p x * cos (INR (S n) * x)) 0 PI (c n)).

  Lemma p_cont x : continuous p x.
  Proof. apply (ex_derive_continuous p). eexists; apply Hd. Qed.

  Lemma pD_int N : is_RInt (fun x => p x * Dker N x) 0 PI (c0 / 2 + csum c N).
  Proof.
    induction N as [|N IH]; cbn [Dker csum].
    - apply is_RInt_ext with (fun x => scal (/ 2) (p x)).
      { intros; unfold scal; simpl; unfold mult; simpl; Req; field. }
      replace (c0 / 2 + 0) with (scal (/ 2) c0)
        by (unfold scal; simpl; unfold mult; simpl; field).
      apply (is_RInt_scal (V := R_NormedModule)). exact I0.
    - apply is_RInt_ext with (fun x => plus (p x * Dker N x) (p x * cos (INR (S N) * x))).
      { intros; unfold plus; simpl plus; Req; cbn; ring. }
      replace (c0 / 2 + (csum c N + c N)) with (plus (c0 / 2 + csum c N) (c N))
        by (unfold plus; cbn; ring).
      apply (is_RInt_plus (V := R_NormedModule)); auto.
  Qed.

  Definition hq (x : R) : R := p x / (2 * sin (x / 2)).
  Definition hq' (x : R) : R :=
    p' x / (2 * sin (x / 2)) - p x * cos (x / 2) / (4 * (sin (x / 2) * sin (x / 2))).

  Lemma hq_derive x : 0 < x <= PI -> is_derive hq x (hq' x).
  Proof.
    intros Hx. assert (Hs : 0 < sin (x / 2)) by (pose proof (sin_half_lb x); lra).
    unfold hq, hq'.
    replace (p' x / (2 * sin (x / 2)) - p x * cos (x / 2) / (4 * (sin (x / 2) * sin (x / 2))))
      with ((p' x * (2 * sin (x / 2)) - p x * (cos (x / 2))) / (2 * sin (x / 2)) ^ 2)
      by (field; lra).
    apply (is_derive_div p (fun x => 2 * sin (x / 2)) x (p' x) (cos (x / 2))); [apply Hd| |lra].
    auto_derive; [trivial|]. unfold Rdiv. field.
  Qed.

  Lemma hq'_cont x : 0 < x <= PI -> continuous hq' x.
  Proof.
    intros Hx. assert (Hs : 0 < sin (x / 2)) by (pose proof (sin_half_lb x); lra).
    unfold hq'. apply (continuous_minus (V := R_NormedModule)).
    - apply (continuous_mult p' (fun x => / (2 * sin (x / 2)))); [apply Hc|].
      apply (ex_derive_continuous (fun x => / (2 * sin (x / 2)))). auto_derive.
      unfold Rdiv in Hs. lra.
    - apply continuous_ext with (fun x => p x * (cos (x / 2) / (4 * (sin (x / 2) * sin (x / 2))))).
      { intros. unfold Rdiv. Req. ring. }
      apply (continuous_mult p (fun x => cos (x / 2) / (4 * (sin (x / 2) * sin (x / 2)))));
        [apply p_cont|].
      apply (ex_derive_continuous (fun x => cos (x / 2) / (4 * (sin (x / 2) * sin (x / 2))))).
      auto_derive. unfold Rdiv in Hs. nra.
  Qed.

  Lemma hq_bound x : 0 < x <= PI -> Rabs (hq x) <= 12 * K2.
  Proof.
    intros Hx. pose proof (sin_half_lb x ltac:(lra)) as Hs. pose proof PI_4.
    unfold hq. unfold Rdiv. rewrite Rabs_mult.
    rewrite (Rabs_pos_eq (/ _)) by (apply Rlt_le, Rinv_0_lt_compat; lra).
    apply Rle_trans with (K2 * x ^ 2 * / (x / 3)).
    - apply Rmult_le_compat; [apply Rabs_pos| |apply B2; lra|].
      + apply Rlt_le, Rinv_0_lt_compat; lra.
      + apply Rinv_le_contravar; lra.
    - replace (K2 * x ^ 2 * / (x / 3)) with (K2 * (3 * x)) by (field; lra). nra.
  Qed.

  Lemma hq'_bound x : 0 < x <= PI -> Rabs (hq' x) <= 3 * K1 + 9 * K2.
  Proof.
    intros Hx. pose proof (sin_half_lb x ltac:(lra)) as Hs. pose proof PI_4.
    unfold hq'. eapply Rle_trans; [apply Rabs_triang|].
    rewrite Rabs_Ropp. apply Rplus_le_compat.
    - unfold Rdiv. rewrite Rabs_mult.
      rewrite (Rabs_pos_eq (/ _)) by (apply Rlt_le, Rinv_0_lt_compat; lra).
      apply Rle_trans with (K1 * x * / (x / 3)); [|right; field; lra].
      apply Rmult_le_compat; [apply Rabs_pos| |apply B1; lra|].
      + apply Rlt_le, Rinv_0_lt_compat; lra.
      + apply Rinv_le_contravar; lra.
    - unfold Rdiv. rewrite !Rabs_mult.
      assert (Hss : x / 6 * (x / 6) <= sin (x / 2) * sin (x / 2)) by nra.
      assert (H66 : 0 < x / 6 * (x / 6)) by nra.
      change (x * / 2) with (x / 2).
      rewrite (Rabs_pos_eq (/ _)) by (apply Rlt_le, Rinv_0_lt_compat; lra).
      apply Rle_trans with (K2 * x ^ 2 * 1 * / (x * x / 9)); [|right; field; lra].
      apply Rmult_le_compat.
      + apply Rmult_le_pos; apply Rabs_pos.
      + apply Rlt_le, Rinv_0_lt_compat; lra.
      + apply Rmult_le_compat; try apply Rabs_pos; [apply B2; lra|].
        apply Rabs_le. pose proof (COS_bound (x / 2)). lra.
      + apply Rinv_le_contravar; nra.
  Qed.

  Definition KK : R := 24 * K2 + 4 * (3 * K1 + 9 * K2).

  Lemma KK_nonneg : 0 <= KK.
  Proof. unfold KK. lra. Qed.

  Lemma tail_bound N e : 0 < e < PI ->
    exists y, is_RInt (fun x => p x * Dker N x) e PI y /\ Rabs y <= KK / (INR N + 1 / 2).
  Proof.
    intros He. set (lam := INR N + 1 / 2).
    assert (Hl : 0 < lam) by (unfold lam; pose proof (pos_INR N); lra).
    pose proof PI_4 as H4.
    set (G := fun x => - hq x * cos (lam * x) / lam).
    (* G' = hq sin - hq' cos / lam *)
    assert (HG : is_RInt (fun x => hq x * sin (lam * x) - hq' x * cos (lam * x) / lam) e PI
                         (G PI - G e)).
    { apply (is_RInt_derive G (fun x => hq x * sin (lam * x) - hq' x * cos (lam * x) / lam)).
      - intros x Hx. rewrite Rmin_left, Rmax_right in Hx by lra.
        unfold G. apply is_derive_ext with (fun x => scal (- / lam) (hq x * cos (lam * x))).
        { intros; unfold scal; simpl; unfold mult; simpl; Req; field; lra. }
        replace (hq x * sin (lam * x) - hq' x * cos (lam * x) / lam) with
          (scal (- / lam) (hq' x * cos (lam * x) + hq x * (- (lam * sin (lam * x)))))
          by (unfold scal; simpl; unfold mult; simpl; field; lra).
        apply (is_derive_scal (fun x => hq x * cos (lam * x))).
        apply (is_derive_mult hq (fun x => cos (lam * x))).
        + apply hq_derive; lra.
        + auto_derive; [trivial|]. Req. ring.
        + intros; apply Rmult_comm.
      - intros x Hx. rewrite Rmin_left, Rmax_right in Hx by lra.
        apply (continuous_minus (V := R_NormedModule)).
        + apply (continuous_mult hq (fun x => sin (lam * x))).
          * apply (ex_derive_continuous hq). eexists; apply hq_derive; lra.
          * apply (ex_derive_continuous (fun x => sin (lam * x))). auto_derive. trivial.
        + apply continuous_ext with (fun x => hq' x * (cos (lam * x) / lam)).
          { intros; Req; field; lra. }
          apply (continuous_mult hq' (fun x => cos (lam * x) / lam)).
          * apply hq'_cont; lra.
          * apply (ex_derive_continuous (fun x => cos (lam * x) / lam)). auto_derive. trivial. }
    assert (HH : ex_RInt (fun x => hq' x * cos (lam * x) / lam) e PI).
    { apply (ex_RInt_continuous (V := R_CompleteNormedModule)).
      intros x Hx. rewrite Rmin_left, Rmax_right in Hx by lra.
      apply continuous_ext with (fun x => hq' x * (cos (lam * x) / lam)).
      { intros; Req; field; lra. }
      apply (continuous_mult hq' (fun x => cos (lam * x) / lam)).
      * apply hq'_cont; lra.
      * apply (ex_derive_continuous (fun x => cos (lam * x) / lam)). auto_derive. trivial. }
    destruct HH as [z Hz].
    exists (G PI - G e + z). split.
    - apply is_RInt_ext with (fun x => plus (hq x * sin (lam * x) - hq' x * cos (lam * x) / lam)
                                            (hq' x * cos (lam * x) / lam)).
      { intros x Hx. rewrite Rmin_left, Rmax_right in Hx by lra.
        pose proof (sin_half_lb x ltac:(lra)).
        unfold plus; cbn -[hq hq' Rdiv Rminus]. Req.
        replace (sin (lam * x)) with (Dker N x * (2 * sin (x / 2))) by apply Dker_closed.
        unfold hq. field. lra. }
      apply (is_RInt_plus (V := R_NormedModule)); assumption.
    - assert (Hcos : forall t, Rabs (cos t) <= 1).
      { intros t. apply Rabs_le. pose proof (COS_bound t). lra. }
      assert (HGb : forall x, 0 < x <= PI -> Rabs (G x) <= 12 * K2 / lam).
      { intros x Hx. unfold G, Rdiv. rewrite !Rabs_mult, Rabs_Ropp.
        rewrite (Rabs_pos_eq (/ lam)) by (apply Rlt_le, Rinv_0_lt_compat; lra).
        apply Rmult_le_compat_r; [apply Rlt_le, Rinv_0_lt_compat; lra|].
        rewrite <- (Rmult_1_r (12 * K2)).
        apply Rmult_le_compat; try apply Rabs_pos; auto. apply hq_bound; lra. }
      assert (Hzb : Rabs z <= (PI - e) * ((3 * K1 + 9 * K2) / lam)).
      { apply (norm_RInt_le_const (V := R_NormedModule)
          (fun x => hq' x * cos (lam * x) / lam) e PI z); [lra| |exact Hz].
        intros x Hx. change (Rabs (hq' x * cos (lam * x) / lam) <= (3 * K1 + 9 * K2) / lam).
        unfold Rdiv. rewrite !Rabs_mult.
        rewrite (Rabs_pos_eq (/ lam)) by (apply Rlt_le, Rinv_0_lt_compat; lra).
        apply Rmult_le_compat_r; [apply Rlt_le, Rinv_0_lt_compat; lra|].
        rewrite <- (Rmult_1_r (3 * K1 + _)).
        apply Rmult_le_compat; try apply Rabs_pos; auto. apply hq'_bound; lra. }
      pose proof (HGb PI ltac:(lra)). pose proof (HGb e ltac:(lra)).
      assert (Hm : (PI - e) * ((3 * K1 + 9 * K2) / lam) <= 4 * ((3 * K1 + 9 * K2) / lam)).
      { apply Rmult_le_compat_r; [|lra].
        apply Rmult_le_pos; [lra|apply Rlt_le, Rinv_0_lt_compat; lra]. }
      replace (KK / lam) with (12 * K2 / lam + 12 * K2 / lam + 4 * ((3 * K1 + 9 * K2) / lam))
        by (unfold KK; field; lra).
      unfold Rminus. eapply Rle_trans; [apply Rabs_triang|].
      eapply Rle_trans; [apply Rplus_le_compat_r, Rabs_triang|].
      rewrite Rabs_Ropp. lra.
  Qed.

  Lemma csum_bound N : Rabs (c0 / 2 + csum c N) <= KK / (INR N + 1 / 2).
  Proof.
    apply le_epsilon. intros eps Heps.
    pose proof PI_RGT_0 as Hpi. pose proof PI_4 as H4.
    set (M := K2 * 16 * (INR N + 1)).
    assert (HM : 0 <= M).
    { unfold M. pose proof (pos_INR N). repeat apply Rmult_le_pos; lra. }
    set (e := Rmin (PI / 2) (eps / (M + 1))).
    assert (He : 0 < e < PI).
    { unfold e. split; [apply Rmin_glb_lt; [lra|apply Rdiv_lt_0_compat; lra]|].
      eapply Rle_lt_trans; [apply Rmin_l|lra]. }
    assert (He2 : e * M <= eps).
    { apply Rle_trans with (eps / (M + 1) * (M + 1)); [|right; field; lra].
      apply Rmult_le_compat; try lra. apply Rmin_r. }
    destruct (tail_bound N e He) as [y [Hy1 Hy2]].
    assert (HH : ex_RInt (fun x => p x * Dker N x) 0 e).
    { apply (ex_RInt_continuous (V := R_CompleteNormedModule)). intros x _.
      apply (continuous_mult p (Dker N)); [apply p_cont|apply Dker_cont]. }
    destruct HH as [z Hz].
    assert (Hs : c0 / 2 + csum c N = z + y).
    { pose proof (is_RInt_Chasles _ _ _ _ _ _ Hz Hy1) as Hzy.
      pose proof (is_RInt_unique _ _ _ _ Hzy) as E1.
      pose proof (is_RInt_unique _ _ _ _ (pD_int N)) as E2.
      rewrite E1 in E2. rewrite <- E2. reflexivity. }
    rewrite Hs.
    assert (Hzb : Rabs z <= (e - 0) * M).
    { apply (norm_RInt_le_const (V := R_NormedModule) (fun x => p x * Dker N x) 0 e z);
        [lra| |exact Hz].
      intros x Hx. change (Rabs (p x * Dker N x) <= M). rewrite Rabs_mult. unfold M.
      apply Rmult_le_compat; try apply Rabs_pos; [|apply Dker_bound].
      eapply Rle_trans; [apply B2; lra|]. apply Rmult_le_compat_l; auto. nra. }
    eapply Rle_trans; [apply Rabs_triang|]. lra.
  Qed.

  Lemma fourier_series : is_series c (- (c0 / 2)).
  Proof.
    unfold is_series.
    assert (Hl : is_lim_seq (csum c) (- (c0 / 2))).
    { apply is_lim_seq_spec. intros eps. pose proof (cond_pos eps) as He.
      pose proof KK_nonneg as HKK.
      destruct (archimed_cor1 (eps / (KK + 1))) as [N [HN HN0]].
      { apply Rdiv_lt_0_compat; lra. }
      exists N. intros n Hn.
      replace (csum c n - - (c0 / 2)) with (c0 / 2 + csum c n) by ring.
      eapply Rle_lt_trans; [apply csum_bound|].
      assert (HNp : 0 < INR N) by (apply lt_0_INR; auto).
      assert (HNn : INR N <= INR n) by (apply le_INR; auto).
      apply Rle_lt_trans with ((KK + 1) * / INR N).
      - apply Rmult_le_compat; try lra.
        + apply Rlt_le, Rinv_0_lt_compat; lra.
        + apply Rinv_le_contravar; lra.
      - apply Rmult_lt_reg_r with (/ (KK + 1)); [apply Rinv_0_lt_compat; lra|].
        replace ((KK + 1) * / INR N * / (KK + 1)) with (/ INR N) by (field; lra).
        exact HN. }
    apply is_lim_seq_incr_1 in Hl.
    apply (is_lim_seq_ext (fun n => csum c (S n)) (sum_n c)) in Hl; [exact Hl|].
    induction n as [|n IH].
    - rewrite sum_O. cbn. ring.
    - rewrite sum_Sn, <- IH. reflexivity.
  Qed.
End Fourier.

(** ** The two polynomials *)
Definition p4 (x : R) : R := x ^ 3 / 6 - x ^ 4 / (24 * PI) - PI * x ^ 2 / 6.
Definition p4' (x : R) : R := x ^ 2 / 2 - x ^ 3 / (6 * PI) - PI * x / 3.
Definition p6 (x : R) : R :=
  - x ^ 5 / 120 + x ^ 6 / (720 * PI) + PI * x ^ 4 / 72 - PI ^ 3 * x ^ 2 / 90.
Definition p6' (x : R) : R :=
  - x ^ 4 / 24 + x ^ 5 / (120 * PI) + PI * x ^ 3 / 18 - PI ^ 3 * x / 45.

Lemma p4_derive x : is_derive p4 x (p4' x).
Proof.
  pose proof PI_RGT_0. unfold p4, p4'. auto_derive; [repeat split; lra|]. field. lra.
Qed.
Lemma p6_derive x : is_derive p6 x (p6' x).
Proof.
  pose proof PI_RGT_0. unfold p6, p6'. auto_derive; [repeat split; lra|]. field. lra.
Qed.
Lemma p4'_cont x : continuous p4' x.
Proof.
  apply (ex_derive_continuous p4'). unfold p4'. pose proof PI_RGT_0. auto_derive.
  repeat split; lra.
Qed.
Lemma p6'_cont x : continuous p6' x.
Proof.
  apply (ex_derive_continuous p6'). unfold p6'. pose proof PI_RGT_0. auto_derive.
  repeat split; lra.
Qed.

Lemma cos_nPI n : cos (INR n * PI) * cos (INR n * PI) = 1 /\ sin (INR n * PI) = 0.
Proof.
  assert (Hs : sin (INR n * PI) = 0).
  { apply sin_eq_0_1. exists (Z.of_nat n). rewrite <- INR_IZR_INZ. reflexivity. }
  split; [|exact Hs]. pose proof (sin2_cos2 (INR n * PI)) as H.
  unfold Rsqr in H. rewrite Hs in H. lra.
Qed.

Lemma p4_int n : is_RInt (fun x => p4 x * cos (INR (S n) * x)) 0 PI (/ INR (S n) ^ 4).
Proof.
  pose proof PI_RGT_0 as Hpi.
  assert (Hn : INR (S n) <> 0) by (apply not_0_INR; lia).
  pose proof (cos_nPI (S n)) as [_ Hs].
  set (a := INR (S n)) in *. clearbody a.
  set (F := fun x => p4 x * sin (a * x) / a + p4' x * cos (a * x) / a ^ 2
     - (x - x ^ 2 / (2 * PI) - PI / 3) * sin (a * x) / a ^ 3
     - (1 - x / PI) * cos (a * x) / a ^ 4 + (- / PI) * sin (a * x) / a ^ 5).
  replace (/ a ^ 4) with (minus (F PI) (F 0)).
  - apply (is_RInt_derive F).
    + intros x _. unfold F, p4, p4'. auto_derive; [repeat split; try lra; apply Hn|].
      Req. field; repeat split; first [exact Hn | lra].
    + intros x _. apply (ex_derive_continuous (fun x => p4 x * cos (a * x))). unfold p4.
      auto_derive. repeat split; lra.
  - unfold minus, plus, opp; cbn. unfold F, p4, p4'. rewrite Hs.
    rewrite (Rmult_0_r a), sin_0, cos_0. Req. field; repeat split; first [exact Hn | lra].
Qed.

Lemma p6_int n : is_RInt (fun x => p6 x * cos (INR (S n) * x)) 0 PI (/ INR (S n) ^ 6).
Proof.
  pose proof PI_RGT_0 as Hpi.
  assert (Hn : INR (S n) <> 0) by (apply not_0_INR; lia).
  pose proof (cos_nPI (S n)) as [_ Hs].
  set (a := INR (S n)) in *. clearbody a.
  set (F := fun x => p6 x * sin (a * x) / a + p6' x * cos (a * x) / a ^ 2
     - (- x ^ 3 / 6 + x ^ 4 / (24 * PI) + PI * x ^ 2 / 6 - PI ^ 3 / 45) * sin (a * x) / a ^ 3
     - (- x ^ 2 / 2 + x ^ 3 / (6 * PI) + PI * x / 3) * cos (a * x) / a ^ 4
     + (- x + x ^ 2 / (2 * PI) + PI / 3) * sin (a * x) / a ^ 5
     + (- 1 + x / PI) * cos (a * x) / a ^ 6 - / PI * sin (a * x) / a ^ 7).
  replace (/ a ^ 6) with (minus (F PI) (F 0)).
  - apply (is_RInt_derive F).
    + intros x _. unfold F, p6, p6'. auto_derive; [repeat split; try lra; apply Hn|].
      Req. field; repeat split; first [exact Hn | lra].
    + intros x _. apply (ex_derive_continuous (fun x => p6 x * cos (a * x))). unfold p6.
      auto_derive. repeat split; lra.
  - unfold minus, plus, opp; cbn. unfold F, p6, p6'. rewrite Hs.
    rewrite (Rmult_0_r a), sin_0, cos_0. Req. field; repeat split; first [exact Hn | lra].
Qed.

Lemma p4_int0 : is_RInt p4 0 PI (- PI ^ 4 / 45).
Proof.
  pose proof PI_RGT_0 as Hpi.
  set (F := fun x => x ^ 4 / 24 - x ^ 5 / (120 * PI) - PI * x ^ 3 / 18).
  replace (- PI ^ 4 / 45) with (minus (F PI) (F 0)).
  - apply (is_RInt_derive F).
    + intros x _. unfold F, p4. auto_derive; [repeat split; lra|]. Req. field. lra.
    + intros x _. apply (ex_derive_continuous p4). eexists; apply p4_derive.
  - unfold minus, plus, opp; cbn. unfold F. Req. field. lra.
Qed.

Lemma p6_int0 : is_RInt p6 0 PI (- 2 * PI ^ 6 / 945).
Proof.
  pose proof PI_RGT_0 as Hpi.
  set (F := fun x => - x ^ 6 / 720 + x ^ 7 / (5040 * PI) + PI * x ^ 5 / 360 - PI ^ 3 * x ^ 3 / 270).
  replace (- 2 * PI ^ 6 / 945) with (minus (F PI) (F 0)).
  - apply (is_RInt_derive F).
    + intros x _. unfold F, p6. auto_derive; [repeat split; lra|]. Req. field. lra.
    + intros x _. apply (ex_derive_continuous p6). eexists; apply p6_derive.
  - unfold minus, plus, opp; cbn. unfold F. Req. field. lra.
Qed.

(** crude bounds: with u = x/PI in [0,1] *)
Lemma unit_frac x : 0 <= x <= PI -> exists u, 0 <= u <= 1 /\ x = PI * u.
Proof.
  intros Hx. pose proof PI_RGT_0. exists (x / PI). split; [|field; lra].
  split.
  - apply Rmult_le_pos; [lra|apply Rlt_le, Rinv_0_lt_compat; lra].
  - apply Rmult_le_reg_r with PI; [lra|]. replace (x / PI * PI) with x by (field; lra). lra.
Qed.

Lemma Rabs_mono k y : 0 <= k -> Rabs y <= 1 -> Rabs (k * y) <= k.
Proof.
  intros. rewrite Rabs_mult, (Rabs_pos_eq k) by auto.
  rewrite <- (Rmult_1_r k) at 2. apply Rmult_le_compat_l; auto.
Qed.

Lemma p4_B1 x : 0 <= x <= PI -> Rabs (p4' x) <= PI * x.
Proof.
  intros Hx. destruct (unit_frac x Hx) as [u [Hu ->]]. pose proof PI_RGT_0.
  replace (p4' (PI * u)) with (PI * (PI * u) * (u / 2 - u ^ 2 / 6 - 1 / 3))
    by (unfold p4'; field; lra).
  apply Rabs_mono; [apply Rmult_le_pos; [lra|try apply pow_le; nra]|]. apply Rabs_le. nra.
Qed.
Lemma p4_B2 x : 0 <= x <= PI -> Rabs (p4 x) <= PI * x ^ 2.
Proof.
  intros Hx. destruct (unit_frac x Hx) as [u [Hu ->]]. pose proof PI_RGT_0.
  replace (p4 (PI * u)) with (PI * (PI * u) ^ 2 * (u / 6 - u ^ 2 / 24 - 1 / 6))
    by (unfold p4; field; lra).
  apply Rabs_mono; [apply Rmult_le_pos; [lra|try apply pow_le; nra]|]. apply Rabs_le. nra.
Qed.
Lemma p6_B1 x : 0 <= x <= PI -> Rabs (p6' x) <= PI ^ 3 * x.
Proof.
  intros Hx. destruct (unit_frac x Hx) as [u [Hu ->]]. pose proof PI_RGT_0.
  assert (0 < PI ^ 3) by (apply pow_lt; lra).
  replace (p6' (PI * u)) with (PI ^ 3 * (PI * u) * (- u ^ 3 / 24 + u ^ 4 / 120 + u ^ 2 / 18 - 1 / 45))
    by (unfold p6'; field; lra).
  assert (0 <= u ^ 2 <= 1) by nra. assert (0 <= u ^ 3 <= 1) by (simpl in *; nra).
  assert (0 <= u ^ 4 <= 1) by (simpl in *; nra).
  apply Rabs_mono; [apply Rmult_le_pos; [lra|try apply pow_le; nra]|]. apply Rabs_le. lra.
Qed.
Lemma p6_B2 x : 0 <= x <= PI -> Rabs (p6 x) <= PI ^ 3 * x ^ 2.
Proof.
  intros Hx. destruct (unit_frac x Hx) as [u [Hu ->]]. pose proof PI_RGT_0.
  assert (0 < PI ^ 3) by (apply pow_lt; lra).
  replace (p6 (PI * u)) with (PI ^ 3 * (PI * u) ^ 2 * (- u ^ 3 / 120 + u ^ 4 / 720 + u ^ 2 / 72 - 1 / 90))
    by (unfold p6; field; lra).
  assert (0 <= u ^ 2 <= 1) by nra. assert (0 <= u ^ 3 <= 1) by (simpl in *; nra).
  assert (0 <= u ^ 4 <= 1) by (simpl in *; nra).
  assert (0 <= (PI * u) ^ 2) by apply pow2_ge_0.
  apply Rabs_mono; [apply Rmult_le_pos; lra|]. apply Rabs_le. lra.
Qed.

Theorem zeta4 : is_series (fun n => / INR (S n) ^ 4) (PI ^ 4 / 90).
Proof.
  pose proof PI_RGT_0.
  replace (PI ^ 4 / 90) with (- ((- PI ^ 4 / 45) / 2)) by field.
  apply (fourier_series p4 p4' PI PI (- PI ^ 4 / 45)); try lra.
  - apply p4_derive. - apply p4'_cont. - apply p4_B1. - apply p4_B2.
  - apply p4_int0. - apply p4_int.
Qed.

Theorem zeta6 : is_series (fun n => / INR (S n) ^ 6) (PI ^ 6 / 945).
Proof.
  pose proof PI_RGT_0. assert (0 < PI ^ 3) by (apply pow_lt; lra).
  replace (PI ^ 6 / 945) with (- ((- 2 * PI ^ 6 / 945) / 2)) by field.
  apply (fourier_series p6 p6' (PI ^ 3) (PI ^ 3) (- 2 * PI ^ 6 / 945)); try lra.
  - apply p6_derive. - apply p6'_cont. - apply p6_B1. - apply p6_B2.
  - apply p6_int0. - apply p6_int.
Qed.
