(** Integrals x^s/(e^x - 1) and x^s/(e^x + 1) over (0, infinity). *)
From Coq Require Import Reals ZArith Lra Lia Factorial.
From Coquelicot Require Import Coquelicot.
From Verif Require Import Inst.ERTac Spec.Integral.
Open Scope R_scope.

(** Coquelicot goals over R as normed module, restated as equations on R *)
Ltac Req := match goal with |- ?a = ?b => change (@eq R a b) end.

(** polynomial in the antiderivative of x^s e^(-a x) *)
Fixpoint Ppoly (a : R) (s : nat) (x : R) : R :=
  match s with
  | O => / a
  | S s' => x ^ S s' / a + INR (S s') / a * Ppoly a s' x
  end.

Lemma Ppoly_derive a s x : a <> 0 ->
  is_derive (fun x => - exp (- a * x) * Ppoly a s x) x (x ^ s * exp (- a * x)).
Proof.
  intros Ha. induction s as [|s IH].
  - simpl. auto_derive; [trivial|]. field. assumption.
  - apply is_derive_ext with (f := fun x => - exp (- a * x) * (x ^ S s / a) +
      INR (S s) / a * (- exp (- a * x) * Ppoly a s x)).
    { intros t. cbn [Ppoly]. Req. ring. }
    apply is_derive_Reals.
    replace (x ^ S s * exp (- a * x)) with
      ((x ^ S s * exp (- a * x) - INR (S s) * x ^ s / a * exp (- a * x)) +
       INR (S s) / a * (x ^ s * exp (- a * x))) by (field; assumption).
    apply (derivable_pt_lim_plus (fun x => - exp (- a * x) * (x ^ S s / a))
      (fun x => INR (S s) / a * (- exp (- a * x) * Ppoly a s x))).
    + apply is_derive_Reals. auto_derive; [trivial|].
      cbn [pred]. change (match s with 0%nat => 1 | S _ => INR s + 1 end) with (INR (S s)).
      rewrite ?S_INR. cbn [pow].
      field. assumption.
    + apply (derivable_pt_lim_scal (fun x => - exp (- a * x) * Ppoly a s x)). apply is_derive_Reals. exact IH.
Qed.

Lemma Ppoly_0 a s : a <> 0 -> Ppoly a s 0 = INR (fact s) / a ^ S s.
Proof.
  intros Ha. induction s as [|s IH].
  - simpl. field. assumption.
  - cbn [Ppoly]. rewrite IH. rewrite pow_i by lia.
    rewrite fact_simpl, mult_INR. simpl. field. split; auto. apply pow_nonzero; auto.
Qed.

Lemma Ppoly_cont a s x : a <> 0 -> continuous (Ppoly a s) x.
Proof.
  intros Ha. induction s as [|s IH].
  - apply continuous_const.
  - cbn [Ppoly]. apply @continuous_plus.
    + apply (ex_derive_continuous (fun x => x ^ S s / a)). auto_derive. trivial.
    + apply @continuous_mult; [apply continuous_const|exact IH].
Qed.

Lemma exp_pow x n : exp x ^ n = exp (INR n * x).
Proof.
  induction n as [|n IH]; [simpl; now rewrite Rmult_0_l, exp_0|].
  rewrite S_INR. simpl. rewrite IH, <- exp_plus. f_equal. ring.
Qed.

Lemma pow_exp_bound k y : 0 < y -> y ^ k * exp (- y) <= INR (S k) ^ S k / y.
Proof.
  intros Hy.
  assert (Hk : 0 < INR (S k)) by (apply lt_0_INR; lia).
  assert (He : (y / INR (S k)) ^ S k <= exp y).
  { replace (exp y) with (exp (y / INR (S k)) ^ S k).
    - apply pow_incr. split; [apply Rlt_le, Rdiv_lt_0_compat; auto|].
      pose proof (exp_ineq1 (y / INR (S k))) as H.
      assert (0 < y / INR (S k)) by (apply Rdiv_lt_0_compat; auto).
      specialize (H ltac:(lra)). lra.
    - rewrite exp_pow. f_equal. field. lra. }
  rewrite exp_Ropp.
  apply Rmult_le_reg_r with (exp y); [apply exp_pos|].
  rewrite Rmult_assoc, Rinv_l by (apply Rgt_not_eq, exp_pos). rewrite Rmult_1_r.
  apply Rle_trans with (INR (S k) ^ S k / y * (y / INR (S k)) ^ S k).
  - right. unfold Rdiv. rewrite Rpow_mult_distr, pow_inv.
    simpl (y ^ S k). field. split; [|lra]. apply pow_nonzero. lra.
  - apply Rmult_le_compat_l; [|exact He].
    apply Rlt_le, Rdiv_lt_0_compat; auto. apply pow_lt; auto.
Qed.

Lemma pow_exp_lim a k : 0 < a ->
  filterlim (fun x => x ^ k * exp (- a * x)) (Rbar_locally p_infty) (locally 0).
Proof.
  intros Ha.
  assert (Hk : 0 < INR (S k) ^ S k / a ^ S k).
  { apply Rdiv_lt_0_compat; apply pow_lt; auto. apply lt_0_INR; lia. }
  set (C := INR (S k) ^ S k / a ^ S k) in *.
  apply filterlim_locally. intros eps.
  exists (Rmax 1 (C / eps)). intros x Hx.
  assert (Hx1 : 1 < x) by (eapply Rle_lt_trans; [apply Rmax_l|exact Hx]).
  assert (Hx2 : C / eps < x) by (eapply Rle_lt_trans; [apply Rmax_r|exact Hx]).
  assert (He : 0 < eps) by apply cond_pos.
  change (Rabs (x ^ k * exp (- a * x) - 0) < eps).
  rewrite Rminus_0_r, Rabs_pos_eq.
  2:{ apply Rmult_le_pos; [apply pow_le; lra|apply Rlt_le, exp_pos]. }
  apply Rle_lt_trans with (C / x).
  - pose proof (pow_exp_bound k (a * x) ltac:(apply Rmult_lt_0_compat; lra)) as H.
    rewrite Rpow_mult_distr in H. replace (- (a * x)) with (- a * x) in H by ring.
    apply Rmult_le_reg_l with (a ^ k); [apply pow_lt; auto|].
    rewrite <- Rmult_assoc. eapply Rle_trans; [exact H|]. right. unfold C. cbn [pow].
    field. repeat split; try lra. apply pow_nonzero; lra.
  - apply Rmult_lt_reg_r with x; [lra|]. unfold Rdiv at 1.
    rewrite Rmult_assoc, Rinv_l, Rmult_1_r by lra.
    apply Rmult_lt_reg_r with (/ eps); [apply Rinv_0_lt_compat; auto|].
    replace (eps * x * / eps) with x by (field; lra). exact Hx2.
Qed.

Lemma flim_scal {U} {F : (U -> Prop) -> Prop} {FF : Filter F} (f : U -> R) k l :
  filterlim f F (locally l) -> filterlim (fun x => k * f x) F (locally (k * l)).
Proof.
  intros H. apply (filterlim_comp _ _ _ f (fun y => k * y) F (locally l)); [exact H|].
  apply (filterlim_scal_r (K := R_AbsRing) (V := R_NormedModule) k l).
Qed.
Lemma flim_plus {U} {F : (U -> Prop) -> Prop} {FF : Filter F} (f g : U -> R) l m :
  filterlim f F (locally l) -> filterlim g F (locally m) ->
  filterlim (fun x => f x + g x) F (locally (l + m)).
Proof.
  intros H H'. eapply (filterlim_comp_2 (F := F) (G := locally l) (H := locally m) f g Rplus); [exact H|exact H'|].
  apply (filterlim_plus (K := R_AbsRing) (V := R_NormedModule) l m).
Qed.

Lemma Ppoly_lim a s : 0 < a ->
  filterlim (fun x => - exp (- a * x) * Ppoly a s x) (Rbar_locally p_infty) (locally 0).
Proof.
  intros Ha. induction s as [|s IH].
  - cbn [Ppoly].
    apply filterlim_ext with (fun x => - / a * (x ^ 0 * exp (- a * x))).
    { intros x. simpl. ring. }
    replace 0 with (- / a * 0) by ring.
    apply (flim_scal (fun x => x ^ 0 * exp (- a * x))). apply pow_exp_lim; auto.
  - cbn [Ppoly].
    apply filterlim_ext with (fun x => - / a * (x ^ S s * exp (- a * x)) +
      INR (S s) / a * (- exp (- a * x) * Ppoly a s x)).
    { intros x. field. lra. }
    replace 0 with (- / a * 0 + INR (S s) / a * 0) by ring.
    apply (flim_plus (fun x => - / a * (x ^ S s * exp (- a * x)))
                     (fun x => INR (S s) / a * (- exp (- a * x) * Ppoly a s x))).
    + apply (flim_scal (fun x => x ^ S s * exp (- a * x))). apply pow_exp_lim; auto.
    + apply (flim_scal (fun x => - exp (- a * x) * Ppoly a s x)). exact IH.
Qed.

(** Gamma-function integral: int_0^inf x^s e^(-a x) dx = s!/a^(s+1) *)
Lemma gamma_integral a s : 0 < a ->
  int_0_inf (fun x => x ^ s * exp (- a * x)) (INR (fact s) / a ^ S s).
Proof.
  intros Ha. unfold int_0_inf.
  set (F := fun x => - exp (- a * x) * Ppoly a s x).
  assert (HD : forall x, Derive F x = x ^ s * exp (- a * x)).
  { intros x. apply is_derive_unique. apply Ppoly_derive. lra. }
  apply is_RInt_gen_ext with (Derive F).
  { apply filter_forall. intros ab x _. now rewrite HD. }
  replace (INR (fact s) / a ^ S s) with (0 - F 0).
  2:{ unfold F. rewrite Ppoly_0, Rmult_0_r, exp_0 by lra. ring. }
  apply is_RInt_gen_Derive.
  - apply filter_forall. intros ab x _. eexists. apply Ppoly_derive. lra.
  - apply filter_forall. intros ab x _.
    apply continuous_ext with (fun x => x ^ s * exp (- a * x)); [intros; now rewrite HD|].
    apply (ex_derive_continuous (fun x => x ^ s * exp (- a * x))). auto_derive. trivial.
  - assert (Hc : continuous F 0).
    { apply (ex_derive_continuous F). eexists. apply Ppoly_derive. lra. }
    intros P HP. apply filter_le_within. exact (Hc P HP).
  - apply Ppoly_lim. assumption.
Qed.

(** ** Linearity and scaling of the half-line integral *)
Lemma int_0_inf_ext f g l : (forall x, 0 < x -> f x = g x) ->
  int_0_inf f l -> int_0_inf g l.
Proof.
  intros H. apply (@is_RInt_gen_ext R_NormedModule (at_right 0) (Rbar_locally p_infty)
    (@filter_filter _ _ (at_right_proper_filter 0)) (@filter_filter _ _ (Rbar_locally_filter p_infty)) f g l).
  apply Filter_prod with (Q := fun a => 0 < a) (R := fun b => 0 < b).
  - exists (mkposreal 1 Rlt_0_1). intros y _ Hy. exact Hy.
  - exists 0. intros; assumption.
  - intros a b Ha Hb x [Hx _]. apply H. cbn [fst snd] in Hx.
    apply Rle_lt_trans with (Rmin a b); [|exact Hx].
    apply Rmin_glb; lra.
Qed.

Lemma int_0_inf_scal f k l : int_0_inf f l -> int_0_inf (fun x => k * f x) (k * l).
Proof. intros H. apply (is_RInt_gen_scal f k l H). Qed.

Lemma int_0_inf_plus f g l m : int_0_inf f l -> int_0_inf g m ->
  int_0_inf (fun x => f x + g x) (l + m).
Proof. intros H H'. apply (is_RInt_gen_plus f g l m H H'). Qed.

Lemma int_0_inf_comp f k l : 0 < k -> int_0_inf f l -> int_0_inf (fun x => f (k * x)) (l / k).
Proof.
  intros Hk H. unfold int_0_inf, is_RInt_gen, filterlimi in *.
  intros P HP.
  assert (HP' : locally l (fun y => P (y / k))).
  { assert (Hc : continuous (fun y : R => y / k) l).
    { apply (ex_derive_continuous (fun y => y / k)). auto_derive. trivial. }
    exact (Hc P HP). }
  specialize (H _ HP'). destruct H as [Q S HQ HS H].
  apply Filter_prod with (Q := fun a => Q (k * a)) (R := fun b => S (k * b)).
  - destruct HQ as [eps HQ].
    assert (He : 0 < eps / k) by (apply Rdiv_lt_0_compat; [apply cond_pos|auto]).
    exists (mkposreal _ He). intros y Hy Hy0.
    apply HQ; [|apply Rmult_lt_0_compat; auto].
    change (Rabs (y - 0) < eps / k) in Hy. change (Rabs (k * y - 0) < eps).
    rewrite Rminus_0_r in *. rewrite Rabs_mult, (Rabs_pos_eq k) by lra.
    apply Rmult_lt_reg_r with (/ k); [apply Rinv_0_lt_compat; auto|].
    replace (k * Rabs y * / k) with (Rabs y) by (field; lra). exact Hy.
  - destruct HS as [M HS]. exists (M / k). intros b Hb. apply HS.
    apply Rmult_lt_reg_r with (/ k); [apply Rinv_0_lt_compat; auto|].
    replace (k * b * / k) with b by (field; lra). exact Hb.
  - intros a b Ha Hb. destruct (H _ _ Ha Hb) as [y [Hy1 Hy2]]. cbn [fst snd] in *.
    exists (y / k). split; [|exact Hy2].
    apply is_RInt_ext with (fun x => scal (/ k) (scal k (f (k * x + 0)))).
    { intros x _. unfold scal; simpl; unfold mult; simpl.
      rewrite Rplus_0_r. field. lra. }
    replace (y / k) with (scal (/ k) y)
      by (unfold scal; simpl; unfold mult; simpl; field; lra).
    apply (is_RInt_scal (V := R_NormedModule)).
    apply (is_RInt_comp_lin f k 0). rewrite !Rplus_0_r. exact Hy1.
Qed.

(** ** Bose integrals *)
Fixpoint bsum (s N : nat) (x : R) : R :=
  match N with
  | O => 0
  | S N' => bsum s N' x + x ^ s * exp (- INR (S N') * x)
  end.
Fixpoint zsum (s N : nat) : R :=
  match N with
  | O => 0
  | S N' => zsum s N' + INR (fact s) / INR (S N') ^ S s
  end.

Lemma bsum_int s N : int_0_inf (bsum s N) (zsum s N).
Proof.
  induction N as [|N IH]; cbn [bsum zsum].
  - apply int_0_inf_ext with (fun x => 0 * (x ^ 0 * exp (- 1 * x))).
    { intros; Req; ring. }
    replace 0 with (0 * (INR (fact 0) / 1 ^ 1)) at 1 by ring.
    apply int_0_inf_scal. apply gamma_integral. lra.
  - apply int_0_inf_plus; [exact IH|].
    apply gamma_integral. apply lt_0_INR; lia.
Qed.

Lemma bose_split s N x : 0 < x ->
  x ^ s / (exp x - 1) = bsum s N x + x ^ s * exp (- INR N * x) / (exp x - 1).
Proof.
  intros Hx. pose proof (expm1_pos x Hx) as He.
  induction N as [|N IH].
  - cbn [bsum]. simpl INR. replace (- 0 * x) with 0 by ring. rewrite exp_0. field. lra.
  - rewrite IH. cbn [bsum].
    replace (exp (- INR (S N) * x)) with (exp (- INR N * x) / exp x).
    2:{ rewrite S_INR. unfold Rdiv. rewrite <- exp_Ropp, <- exp_plus. f_equal. ring. }
    field. split; lra.
Qed.

Lemma bose_rem s N x : 0 < x ->
  0 <= x ^ S s * exp (- INR N * x) / (exp x - 1) <= x ^ s * exp (- INR N * x).
Proof.
  intros Hx. pose proof (expm1_pos x Hx) as He.
  assert (H1 : x <= exp x - 1) by (pose proof (exp_ineq1 x); lra).
  assert (Hp : 0 < x ^ s * exp (- INR N * x)).
  { apply Rmult_lt_0_compat; [apply pow_lt; auto|apply exp_pos]. }
  split.
  - apply Rlt_le, Rdiv_lt_0_compat; auto.
    apply Rmult_lt_0_compat; [apply pow_lt; auto|apply exp_pos].
  - apply Rmult_le_reg_r with (exp x - 1); auto.
    unfold Rdiv. rewrite Rmult_assoc, Rinv_l, Rmult_1_r by lra.
    simpl (x ^ S s). rewrite Rmult_assoc. rewrite (Rmult_comm x).
    apply Rmult_le_compat_l; lra.
Qed.

Lemma is_RInt_zero a b : is_RInt (fun _ : R => 0) a b 0.
Proof.
  pose proof (is_RInt_const (V := R_NormedModule) a b 0) as H.
  replace (scal (b - a) (0 : R_NormedModule)) with 0 in H; [exact H|].
  unfold scal; simpl; unfold mult; simpl. ring.
Qed.

Lemma gamma_partial a s x y : 0 < a -> 0 <= x -> x <= y ->
  exists I, is_RInt (fun t => t ^ s * exp (- a * t)) x y I /\ 0 <= I <= INR (fact s) / a ^ S s.
Proof.
  intros Ha Hx Hxy.
  set (F := fun x => - exp (- a * x) * Ppoly a s x).
  assert (HI : forall u v, is_RInt (fun t => t ^ s * exp (- a * t)) u v (F v - F u)).
  { intros u v.
    apply (is_RInt_derive F (fun t => t ^ s * exp (- a * t))).
    - intros t _. apply Ppoly_derive. lra.
    - intros t _. apply (ex_derive_continuous (fun x => x ^ s * exp (- a * x))).
      auto_derive. trivial. }
  assert (Hpos : forall u v, 0 <= u -> u <= v -> 0 <= F v - F u).
  { intros u v Hu Huv.
    apply (is_RInt_le (fun _ => 0) (fun t => t ^ s * exp (- a * t)) u v); auto.
    - apply is_RInt_zero.
    - intros t Ht. apply Rmult_le_pos; [apply pow_le; lra|apply Rlt_le, exp_pos]. }
  exists (F y - F x). split; [apply HI|]. split; [apply Hpos; auto|].
  assert (H0 : - F 0 = INR (fact s) / a ^ S s).
  { unfold F. rewrite Ppoly_0, Rmult_0_r, exp_0 by lra. ring. }
  rewrite <- H0.
  assert (HF : F y <= 0).
  { unfold F. assert (0 <= Ppoly a s y).
    { clear - Ha Hx Hxy. induction s as [|s IH]; cbn [Ppoly].
      - apply Rlt_le, Rinv_0_lt_compat; auto.
      - apply Rplus_le_le_0_compat.
        + apply Rmult_le_pos; [apply pow_le; lra|apply Rlt_le, Rinv_0_lt_compat; auto].
        + apply Rmult_le_pos; auto. apply Rmult_le_pos; [apply pos_INR|].
          apply Rlt_le, Rinv_0_lt_compat; auto. }
    pose proof (exp_pos (- a * y)). nra. }
  pose proof (Hpos 0 x ltac:(lra) Hx). lra.
Qed.

Lemma zsum_lim s z : is_series (fun n => / INR (S n) ^ S s) z ->
  is_lim_seq (zsum s) (INR (fact s) * z).
Proof.
  intros H.
  apply is_lim_seq_incr_1.
  apply is_lim_seq_ext with (fun n => INR (fact s) * sum_n (fun n => / INR (S n) ^ S s) n).
  - induction n as [|n IH].
    + rewrite sum_O. cbn [zsum]. unfold Rdiv. ring.
    + rewrite sum_Sn. cbn [zsum] in *. rewrite <- IH. unfold plus; cbn -[INR fact pow]. unfold Rdiv. ring.
  - apply (is_lim_seq_scal_l _ (INR (fact s)) z). exact H.
Qed.

Theorem bose_integral s z : is_series (fun n => / INR (S n) ^ S (S s)) z ->
  int_0_inf (fun x => x ^ S s / (exp x - 1)) (INR (fact (S s)) * z).
Proof.
  intros Hz. set (l := INR (fact (S s)) * z). set (f := fun x => x ^ S s / (exp x - 1)).
  unfold int_0_inf, is_RInt_gen, filterlimi. intros P [eps HP].
  pose proof (zsum_lim _ _ Hz) as Hlim.
  assert (He3 : 0 < eps / 3) by (pose proof (cond_pos eps); lra).
  (* choose N *)
  assert (HN : exists N, (0 < N)%nat /\ INR (fact s) / INR N ^ S s < eps / 3 /\ Rabs (zsum (S s) N - l) < eps / 3).
  { apply is_lim_seq_spec in Hlim. destruct (Hlim (mkposreal _ He3)) as [N1 HN1].
    cbn [pos] in HN1.
    destruct (archimed_cor1 (eps / 3 / INR (fact s))) as [N2 [HN2 HN2']].
    { apply Rdiv_lt_0_compat; auto. apply INR_fact_lt_0. }
    exists (Nat.max N1 N2). repeat split; [lia| |].
    - set (N := Nat.max N1 N2).
      assert (HNp : 1 <= INR N) by (change 1 with (INR 1); apply le_INR; lia).
      assert (HN2p : 0 < INR N2) by (apply lt_0_INR; lia).
      assert (HNN : INR N2 <= INR N) by (apply le_INR; lia).
      apply Rle_lt_trans with (INR (fact s) * / INR N2).
      + apply Rmult_le_compat_l; [apply pos_INR|].
        apply Rinv_le_contravar; auto.
        apply Rle_trans with (INR N); auto.
        rewrite <- (pow_1 (INR N)) at 1. apply Rle_pow; auto. lia.
      + apply Rmult_lt_reg_r with (/ INR (fact s));
          [apply Rinv_0_lt_compat, INR_fact_lt_0|].
        replace (INR (fact s) * / INR N2 * / INR (fact s)) with (/ INR N2); [exact HN2|].
        field. split; [apply INR_fact_neq_0|lra].
    - apply HN1. lia. }
  destruct HN as [N [HN0 [HN1 HN2]]].
  pose proof (bsum_int (S s) N) as HB.
  unfold int_0_inf, is_RInt_gen, filterlimi in HB.
  specialize (HB (fun y => Rabs (y - zsum (S s) N) < eps / 3)).
  destruct HB as [Q R HQ HR HQR].
  { exists (mkposreal _ He3). intros y Hy. exact Hy. }
  apply Filter_prod with (Q := fun a => Q a /\ 0 < a < 1) (R := fun b => R b /\ 1 < b).
  - destruct HQ as [d HQ].
    assert (Hd : 0 < Rmin d 1) by (apply Rmin_glb_lt; [apply cond_pos|lra]).
    exists (mkposreal _ Hd). intros y Hy Hy0.
    change (Rabs (y - 0) < Rmin d 1) in Hy.
    split; [apply HQ; auto|].
    + change (Rabs (y - 0) < d). eapply Rlt_le_trans; [exact Hy|apply Rmin_l].
    + split; auto. rewrite Rminus_0_r in Hy. rewrite Rabs_pos_eq in Hy by lra.
      eapply Rlt_le_trans; [exact Hy|apply Rmin_r].
  - destruct HR as [M HR]. exists (Rmax M 1). intros y Hy. split.
    + apply HR. eapply Rle_lt_trans; [apply Rmax_l|exact Hy].
    + eapply Rle_lt_trans; [apply Rmax_r|exact Hy].
  - intros a b [Ha Ha'] [Hb Hb']. cbn [fst snd].
    destruct (HQR a b Ha Hb) as [y' [Hy1 Hy2]]. cbn [fst snd] in Hy1.
    assert (Hf : ex_RInt f a b).
    { apply (ex_RInt_continuous f). intros t Ht.
      rewrite Rmin_left, Rmax_right in Ht by lra.
      apply (ex_derive_continuous f). unfold f. auto_derive.
      pose proof (expm1_pos t ltac:(lra)). lra. }
    destruct Hf as [y Hy]. exists y. split; [exact Hy|].
    apply HP. change (Rabs (y - l) < eps).
    assert (HNR : 0 < INR N) by (apply lt_0_INR; lia).
    destruct (gamma_partial (INR N) s a b HNR ltac:(lra) ltac:(lra)) as [I [HI1 HI2]].
    assert (Hdiff : is_RInt (fun t => f t - bsum (S s) N t) a b (y - y')).
    { apply (is_RInt_minus (V := R_NormedModule)); assumption. }
    assert (Hin : forall t, a < t < b ->
      0 <= f t - bsum (S s) N t <= t ^ s * exp (- INR N * t)).
    { intros t Ht. assert (Ht0 : 0 < t) by lra. unfold f.
      rewrite (bose_split (S s) N t Ht0).
      pose proof (bose_rem s N t Ht0). lra. }
    assert (Hlo : 0 <= y - y').
    { apply (is_RInt_le (fun _ => 0) (fun t => f t - bsum (S s) N t) a b); auto; try lra.
      - apply is_RInt_zero.
      - intros t Ht. apply Hin; lra. }
    assert (Hhi : y - y' <= I).
    { apply (is_RInt_le (fun t => f t - bsum (S s) N t)
               (fun t => t ^ s * exp (- INR N * t)) a b); auto; try lra.
      intros t Ht. apply Hin; lra. }
    replace (y - l) with ((y - y') + (y' - zsum (S s) N) + (zsum (S s) N - l)) by ring.
    eapply Rle_lt_trans; [apply Rabs_triang|].
    eapply Rle_lt_trans; [apply Rplus_le_compat_r, Rabs_triang|].
    rewrite (Rabs_pos_eq (y - y')) by auto. lra.
Qed.

(** ** Fermi integrals, from 1/(e^x+1) = 1/(e^x-1) - 2/(e^(2x)-1) *)
Theorem fermi_integral s z : is_series (fun n => / INR (S n) ^ S (S s)) z ->
  int_0_inf (fun x => x ^ S s / (exp x + 1)) ((1 - / 2 ^ S s) * (INR (fact (S s)) * z)).
Proof.
  intros Hz. pose proof (bose_integral s z Hz) as HB.
  set (l := INR (fact (S s)) * z) in *.
  pose proof (int_0_inf_comp _ 2 _ ltac:(lra) HB) as HB2. cbn beta in HB2.
  pose proof (int_0_inf_plus _ _ _ _ HB (int_0_inf_scal _ (- 2 / 2 ^ S s) _ HB2)) as H.
  replace ((1 - / 2 ^ S s) * l) with (l + - 2 / 2 ^ S s * (l / 2)).
  2:{ field. apply pow_nonzero. lra. }
  revert H. apply int_0_inf_ext. intros x Hx.
  pose proof (expm1_pos x Hx) as He.
  replace (exp (2 * x)) with (exp x * exp x) by (rewrite <- exp_plus; f_equal; ring).
  rewrite Rpow_mult_distr.
  assert (exp x * exp x - 1 <> 0) by nra.
  field. repeat split; try nra. apply pow_nonzero; lra.
Qed.
