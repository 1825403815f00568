(** Midpoint sums over equal cells in log10 nu converge to the integrals they approximate. *)
From Coquelicot Require Import Coquelicot.
From Coq Require Import Reals ZArith List Lia Lra.
From Verif Require Import Inst.ER Spec.Physics Spec.Tables Spec.Means Proofs.InterpFacts Proofs.MeanExact.
Open Scope R_scope.

(** ** The midpoint rule *)
(** n midpoints of equal cells of [a, b] *)
Definition midpoints (f : R -> R) (a b : R) (n : nat) : R :=
  rsum n (fun i => f (a + (INR i + / 2) * ((b - a) / INR n)) * ((b - a) / INR n)).

Lemma RInt_val_0 (f : R -> R) a b : RInt_val f a b 0 = (b - a) * f ((a + b) / 2).
Proof.
  unfold RInt_val, unif_part, SF_seq_f2, Riemann_sum; cbn. unfold plus, zero, scal; cbn. unfold mult; cbn.
  replace (a + 0 * (b - a) / (0 + 1)) with a by field. replace (a + 1 * (b - a) / (0 + 1)) with b by field. ring.
Qed.
Lemma rsum_first n f : rsum (S n) f = f O + rsum n (fun i => f (S i)).
Proof. induction n as [|n IH]; [cbn; ring|]. change (rsum (S (S n)) f) with (rsum (S n) f + f (S n)). rewrite IH. cbn. ring. Qed.
Lemma RInt_val_S (f : R -> R) a b n : let a' := (a * INR (S n) + b) / INR (S (S n)) in
  RInt_val f a b (S n) = (a' - a) * f ((a + a') / 2) + RInt_val f a' b n.
Proof.
  intros a'. unfold RInt_val. rewrite unif_part_S. fold a'. rewrite SF_cons_f2 by (cbn; lia). rewrite Riemann_sum_cons.
  rewrite (head_unif_part 0). cbn [fst snd]. unfold plus, scal; cbn. unfold mult; cbn. do 2 f_equal.
  replace (a' + 0 * (b - a') / (INR n + 1)) with a'; [reflexivity|]. field. pose proof (pos_INR n). lra.
Qed.
Lemma RInt_val_midpoints (f : R -> R) b : forall n a, RInt_val f a b n = midpoints f a b (S n).
Proof.
  induction n as [|n IH]; intros a.
  - rewrite RInt_val_0. unfold midpoints; cbn [rsum INR]. replace (a + (0 + / 2) * ((b - a) / 1)) with ((a + b) / 2) by field. match goal with |- ?x = ?y => change (@eq R x y) end. field.
  - rewrite RInt_val_S, IH. unfold midpoints. rewrite (rsum_first (S n)). pose proof (pos_INR n) as Pn.
    assert (E1 : INR (S n) = INR n + 1) by apply S_INR. assert (E2 : INR (S (S n)) = INR n + 2) by (rewrite !S_INR; lra).
    rewrite E1, E2. f_equal.
    + rewrite Rmult_comm. cbn [INR]. f_equal; [f_equal|]; field; lra.
    + apply rsum_ext. intros i _. rewrite S_INR. f_equal; [f_equal|]; field; lra.
Qed.

Lemma midpoints_converge (f : R -> R) a b I : a < b -> is_RInt f a b I ->
  forall eps, 0 < eps -> exists n0, forall n, (n0 <= n)%nat -> Rabs (midpoints f a b n - I) <= eps.
Proof.
  intros Hab H eps He. specialize (H (ball I eps) (locally_ball I (mkposreal eps He))). destruct H as [d Hd].
  destruct (nfloor_ex ((b - a) / d)) as [k Hk]. { apply Rlt_le, Rdiv_lt_0_compat; [lra|apply cond_pos]. }
  exists (S (S k)). intros [|n] Hn; [lia|]. rewrite <- RInt_val_midpoints.
  destruct (Riemann_fine_unif_part (fun x y => (x + y) / 2) a b n) as (S1 & S2 & S3 & S4); [intros; lra|lra|].
  assert (B : ball I eps (scal (sign (b - a)) (Riemann_sum f (SF_seq_f2 (fun x y => (x + y) / 2) (unif_part a b n))))).
  { apply Hd; [|split; [exact S2|split; [rewrite Rmin_left by lra; exact S3|rewrite Rmax_right by lra; exact S4]]].
    apply Rle_lt_trans with (1 := S1). apply (Rmult_lt_reg_r (INR n + 1)); [pose proof (pos_INR n); lra|].
    replace ((b - a) / (INR n + 1) * (INR n + 1)) with (b - a) by (field; pose proof (pos_INR n); lra).
    assert (INR k + 1 <= INR n). { rewrite <- S_INR. apply le_INR. lia. }
    assert (D := cond_pos d). apply Rlt_le_trans with (d * (INR k + 1)); [|apply Rmult_le_compat_l; lra].
    destruct Hk as [_ Hk]. apply (Rmult_lt_compat_l d) in Hk; [|exact D]. replace (d * ((b - a) / d)) with (b - a) in Hk by (field; lra). lra. }
  rewrite sign_eq_1 in B by lra. unfold scal in B; cbn in B; unfold mult in B; cbn in B. rewrite Rmult_1_l in B. unfold RInt_val. apply Rlt_le. exact B.
Qed.

(** ** A rate for integrands with a Lipschitz constant *)
Lemma cell_error (f : R -> R) c h L : 0 <= h -> 0 <= L -> ex_RInt f (c - h) (c + h) ->
  (forall x, c - h <= x <= c + h -> Rabs (f x - f c) <= L * Rabs (x - c)) ->
  Rabs (f c * (2 * h) - RInt f (c - h) (c + h)) <= L * h ^ 2.
Proof.
  intros Hh HL E H.
  assert (E1 : ex_RInt f (c - h) c) by (apply (ex_RInt_Chasles_1 f _ _ (c + h)); [lra|exact E]).
  assert (E2 : ex_RInt f c (c + h)) by (apply (ex_RInt_Chasles_2 f (c - h)); [lra|exact E]).
  rewrite <- (RInt_Chasles f (c - h) c (c + h)) by assumption. change plus with Rplus.
  assert (I1 : is_RInt (fun x => L * (c - x)) (c - h) c (L * h ^ 2 / 2)).
  { replace (L * h ^ 2 / 2) with (minus (- L * (c - c) ^ 2 / 2) (- L * (c - (c - h)) ^ 2 / 2)) by (unfold minus, plus, opp; cbn; field).
    apply (is_RInt_derive (fun x => - L * (c - x) ^ 2 / 2)).
    - intros x _. auto_derive; [trivial|]. field.
    - intros x _. apply (ex_derive_continuous (fun x => L * (c - x))). auto_derive. trivial. }
  assert (I2 : is_RInt (fun x => L * (x - c)) c (c + h) (L * h ^ 2 / 2)).
  { replace (L * h ^ 2 / 2) with (minus (L * (c + h - c) ^ 2 / 2) (L * (c - c) ^ 2 / 2)) by (unfold minus, plus, opp; cbn; field).
    apply (is_RInt_derive (fun x => L * (x - c) ^ 2 / 2)).
    - intros x _. auto_derive; [trivial|]. field.
    - intros x _. apply (ex_derive_continuous (fun x => L * (x - c))). auto_derive. trivial. }
  assert (K1 : is_RInt (fun _ => f c) (c - h) c (f c * h)).
  { replace (f c * h) with (scal (c - (c - h)) (f c)) by (unfold scal; cbn; unfold mult; cbn; ring). apply (@is_RInt_const R_NormedModule). }
  assert (K2 : is_RInt (fun _ => f c) c (c + h) (f c * h)).
  { replace (f c * h) with (scal (c + h - c) (f c)) by (unfold scal; cbn; unfold mult; cbn; ring). apply (@is_RInt_const R_NormedModule). }
  assert (A1 : Rabs (f c * h - RInt f (c - h) c) <= L * h ^ 2 / 2).
  { refine (norm_RInt_le (fun x => minus (f c) (f x)) _ (c - h) c _ _ _ _ (is_RInt_minus _ _ _ _ _ _ K1 (RInt_correct f _ _ E1)) I1); [lra|].
    intros x Hx. change (Rabs (f c - f x) <= L * (c - x)). rewrite Rabs_minus_sym. replace (c - x) with (Rabs (x - c)); [apply H; lra|].
    rewrite Rabs_minus_sym. apply Rabs_pos_eq. lra. }
  assert (A2 : Rabs (f c * h - RInt f c (c + h)) <= L * h ^ 2 / 2).
  { refine (norm_RInt_le (fun x => minus (f c) (f x)) _ c (c + h) _ _ _ _ (is_RInt_minus _ _ _ _ _ _ K2 (RInt_correct f _ _ E2)) I2); [lra|].
    intros x Hx. change (Rabs (f c - f x) <= L * (x - c)). rewrite Rabs_minus_sym. rewrite <- (Rabs_pos_eq (x - c)) by lra. apply H. lra. }
  replace (f c * (2 * h) - (RInt f (c - h) c + RInt f c (c + h))) with ((f c * h - RInt f (c - h) c) + (f c * h - RInt f c (c + h))) by ring.
  apply Rle_trans with (1 := Rabs_triang _ _). lra.
Qed.

Lemma midpoints_rate (f : R -> R) a b L n : a < b -> (0 < n)%nat -> 0 <= L -> ex_RInt f a b ->
  (forall x y, a <= x <= b -> a <= y <= b -> Rabs (f x - f y) <= L * Rabs (x - y)) ->
  Rabs (midpoints f a b n - RInt f a b) <= L * (b - a) ^ 2 / (4 * INR n).
Proof.
  intros Hab Hn HL E H. set (w := (b - a) / INR n). assert (Pn : 0 < INR n) by now apply lt_0_INR.
  assert (Wp : 0 < w) by (apply Rdiv_lt_0_compat; lra). assert (Wn : a + INR n * w = b) by (unfold w; field; lra).
  assert (G : forall k, (k <= n)%nat -> ex_RInt f a (a + INR k * w) /\
    Rabs (rsum k (fun i => f (a + (INR i + / 2) * w) * w) - RInt f a (a + INR k * w)) <= INR k * (L * (w / 2) ^ 2)).
  { induction k as [|k IH]; intros Hk.
    - cbn [INR rsum]. replace (a + 0 * w) with a by ring. split; [apply ex_RInt_point|]. rewrite RInt_point. change zero with 0. rewrite Rminus_0_r, Rabs_R0. lra.
    - destruct (IH ltac:(lia)) as (X1 & X2).
      assert (Bk : a <= a + INR k * w /\ a + INR k * w <= a + INR (S k) * w <= b).
      { rewrite <- Wn. pose proof (pos_INR k). assert (INR (S k) <= INR n) by (apply le_INR; lia). rewrite S_INR in *. nra. }
      assert (X : ex_RInt f a (a + INR (S k) * w)) by (apply (ex_RInt_Chasles_1 f _ _ b); [lra|exact E]). split; [exact X|].
      assert (X3 : ex_RInt f (a + INR k * w) (a + INR (S k) * w)) by (apply (ex_RInt_Chasles_2 f a); [lra|exact X]).
      rewrite <- (RInt_Chasles f a (a + INR k * w) (a + INR (S k) * w)) by assumption. change plus with Rplus. cbn [rsum].
      set (c := a + (INR k + / 2) * w).
      assert (C1 : a + INR k * w = c - w / 2) by (unfold c; field). assert (C2 : a + INR (S k) * w = c + w / 2) by (unfold c; rewrite S_INR; field).
      pose proof (cell_error f c (w / 2) L ltac:(lra) HL) as Q. rewrite <- C1, <- C2 in Q. specialize (Q X3).
      replace (2 * (w / 2)) with w in Q by field. rewrite (S_INR k) at 2.
      match goal with |- Rabs (?p + ?q - (?r + ?s)) <= _ => replace (p + q - (r + s)) with ((p - r) + (q - s)) by ring end.
      apply Rle_trans with (1 := Rabs_triang _ _). rewrite Rmult_plus_distr_r, Rmult_1_l. apply Rplus_le_compat; [exact X2|]. apply Q.
      intros x Hx. apply H; lra. }
  destruct (G n (le_n n)) as (_ & X). rewrite Wn in X. unfold midpoints. fold w. apply Rle_trans with (1 := X). right. unfold w. field. lra.
Qed.

(** ** In log10 nu *)
Lemma pow10_derive y : is_derive pow10 y (ln 10 * pow10 y).
Proof. unfold pow10, Rpower. auto_derive; [trivial|]. ring. Qed.
Lemma pow10_continuous y : continuous pow10 y.
Proof. apply (ex_derive_continuous pow10). eexists. apply pow10_derive. Qed.
Lemma ln10_bounds : 0 < ln 10 < 4.
Proof.
  split; [rewrite <- ln_1; apply ln_increasing; lra|]. rewrite <- (ln_exp 4). apply ln_increasing; [lra|].
  pose proof (exp_ineq1 1 ltac:(lra)) as E. replace (exp 4) with (exp 1 * exp 1 * exp 1 * exp 1) by (rewrite <- !exp_plus; f_equal; lra).
  set (e := exp 1) in *. assert (4 < e * e) by nra. nra.
Qed.
(** the integrand in y = log10 nu of an integrand in nu *)
Definition in_logs (f : R -> R) (y : R) : R := f (pow10 y) * pow10 y.
Lemma average_midpoints weight l N f : (0 < N)%Z ->
  average_sum weight l N f = midpoints (in_logs (fun nu => f nu * weight nu)) (fst l) (snd l) (Z.to_nat N).
Proof.
  intros HN. unfold average_sum, midpoints, quad, in_logs, frequency, cell_width.
  assert (E : INR (Z.to_nat N) = IZR N) by (rewrite INR_IZR_INZ, Z2Nat.id; [reflexivity|lia]). rewrite E.
  apply rsum_ext. intros i _. ring.
Qed.
Lemma logs_RInt f a b : (forall y, a <= y <= b -> continuous f (pow10 y)) -> a <= b ->
  is_RInt (in_logs f) a b (RInt f (pow10 a) (pow10 b) / ln 10).
Proof.
  intros H Hab. pose proof ln10_bounds as L.
  assert (E : is_RInt (fun y => scal (ln 10 * pow10 y) (f (pow10 y))) a b (RInt f (pow10 a) (pow10 b))).
  { apply (is_RInt_comp f pow10 (fun y => ln 10 * pow10 y)); rewrite Rmin_left, Rmax_right by lra; [exact H|].
    intros y _. split; [apply pow10_derive|]. apply (continuous_scal_r (ln 10) pow10). apply pow10_continuous. }
  apply (is_RInt_scal _ _ _ (/ ln 10)) in E. unfold scal in E; cbn in E; unfold mult in E; cbn in E.
  replace (RInt f (pow10 a) (pow10 b) / ln 10) with (/ ln 10 * RInt f (pow10 a) (pow10 b)) by (unfold Rdiv; ring).
  refine (is_RInt_ext _ _ _ _ _ _ E). intros y _. unfold in_logs. match goal with |- ?x = ?z => change (@eq R x z) end. field. lra.
Qed.

(** An integrand continuous on both sides of c. *)
Definition pieces (c : R) (f f1 f2 : R -> R) : Prop :=
  (forall x, 0 < x -> x < c -> f x = f1 x) /\ (forall x, 0 < x -> c < x -> f x = f2 x) /\
  (forall x, 0 < x -> continuous f1 x) /\ (forall x, 0 < x -> continuous f2 x).
Lemma pow10_lt x y : x < y <-> pow10 x < pow10 y.
Proof.
  assert (G : forall x y, x < y -> pow10 x < pow10 y) by (intros; unfold pow10; apply Rpower_lt; lra).
  split; [apply G|]. intros H. destruct (Rlt_dec x y) as [|Hn]; [assumption|]. exfalso. destruct (Rle_lt_or_eq_dec y x) as [K|K]; [lra| |subst; lra].
  apply G in K. lra.
Qed.
Lemma pieces_below c f f1 f2 a b : pieces c f f1 f2 -> a <= b -> pow10 b <= c ->
  ex_RInt f (pow10 a) (pow10 b) /\ is_RInt (in_logs f) a b (RInt f (pow10 a) (pow10 b) / ln 10).
Proof.
  intros (P1 & P2 & P3 & P4) Hab Hc.
  assert (Hp : pow10 a <= pow10 b). { destruct Hab as [H|H]; [left; now apply (proj1 (pow10_lt _ _))|right; now subst]. }
  assert (E : is_RInt f (pow10 a) (pow10 b) (RInt f1 (pow10 a) (pow10 b))).
  { apply is_RInt_ext with f1.
    - rewrite Rmin_left, Rmax_right by lra. intros x Hx. pose proof (pow10_pos a). symmetry. apply P1; lra.
    - apply (RInt_correct f1). apply (ex_RInt_continuous f1). rewrite Rmin_left, Rmax_right by lra. intros x Hx. pose proof (pow10_pos a). apply P3. lra. }
  split; [eexists; exact E|]. rewrite (is_RInt_unique _ _ _ _ E).
  apply is_RInt_ext with (in_logs f1); [|apply logs_RInt; [intros; apply P3, pow10_pos|exact Hab]].
  rewrite Rmin_left, Rmax_right by lra. intros y Hy. unfold in_logs. symmetry. f_equal. apply P1; [apply pow10_pos|].
  apply Rlt_le_trans with (pow10 b); [|exact Hc]. now apply (proj1 (pow10_lt _ _)).
Qed.
Lemma pieces_above c f f1 f2 a b : pieces c f f1 f2 -> a <= b -> c <= pow10 a ->
  ex_RInt f (pow10 a) (pow10 b) /\ is_RInt (in_logs f) a b (RInt f (pow10 a) (pow10 b) / ln 10).
Proof.
  intros (P1 & P2 & P3 & P4) Hab Hc.
  assert (Hp : pow10 a <= pow10 b). { destruct Hab as [H|H]; [left; now apply (proj1 (pow10_lt _ _))|right; now subst]. }
  assert (E : is_RInt f (pow10 a) (pow10 b) (RInt f2 (pow10 a) (pow10 b))).
  { apply is_RInt_ext with f2.
    - rewrite Rmin_left, Rmax_right by lra. intros x Hx. pose proof (pow10_pos a). symmetry. apply P2; lra.
    - apply (RInt_correct f2). apply (ex_RInt_continuous f2). rewrite Rmin_left, Rmax_right by lra. intros x Hx. pose proof (pow10_pos a). apply P4. lra. }
  split; [eexists; exact E|]. rewrite (is_RInt_unique _ _ _ _ E).
  apply is_RInt_ext with (in_logs f2); [|apply logs_RInt; [intros; apply P4, pow10_pos|exact Hab]].
  rewrite Rmin_left, Rmax_right by lra. intros y Hy. unfold in_logs. symmetry. f_equal. apply P2; [apply pow10_pos|].
  apply Rle_lt_trans with (pow10 a); [exact Hc|]. now apply (proj1 (pow10_lt _ _)).
Qed.
Lemma pieces_RInt c f f1 f2 a b : pieces c f f1 f2 -> a <= b -> 0 < c ->
  ex_RInt f (pow10 a) (pow10 b) /\ is_RInt (in_logs f) a b (RInt f (pow10 a) (pow10 b) / ln 10).
Proof.
  intros P Hab Hc. destruct (Rle_dec (pow10 b) c) as [K|K]; [exact (pieces_below c f f1 f2 a b P Hab K)|].
  destruct (Rle_dec c (pow10 a)) as [K'|K']; [exact (pieces_above c f f1 f2 a b P Hab K')|].
  set (m := log10 c). assert (Em : pow10 m = c) by now apply pow10_log10.
  assert (M1 : a < m) by (apply (proj2 (pow10_lt _ _)); lra). assert (M2 : m < b) by (apply (proj2 (pow10_lt _ _)); lra).
  destruct (pieces_below c f f1 f2 a m P) as (X1 & Y1); [lra|lra|]. destruct (pieces_above c f f1 f2 m b P) as (X2 & Y2); [lra|lra|].
  split; [exact (ex_RInt_Chasles _ _ _ _ X1 X2)|]. rewrite <- (RInt_Chasles f _ _ _ X1 X2). change plus with Rplus. rewrite Rdiv_plus_distr.
  exact (is_RInt_Chasles _ _ _ _ _ _ Y1 Y2).
Qed.

(** The samples of a refined average converge. *)
Lemma average_converges weight f c f1 f2 l : fst l < snd l -> 0 < c -> pieces c (fun nu => f nu * weight nu) f1 f2 ->
  forall eps, 0 < eps -> exists n0, forall N, (n0 <= N)%Z ->
  Rabs (average_sum weight l N f - RInt (fun nu => f nu * weight nu) (pow10 (fst l)) (pow10 (snd l)) / ln 10) <= eps.
Proof.
  intros Hl Hc HP eps He. destruct (pieces_RInt c _ f1 f2 (fst l) (snd l) HP ltac:(lra) Hc) as (_ & E).
  destruct (midpoints_converge _ _ _ _ Hl E eps He) as (n0 & H). exists (Z.of_nat n0 + 1)%Z. intros N HN. rewrite average_midpoints by lia. apply H. lia.
Qed.
