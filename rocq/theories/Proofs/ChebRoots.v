(** Rational enclosures of the zeros of T_n and of T_i at them, by integer computation. *)
From Coq Require Import Reals ZArith List Lia Lra Arith Bool FunctionalExtensionality.
From Verif Require Import Spec.Means Spec.Chebyshev Proofs.MeanExact Proofs.ChebFacts.
Import ListNotations.
Open Scope R_scope.

(** how T_i moves with its argument on [-1, 1] *)
Lemma cheb_bound n x : -1 <= x <= 1 -> Rabs (cheb n x) <= 1.
Proof.
  intros H. rewrite <- (cos_acos x H), cheb_cos. apply Rabs_le. apply COS_bound.
Qed.
Lemma cheb_lipschitz n x y : -1 <= x <= 1 -> -1 <= y <= 1 ->
  Rabs (cheb n x - cheb n y) <= 3 ^ n * Rabs (x - y).
Proof.
  intros Hx Hy. set (e := Rabs (x - y)). assert (He : 0 <= e) by apply Rabs_pos.
  assert (H : Rabs (cheb n x - cheb n y) <= 3 ^ n * e /\ Rabs (cheb (S n) x - cheb (S n) y) <= 3 ^ (S n) * e).
  { induction n as [|n [IH1 IH2]].
    - cbn [cheb pow]. rewrite Rminus_eq_0, Rabs_R0. fold e. lra.
    - split; [exact IH2|]. rewrite !cheb_SS.
      replace (2 * x * cheb (S n) x - cheb n x - (2 * y * cheb (S n) y - cheb n y))
        with (2 * x * (cheb (S n) x - cheb (S n) y) + 2 * (x - y) * cheb (S n) y - (cheb n x - cheb n y)) by ring.
      set (A := cheb (S n) x - cheb (S n) y) in *. set (B := cheb n x - cheb n y) in *.
      assert (Q : Rabs (cheb (S n) y) <= 1) by (apply cheb_bound; exact Hy). set (C := cheb (S n) y) in *.
      assert (X : Rabs x <= 1) by (apply Rabs_le; lra).
      assert (HA : Rabs (2 * x * A) <= 2 * (3 ^ S n * e)).
      { rewrite !Rabs_mult, (Rabs_right 2) by lra. rewrite Rmult_assoc.
        apply Rmult_le_compat_l; [lra|]. rewrite <- (Rmult_1_l (3 ^ S n * e)).
        apply Rmult_le_compat; try apply Rabs_pos; assumption. }
      assert (HC : Rabs (2 * (x - y) * C) <= 2 * e).
      { rewrite !Rabs_mult, (Rabs_right 2) by lra. fold e.
        rewrite <- (Rmult_1_r (2 * e)) at 2. apply Rmult_le_compat_l; [lra|exact Q]. }
      assert (P1 : 1 <= 3 ^ n) by (apply pow_R1_Rle; lra).
      assert (e <= 3 ^ n * e) by (rewrite <- (Rmult_1_l e) at 1; apply Rmult_le_compat_r; lra).
      cbn [pow] in *.
      pose proof (Rabs_triang (2 * x * A + 2 * (x - y) * C) (- B)) as T1.
      pose proof (Rabs_triang (2 * x * A) (2 * (x - y) * C)) as T2. rewrite Rabs_Ropp in T1.
      unfold Rminus at 1. lra. }
  apply H.
Qed.

(** s T_n (p / s) in integers, rounded at each step *)
Fixpoint chebF2 (n : nat) (p s : Z) : Z * Z :=
  match n with
  | O => (s, p)%Z
  | S k => let (a, b) := chebF2 k p s in (b, 2 * p * b / s - a)%Z
  end.
Definition chebF (n : nat) (p s : Z) : Z := fst (chebF2 n p s).

Lemma chebF2_spec n p s : (0 < s)%Z -> (- s <= p <= s)%Z ->
  Rabs (IZR (fst (chebF2 n p s)) - IZR s * cheb n (IZR p / IZR s)) <= 3 ^ n /\
  Rabs (IZR (snd (chebF2 n p s)) - IZR s * cheb (S n) (IZR p / IZR s)) <= 3 ^ (S n).
Proof.
  intros Hs Hp. assert (HS : 0 < IZR s) by (apply (IZR_lt 0); exact Hs).
  induction n as [|n [IH1 IH2]].
  - cbn [chebF2 fst snd cheb pow]. split.
    + replace (IZR s - IZR s * 1) with 0 by ring. rewrite Rabs_R0. lra.
    + replace (IZR p - IZR s * (IZR p / IZR s)) with 0 by (field; lra). rewrite Rabs_R0. lra.
  - cbn [chebF2]. destruct (chebF2 n p s) as [a b]. cbn [fst snd] in *. split; [exact IH2|].
    set (x := IZR p / IZR s) in *. rewrite cheb_SS.
    assert (Hx : Rabs x <= 1).
    { apply Rabs_le. unfold x. split; apply Rmult_le_reg_r with (IZR s); try exact HS;
        unfold Rdiv; rewrite Rmult_assoc, Rinv_l, Rmult_1_r by lra.
      - replace (- (1) * IZR s) with (IZR (- s)) by (rewrite opp_IZR; ring). apply IZR_le. lia.
      - rewrite Rmult_1_l. apply IZR_le. lia. }
    set (q := (2 * p * b / s)%Z).
    assert (Q : - 1 <= IZR q - 2 * x * IZR b <= 0).
    { pose proof (Z.div_mod (2 * p * b) s ltac:(lia)) as E. fold q in E.
      pose proof (Z.mod_pos_bound (2 * p * b) s Hs) as M. set (r := ((2 * p * b) mod s)%Z) in *.
      assert (E' : 2 * IZR p * IZR b = IZR s * IZR q + IZR r) by (rewrite <- !mult_IZR, <- plus_IZR, E; reflexivity).
      assert (M' : 0 <= IZR r <= IZR s) by (split; apply IZR_le; lia).
      replace (IZR q - 2 * x * IZR b) with (- (IZR r / IZR s)).
      2:{ unfold x. replace (2 * (IZR p / IZR s) * IZR b) with (2 * IZR p * IZR b / IZR s) by (field; lra). rewrite E'. field. lra. }
      assert (0 <= IZR r / IZR s <= 1); [|lra]. split.
      - apply Rmult_le_pos; [lra|left; apply Rinv_0_lt_compat; exact HS].
      - apply Rmult_le_reg_r with (IZR s); [exact HS|]. unfold Rdiv. rewrite Rmult_assoc, Rinv_l by lra. lra. }
    rewrite minus_IZR.
    set (A := IZR a - IZR s * cheb n x) in *. set (B := IZR b - IZR s * cheb (S n) x) in *.
    replace (IZR q - IZR a - IZR s * (2 * x * cheb (S n) x - cheb n x))
      with ((IZR q - 2 * x * IZR b) + 2 * x * B + - A) by (unfold A, B; ring).
    eapply Rle_trans; [apply Rabs_triang|]. rewrite Rabs_Ropp.
    pose proof (Rabs_triang (IZR q - 2 * x * IZR b) (2 * x * B)) as T.
    assert (T1 : Rabs (IZR q - 2 * x * IZR b) <= 1) by (apply Rabs_le; lra).
    assert (T2 : Rabs (2 * x * B) <= 2 * 3 ^ S n).
    { rewrite !Rabs_mult, (Rabs_right 2), Rmult_assoc by lra. apply Rmult_le_compat_l; [lra|].
      rewrite <- (Rmult_1_l (3 ^ S n)). apply Rmult_le_compat; try apply Rabs_pos; assumption. }
    assert (1 <= 3 ^ n) by (apply pow_R1_Rle; lra). cbn [pow] in *. lra.
Qed.
Lemma chebF_spec n p s : (0 < s)%Z -> (- s <= p <= s)%Z ->
  Rabs (IZR (chebF n p s) - IZR s * cheb n (IZR p / IZR s)) <= 3 ^ n.
Proof. intros Hs Hp. apply (chebF2_spec n p s Hs Hp). Qed.

Lemma peval_cont p : continuity (peval p).
Proof.
  induction p as [|a p IH]; cbn [peval].
  - apply continuity_const. intros x y. reflexivity.
  - apply (continuity_plus (fun _ => a) (fun x => x * peval p x)).
    + apply continuity_const. intros x y. reflexivity.
    + apply (continuity_mult (fun x => x) (peval p)); [|exact IH].
      apply derivable_continuous. apply derivable_id.
Qed.
Lemma cheb_cont n : continuity (cheb n).
Proof.
  destruct (cheb_poly n) as [p [_ Hp]].
  replace (cheb n) with (peval p) by (apply functional_extensionality; exact Hp). apply peval_cont.
Qed.

(** a strictly increasing map of {0 ... n-1} into itself is the identity *)
Lemma increasing_id n (f : nat -> nat) :
  (forall i, (i < n)%nat -> (f i < n)%nat) -> (forall i, (S i < n)%nat -> (f i < f (S i))%nat) ->
  forall i, (i < n)%nat -> f i = i.
Proof.
  intros Hr Hi.
  assert (Lo : forall i, (i < n)%nat -> (i <= f i)%nat).
  { induction i as [|i IH]; intros H; [lia|]. specialize (IH ltac:(lia)). specialize (Hi i H). lia. }
  assert (Up : forall k i, (i + k = n - 1)%nat -> (i < n)%nat -> (f i <= i)%nat).
  { induction k as [|k IH]; intros i E H; [specialize (Hr i H); lia|].
    specialize (IH (S i) ltac:(lia) ltac:(lia)). specialize (Hi i ltac:(lia)). lia. }
  intros i H. specialize (Lo i H). specialize (Up (n - 1 - i)%nat i ltac:(lia) H). lia.
Qed.

(** the numbers p_j / s enclose the zeros within w / s: signs change around each, and they are
    in order *)
Definition sign_change (n : nat) (s w p : Z) : bool :=
  let t := (3 ^ Z.of_nat n)%Z in
  let l := chebF n (p - w) s in
  let r := chebF n (p + w) s in
  ((l <=? - t) && (t <=? r) || (t <=? l) && (r <=? - t))%Z.
Fixpoint ordered (w : Z) (l : list Z) : bool :=
  match l with
  | a :: (b :: _) as r => (a + 2 * w <? b)%Z && ordered w r
  | _ => true
  end.
Definition encloses (n : nat) (s w : Z) (l : list Z) : bool :=
  (0 <? s)%Z && (0 <=? w)%Z && (length l =? n)%nat && forallb (sign_change n s w) l && ordered w l &&
  forallb (fun p => (- s <=? p - w) && (p + w <=? s))%Z l.

Lemma ordered_nth w l : ordered w l = true -> forall i, (S i < length l)%nat -> (nth i l 0 + 2 * w < nth (S i) l 0)%Z.
Proof.
  induction l as [|a [|b l] IH]; intros H i Hi; cbn in Hi; try lia.
  cbn [ordered] in H. apply andb_true_iff in H. destruct H as [H1 H2].
  destruct i as [|i]; [cbn [nth]; apply Z.ltb_lt in H1; lia|]. apply (IH H2 i). cbn. lia.
Qed.

Lemma IZR_div_le (a b s : Z) : (0 < s)%Z -> (a <= b)%Z -> IZR a / IZR s <= IZR b / IZR s.
Proof.
  intros Hs H. apply Rmult_le_compat_r; [left; apply Rinv_0_lt_compat; apply (IZR_lt 0); exact Hs|].
  apply IZR_le. exact H.
Qed.
Lemma IZR_div_lt (a b s : Z) : (0 < s)%Z -> (a < b)%Z -> IZR a / IZR s < IZR b / IZR s.
Proof.
  intros Hs H. apply Rmult_lt_compat_r; [apply Rinv_0_lt_compat; apply (IZR_lt 0); exact Hs|].
  apply IZR_lt. exact H.
Qed.

Lemma encloses_spec n s w l : encloses n s w l = true -> forall j, (j < n)%nat ->
  Rabs (zero n j - IZR (nth j l 0%Z) / IZR s) <= IZR w / IZR s /\
  (- s <= nth j l 0 <= s)%Z /\ (0 < s)%Z.
Proof.
  intros H. unfold encloses in H. repeat rewrite andb_true_iff in H. destruct H as [[[[[Hs Hw] Hl] Hc] Ho] Hb].
  apply Z.ltb_lt in Hs. apply Z.leb_le in Hw. apply Nat.eqb_eq in Hl.
  rewrite forallb_forall in Hc, Hb.
  assert (Hin : forall j, (j < n)%nat -> In (nth j l 0%Z) l) by (intros; apply nth_In; lia).
  set (p := fun j => nth j l 0%Z) in *.
  assert (Bd : forall j, (j < n)%nat -> (- s <= p j - w /\ p j + w <= s)%Z).
  { intros j Hj. specialize (Hb _ (Hin j Hj)). apply andb_true_iff in Hb. destruct Hb as [b1 b2].
    apply Z.leb_le in b1. apply Z.leb_le in b2. fold (p j) in b1, b2. lia. }
  assert (HS : 0 < IZR s) by (apply (IZR_lt 0); exact Hs).
  assert (Sgn : forall q, (- s <= q <= s)%Z ->
    ((3 ^ Z.of_nat n <= chebF n q s)%Z -> 0 <= cheb n (IZR q / IZR s)) /\
    ((chebF n q s <= - 3 ^ Z.of_nat n)%Z -> cheb n (IZR q / IZR s) <= 0)).
  { intros q Hq. pose proof (chebF_spec n q s Hs Hq) as B.
    assert (B' : - 3 ^ n <= IZR (chebF n q s) - IZR s * cheb n (IZR q / IZR s) <= 3 ^ n)
      by (unfold Rabs in B; destruct (Rcase_abs _) in B; lra).
    assert (P3 : IZR (3 ^ Z.of_nat n) = 3 ^ n) by (rewrite <- pow_IZR; reflexivity).
    split; intros H; apply IZR_le in H; [|rewrite opp_IZR in H]; rewrite P3 in H.
    - apply Rmult_le_reg_l with (IZR s); [exact HS|]. rewrite Rmult_0_r. lra.
    - apply Rmult_le_reg_l with (IZR s); [exact HS|]. rewrite Rmult_0_r. lra. }
  assert (Root : forall j, (j < n)%nat -> exists k, (k < n)%nat /\
            IZR (p j - w) / IZR s <= zero n k <= IZR (p j + w) / IZR s).
  { intros j Hj. specialize (Hc _ (Hin j Hj)). unfold sign_change in Hc. cbv zeta in Hc. fold (p j) in Hc.
    destruct (IVT_cor (cheb n) (IZR (p j - w) / IZR s) (IZR (p j + w) / IZR s)) as [z [Hz Ez]].
    - apply cheb_cont.
    - apply IZR_div_le; [exact Hs|lia].
    - specialize (Bd j Hj).
      destruct (Sgn (p j - w)%Z ltac:(lia)) as [L1 L2]. destruct (Sgn (p j + w)%Z ltac:(lia)) as [R1 R2].
      apply orb_true_iff in Hc. destruct Hc as [Hc|Hc]; apply andb_true_iff in Hc; destruct Hc as [c1 c2];
        apply Z.leb_le in c1; apply Z.leb_le in c2.
      + specialize (L2 c1). specialize (R1 c2).
        rewrite <- (Rmult_0_l (cheb n (IZR (p j + w) / IZR s))). apply Rmult_le_compat_r; assumption.
      + specialize (L1 c1). specialize (R2 c2).
        rewrite <- (Rmult_0_r (cheb n (IZR (p j - w) / IZR s))). apply Rmult_le_compat_l; assumption.
    - apply cheb_zero_only in Ez. destruct Ez as [k [Hk ->]]. exists k. auto. }
  assert (Choice : exists f : nat -> nat, forall j, (j < n)%nat -> (f j < n)%nat /\
            IZR (p j - w) / IZR s <= zero n (f j) <= IZR (p j + w) / IZR s).
  { clear - Root. 
    assert (G : forall m, (m <= n)%nat -> exists f : nat -> nat, forall j, (j < m)%nat -> (f j < n)%nat /\
            IZR (p j - w) / IZR s <= zero n (f j) <= IZR (p j + w) / IZR s).
    { induction m as [|m IH]; intros Hm; [exists (fun j => j); intros; lia|].
      destruct (IH ltac:(lia)) as [f Hf]. destruct (Root m ltac:(lia)) as [k Hk].
      exists (fun j => if (j =? m)%nat then k else f j). intros j Hj.
      destruct (Nat.eqb_spec j m) as [->|Hne]; [exact Hk|apply Hf; lia]. }
    apply (G n). lia. }
  destruct Choice as [f Hf].
  assert (Id : forall i, (i < n)%nat -> f i = i).
  { apply increasing_id; [intros i Hi; apply Hf; exact Hi|]. intros i Hi.
    destruct (Hf i ltac:(lia)) as [F1 [_ B1]]. destruct (Hf (S i) Hi) as [F2 [B2 _]].
    pose proof (ordered_nth w l Ho i ltac:(lia)) as Hlt. fold (p i) (p (S i)) in Hlt.
    assert (IZR (p i + w) / IZR s < IZR (p (S i) - w) / IZR s) by (apply IZR_div_lt; [exact Hs|lia]).
    destruct (lt_eq_lt_dec (f i) (f (S i))) as [[?|E]|L]; [assumption|rewrite E in *; lra|].
    pose proof (zero_incr n _ _ L F1). lra. }
  intros j Hj. destruct (Hf j Hj) as [_ B]. rewrite (Id j Hj) in B.
  fold (p j). rewrite minus_IZR, plus_IZR in B. unfold Rdiv in B. rewrite Rmult_minus_distr_r, Rmult_plus_distr_r in B.
  split; [apply Rabs_le; unfold Rdiv; lra|]. specialize (Bd j Hj). split; [lia|exact Hs].
Qed.

(** all degrees below n at once *)
Fixpoint chebL (n : nat) (p s a b : Z) : list Z :=
  match n with O => [] | S k => a :: chebL k p s b (2 * p * b / s - a)%Z end.
Lemma chebL_nth n p s : forall i k, (i < n)%nat ->
  nth i (chebL n p s (fst (chebF2 k p s)) (snd (chebF2 k p s))) 0%Z = chebF (k + i) p s.
Proof.
  induction n as [|n IH]; intros i k Hi; [lia|]. cbn [chebL]. destruct i as [|i].
  - rewrite Nat.add_0_r. reflexivity.
  - cbn [nth]. replace (k + S i)%nat with (S k + i)%nat by lia. rewrite <- (IH i (S k)) by lia.
    cbn [chebF2]. destruct (chebF2 k p s) as [a b]. reflexivity.
Qed.
