(** Facts about Chebyshev polynomials: roots, discrete orthogonality, interpolation. *)
From Coq Require Import Reals ZArith List Lia Lra Arith.
From Verif Require Import Spec.Means Spec.Chebyshev Proofs.MeanExact.
Import ListNotations.
Open Scope R_scope.

Lemma cheb_SS n x : cheb (S (S n)) x = 2 * x * cheb (S n) x - cheb n x.
Proof. reflexivity. Qed.

Lemma cheb_cos n t : cheb n (cos t) = cos (INR n * t).
Proof.
  assert (H : cheb n (cos t) = cos (INR n * t) /\ cheb (S n) (cos t) = cos (INR (S n) * t)).
  { induction n as [|n [IH1 IH2]].
    - split; cbn [cheb]; [rewrite Rmult_0_l, cos_0|change (INR 1) with 1; rewrite Rmult_1_l]; reflexivity.
    - split; [exact IH2|]. rewrite cheb_SS, IH1, IH2, !S_INR.
      replace ((INR n + 1 + 1) * t) with ((INR n + 1) * t + t) by ring.
      replace (INR n * t) with ((INR n + 1) * t - t) by ring.
      rewrite cos_plus, cos_minus. ring. }
  apply H.
Qed.

Lemma cheb_one n : cheb n 1 = 1.
Proof. rewrite <- cos_0, cheb_cos, Rmult_0_r, cos_0. reflexivity. Qed.

(** * Polynomials *)

Fixpoint padd (p q : list R) : list R :=
  match p, q with
  | [], _ => q
  | _, [] => p
  | a :: p, b :: q => (a + b) :: padd p q
  end.
Definition pscal (c : R) (p : list R) : list R := map (Rmult c) p.

Lemma peval_add p : forall q x, peval (padd p q) x = peval p x + peval q x.
Proof. induction p as [|a p IH]; intros [|b q] x; cbn; try rewrite IH; ring. Qed.
Lemma padd_length p : forall q, length (padd p q) = Nat.max (length p) (length q).
Proof. induction p as [|a p IH]; intros [|b q]; cbn; try rewrite IH; lia. Qed.
Lemma peval_scal c p x : peval (pscal c p) x = c * peval p x.
Proof. induction p as [|a p IH]; cbn; [ring|]. unfold pscal in IH. rewrite IH. ring. Qed.
Lemma pscal_length c p : length (pscal c p) = length p.
Proof. apply map_length. Qed.

(** p (alpha t + beta) as a polynomial in t *)
Fixpoint paffine (al be : R) (p : list R) : list R :=
  match p with
  | [] => []
  | a :: q => let r := paffine al be q in padd [a] (padd (0 :: pscal al r) (pscal be r))
  end.
Lemma peval_affine al be p t : peval (paffine al be p) t = peval p (al * t + be).
Proof.
  induction p as [|a q IH]; cbn [paffine]; [reflexivity|].
  rewrite !peval_add. cbn [peval]. rewrite !peval_scal, IH. ring.
Qed.
Lemma paffine_length al be p : length (paffine al be p) = length p.
Proof.
  induction p as [|a q IH]; cbn [paffine]; [reflexivity|].
  rewrite !padd_length. cbn [length]. rewrite !pscal_length, IH. lia.
Qed.

(** division by x - r *)
Lemma divide r : forall p, exists q, length q = pred (length p) /\
  forall x, peval p x = peval p r + (x - r) * peval q x.
Proof.
  intros p. induction p as [|a p [q [Hl Hq]]].
  - exists []. split; [reflexivity|]. intros; cbn; ring.
  - destruct p as [|b p].
    + exists []. split; [reflexivity|]. intros; cbn; ring.
    + exists (peval (b :: p) r :: q). split; [cbn in *; lia|].
      intros x. cbn [peval] in *. rewrite (Hq x). ring.
Qed.

Lemma too_many_roots n : forall p (f : nat -> R), (length p <= n)%nat ->
  (forall i j, (i < n)%nat -> (j < n)%nat -> f i = f j -> i = j) ->
  (forall i, (i < n)%nat -> peval p (f i) = 0) -> forall x, peval p x = 0.
Proof.
  induction n as [|n IH]; intros p f Hl Hi Hr x.
  - destruct p; [reflexivity|cbn in Hl; lia].
  - destruct (divide (f n) p) as [q [Hq E]].
    assert (Z : peval p (f n) = 0) by (apply Hr; lia).
    rewrite E, Z, (IH q f); [ring|lia|intros i j Hi1 Hj1; apply Hi; lia|].
    intros i Hin. specialize (Hr i). rewrite E, Z in Hr.
    assert (f i <> f n) by (intro Heq; apply Hi in Heq; lia).
    assert (H2 : (f i - f n) * peval q (f i) = 0) by (rewrite Rplus_0_l in Hr; apply Hr; lia).
    apply Rmult_integral in H2. destruct H2; [lra|assumption].
Qed.

Lemma cheb_poly n : exists p, (length p = S n)%nat /\ forall x, peval p x = cheb n x.
Proof.
  assert (H : (exists p, (length p = S n)%nat /\ forall x, peval p x = cheb n x) /\
              (exists p, (length p = S (S n))%nat /\ forall x, peval p x = cheb (S n) x)).
  { induction n as [|n [[p [Hp Ep]] [q [Hq Eq]]]].
    - split; [exists [1]|exists [0; 1]]; (split; [reflexivity|intros x; cbn; ring]).
    - split; [exists q; auto|].
      exists (padd (0 :: pscal 2 q) (pscal (-1) p)). split.
      + rewrite padd_length. cbn [length]. rewrite !pscal_length. lia.
      + intros x. rewrite peval_add. cbn [peval]. rewrite !peval_scal, Ep, Eq, cheb_SS. ring. }
  apply H.
Qed.

Lemma series_poly n c : exists p, (length p <= n)%nat /\ forall x, peval p x = series n c x.
Proof.
  induction n as [|n [p [Hp Ep]]].
  - exists []. split; [cbn; lia|reflexivity].
  - destruct (cheb_poly n) as [q [Hq Eq]]. exists (padd p (pscal (c n) q)). split.
    + rewrite padd_length, pscal_length. lia.
    + intros x. unfold series in *. cbn [rsum]. rewrite peval_add, peval_scal, Ep, Eq. reflexivity.
Qed.

(** * The zeros *)

Definition angle (n j : nat) : R := (2 * INR j + 1) * PI / (2 * INR n).

Lemma angle_range n j : (j < n)%nat -> 0 < angle n j < PI.
Proof.
  intros Hj. pose proof PI_RGT_0 as HP. unfold angle.
  assert (H1 : INR j + 1 <= INR n) by (rewrite <- S_INR; apply le_INR; lia).
  assert (H0 : 0 <= INR j) by apply pos_INR.
  split.
  - apply Rdiv_lt_0_compat; [apply Rmult_lt_0_compat|]; lra.
  - apply Rmult_lt_reg_r with (2 * INR n); [lra|].
    unfold Rdiv. rewrite Rmult_assoc, Rinv_l, Rmult_1_r by lra.
    rewrite (Rmult_comm PI). apply Rmult_lt_compat_r; lra.
Qed.

Lemma angle_incr n i j : (i < j)%nat -> (j < n)%nat -> angle n i < angle n j.
Proof.
  intros Hij Hj. pose proof PI_RGT_0 as HP. unfold angle, Rdiv.
  assert (INR i < INR j) by (apply lt_INR; lia).
  assert (0 < INR n) by (apply lt_0_INR; lia).
  apply Rmult_lt_compat_r; [apply Rinv_0_lt_compat; lra|].
  apply Rmult_lt_compat_r; lra.
Qed.

Lemma zero_incr n i j : (i < j)%nat -> (j < n)%nat -> zero n i < zero n j.
Proof.
  intros Hij Hj. unfold zero. change (- cos (angle n i) < - cos (angle n j)).
  pose proof (angle_range n i ltac:(lia)). pose proof (angle_range n j Hj).
  pose proof (angle_incr n i j Hij Hj).
  apply Ropp_lt_contravar. apply cos_decreasing_1; lra.
Qed.
Lemma zero_inj n i j : (i < n)%nat -> (j < n)%nat -> zero n i = zero n j -> i = j.
Proof.
  intros Hi Hj E. destruct (lt_eq_lt_dec i j) as [[H|H]|H]; [|exact H|];
  pose proof (zero_incr n _ _ H ltac:(lia)); lra.
Qed.
Lemma zero_range n j : (j < n)%nat -> -1 < zero n j < 1.
Proof.
  intros Hj. pose proof (angle_range n j Hj) as [H0 H1].
  unfold zero. fold (angle n j).
  assert (cos (angle n j) < cos 0) by (apply cos_decreasing_1; lra).
  assert (cos PI < cos (angle n j)) by (apply cos_decreasing_1; lra).
  rewrite cos_0 in *. rewrite cos_PI in *. lra.
Qed.

Lemma zero_cos n j : zero n j = cos (PI - angle n j).
Proof. unfold zero. fold (angle n j). rewrite cos_minus, cos_PI, sin_PI. ring. Qed.

Lemma cheb_zero n j : (j < n)%nat -> cheb n (zero n j) = 0.
Proof.
  intros Hj. rewrite zero_cos, cheb_cos.
  assert (Hn : INR n <> 0) by (apply not_0_INR; lia).
  apply cos_eq_0_1. exists (Z.of_nat n - Z.of_nat j - 1)%Z.
  rewrite !minus_IZR, <- !INR_IZR_INZ. unfold angle. field. exact Hn.
Qed.

(** T_n vanishes nowhere else on the real line *)
Lemma cheb_zero_only n x : cheb n x = 0 <-> exists j, (j < n)%nat /\ x = zero n j.
Proof.
  split; [|intros [j [Hj ->]]; apply cheb_zero; exact Hj].
  intros Hx.
  destruct (in_dec Req_EM_T x (map (zero n) (seq 0 n))) as [Hin|Hout].
  { apply in_map_iff in Hin. destruct Hin as [j [E Hj]]. apply in_seq in Hj.
    exists j. split; [lia|auto]. }
  exfalso. destruct (cheb_poly n) as [p [Hp Ep]].
  pose (f := fun i => if (i <? n)%nat then zero n i else x).
  assert (Hno : forall i, (i < n)%nat -> zero n i <> x).
  { intros i Hi E. apply Hout. apply in_map_iff. exists i. split; [exact E|apply in_seq; lia]. }
  assert (H1 : peval p 1 = 0).
  { apply (too_many_roots (S n) p f); [lia| |].
    - intros i j Hi Hj. unfold f. destruct (Nat.ltb_spec i n), (Nat.ltb_spec j n); intros E.
      + apply (zero_inj n); assumption.
      + exfalso; apply (Hno i); auto.
      + exfalso; apply (Hno j); auto.
      + lia.
    - intros i Hi. unfold f. rewrite Ep. destruct (Nat.ltb_spec i n); [apply cheb_zero; lia|exact Hx]. }
  rewrite Ep, cheb_one in H1. lra.
Qed.

(** * Discrete orthogonality *)

(** 1 + 2 sum cos (i phi) *)
Definition kernel (n : nat) (phi : R) : R :=
  rsum n (fun i => (if (i =? 0)%nat then 1 else 2) * cos (INR i * phi)).

Lemma kernel_sin n phi : (0 < n)%nat ->
  kernel n phi * sin (phi / 2) = sin ((INR n - / 2) * phi).
Proof.
  intros Hn. induction n as [|n IH]; [lia|].
  destruct n as [|n].
  - unfold kernel. cbn [rsum Nat.eqb]. change (INR 0) with 0. change (INR 1) with 1. rewrite Rmult_0_l, cos_0.
    replace ((1 - / 2) * phi) with (phi / 2) by field. ring.
  - unfold kernel in *. cbn [rsum Nat.eqb] in *. rewrite Rmult_plus_distr_r, IH by lia.
    rewrite !S_INR. set (m := INR n).
    replace ((m + 1 + 1 - / 2) * phi) with ((m + 1) * phi + phi / 2) by field.
    replace ((m + 1 - / 2) * phi) with ((m + 1) * phi - phi / 2) by field.
    rewrite sin_plus, sin_minus. ring.
Qed.

Lemma kernel_0 n : (0 < n)%nat -> kernel n 0 = 2 * INR n - 1.
Proof.
  intros Hn. induction n as [|n IH]; [lia|]. destruct n as [|n].
  - unfold kernel. cbn [rsum Nat.eqb]. rewrite Rmult_0_r, cos_0. change (INR 1) with 1. ring.
  - unfold kernel in *. cbn [rsum Nat.eqb] in *. rewrite IH by lia. rewrite Rmult_0_r, cos_0, !S_INR. ring.
Qed.

(** at multiples of pi / n the kernel is 1 or -1 *)
Lemma kernel_multiple n (m : Z) : (0 < n)%nat -> (0 < Z.abs m < 2 * Z.of_nat n)%Z ->
  kernel n (IZR m * PI / INR n) = - cos (IZR m * PI).
Proof.
  intros Hn Hm. set (phi := IZR m * PI / INR n).
  assert (HN : INR n <> 0) by (apply not_0_INR; lia).
  assert (Hs : sin (phi / 2) <> 0).
  { intros E. apply sin_eq_0_0 in E. destruct E as [k Hk]. unfold phi in Hk.
    assert (IZR m = IZR (2 * k * Z.of_nat n)).
    { rewrite !mult_IZR, <- INR_IZR_INZ. pose proof PI_RGT_0.
      apply Rmult_eq_reg_r with (PI / (2 * INR n)).
      - transitivity (IZR m * PI / INR n / 2); [field; exact HN|]. rewrite Hk. field. exact HN.
      - apply Rgt_not_eq. apply Rdiv_lt_0_compat; [lra|].
        assert (0 < INR n) by (apply lt_0_INR; lia). lra. }
    apply eq_IZR in H. assert (k = 0 \/ Z.abs k >= 1)%Z by lia. nia. }
  apply Rmult_eq_reg_r with (sin (phi / 2)); [|exact Hs].
  rewrite kernel_sin by exact Hn.
  replace ((INR n - / 2) * phi) with (IZR m * PI - phi / 2) by (unfold phi; field; exact HN).
  rewrite sin_minus.
  replace (sin (IZR m * PI)) with 0 by (symmetry; apply sin_eq_0_1; exists m; reflexivity). ring.
Qed.

Lemma cos_parity a b : Z.odd (a + b) = true -> cos (IZR a * PI) = - cos (IZR b * PI).
Proof.
  intros H. apply Z.odd_spec in H. destruct H as [k Hk].
  replace (IZR a * PI) with (- (IZR b * PI) + PI + 2 * IZR k * PI).
  - replace (cos (- (IZR b * PI) + PI + 2 * IZR k * PI)) with (cos (- (IZR b * PI) + PI)).
    + rewrite neg_cos, cos_neg. reflexivity.
    + rewrite (cos_plus (- (IZR b * PI) + PI)).
      replace (sin (2 * IZR k * PI)) with 0
        by (symmetry; apply sin_eq_0_1; exists (2 * k)%Z; rewrite mult_IZR; reflexivity).
      replace (2 * IZR k * PI) with (2 * (IZR k * PI)) by ring.
      rewrite cos_2a_sin.
      replace (sin (IZR k * PI)) with 0 by (symmetry; apply sin_eq_0_1; exists k; reflexivity). ring.
  - assert (E : IZR a + IZR b = 2 * IZR k + 1) by (rewrite <- plus_IZR, Hk, plus_IZR, mult_IZR; ring).
    replace (IZR a) with (2 * IZR k + 1 - IZR b) by lra. ring.
Qed.

(** sum over the degrees: the rows of the matrix are dual to the nodes *)
Lemma dct_dual n j k : (j < n)%nat -> (k < n)%nat ->
  rsum n (fun i => dct n i j * cheb i (zero n k)) = if (j =? k)%nat then 1 else 0.
Proof.
  intros Hj Hk.
  assert (HN : INR n <> 0) by (apply not_0_INR; lia).
  transitivity (/ (2 * INR n) *
    (kernel n (IZR (Z.of_nat k - Z.of_nat j) * PI / INR n) +
     kernel n (IZR (Z.of_nat j + Z.of_nat k + 1) * PI / INR n))).
  - unfold kernel. rewrite <- rsum_plus, <- rsum_scal. apply rsum_ext. intros i Hi.
    unfold dct. rewrite !zero_cos, !cheb_cos.
    set (w := if (i =? 0)%nat then 1 else 2).
    replace (IZR (Z.of_nat k - Z.of_nat j) * PI / INR n) with ((PI - angle n j) - (PI - angle n k)).
    2:{ rewrite minus_IZR, <- !INR_IZR_INZ. unfold angle. field. exact HN. }
    replace (cos (INR i * (IZR (Z.of_nat j + Z.of_nat k + 1) * PI / INR n)))
      with (cos (INR i * (PI - angle n j) + INR i * (PI - angle n k))).
    2:{ replace (INR i * (PI - angle n j) + INR i * (PI - angle n k))
          with (2 * INR i * PI - INR i * (IZR (Z.of_nat j + Z.of_nat k + 1) * PI / INR n)).
        2:{ rewrite !plus_IZR, <- !INR_IZR_INZ. unfold angle. field. exact HN. }
        rewrite cos_minus. replace (sin (2 * INR i * PI)) with 0.
        2:{ symmetry. apply sin_eq_0_1. exists (2 * Z.of_nat i)%Z. rewrite mult_IZR, <- INR_IZR_INZ. reflexivity. }
        replace (cos (2 * INR i * PI)) with 1; [ring|].
        symmetry. rewrite <- (Rplus_0_l (2 * INR i * PI)), cos_period. apply cos_0. }
    rewrite (Rmult_minus_distr_l (INR i) (PI - angle n j) (PI - angle n k)).
    rewrite cos_minus, cos_plus. field. exact HN.
  - destruct (Nat.eqb_spec j k) as [->|Hne].
    + rewrite Z.sub_diag. replace (IZR 0 * PI / INR n) with 0 by (field; exact HN).
      rewrite kernel_0, kernel_multiple by lia.
      assert (HN0 : 0 < INR n) by (apply lt_0_INR; lia).
      rewrite (cos_parity _ 0) by (rewrite Z.odd_spec; exists (Z.of_nat k); lia).
      rewrite Rmult_0_l, cos_0. field. exact HN.
    + rewrite !kernel_multiple by lia.
      rewrite (cos_parity (Z.of_nat k - Z.of_nat j) (Z.of_nat j + Z.of_nat k + 1))
        by (rewrite Z.odd_spec; exists (Z.of_nat k); lia).
      ring.
Qed.

Lemma rsum_swap n m (f : nat -> nat -> R) :
  rsum n (fun i => rsum m (fun j => f i j)) = rsum m (fun j => rsum n (fun i => f i j)).
Proof.
  induction n as [|n IH]; cbn [rsum].
  - induction m as [|m IH]; cbn [rsum]; [reflexivity|]. rewrite <- IH. ring.
  - rewrite IH, <- rsum_plus. reflexivity.
Qed.
Lemma rsum_pick n k f : (k < n)%nat ->
  rsum n (fun j => (if (j =? k)%nat then 1 else 0) * f j) = f k.
Proof.
  intros Hk. induction n as [|n IH]; [lia|]. cbn [rsum].
  destruct (Nat.eqb_spec n k) as [->|Hne].
  - replace (rsum k _) with 0; [ring|]. symmetry. clear.
    assert (H : forall m, (m <= k)%nat -> rsum m (fun j => (if (j =? k)%nat then 1 else 0) * f j) = 0).
    { induction m as [|m IH]; intros Hm; cbn [rsum]; [reflexivity|].
      rewrite IH by lia. destruct (Nat.eqb_spec m k); [lia|ring]. }
    apply H. lia.
  - rewrite IH by lia. ring.
Qed.

(** any matrix dual to the nodes interpolates *)
Lemma dual_interpolates n a (d : nat -> R) k : (k < n)%nat ->
  (forall j, (j < n)%nat -> rsum n (fun i => a i j * cheb i (zero n k)) = if (j =? k)%nat then 1 else 0) ->
  series n (transform n a d) (zero n k) = d k.
Proof.
  intros Hk Hd. unfold series, transform.
  rewrite (rsum_ext n _ (fun i => rsum n (fun j => a i j * cheb i (zero n k) * d j))).
  2:{ intros i Hi. rewrite Rmult_comm, <- rsum_scal. apply rsum_ext. intros; ring. }
  rewrite rsum_swap.
  rewrite (rsum_ext n _ (fun j => (if (j =? k)%nat then 1 else 0) * d j)).
  2:{ intros j Hj. rewrite <- (Hd j Hj), (Rmult_comm (rsum n _)), <- rsum_scal.
      apply rsum_ext. intros; ring. }
  apply rsum_pick. exact Hk.
Qed.

Lemma dct_interpolates n d k : (k < n)%nat -> series n (transform n (dct n) d) (zero n k) = d k.
Proof. intros Hk. apply dual_interpolates; [exact Hk|]. intros j Hj. apply dct_dual; assumption. Qed.

Lemma dct_polynomial n p : (length p <= n)%nat ->
  forall t, series n (transform n (dct n) (fun j => peval p (zero n j))) t = peval p t.
Proof.
  intros Hl t. set (c := transform n (dct n) _).
  destruct (series_poly n c) as [q [Hq Eq]].
  assert (H : peval (padd q (pscal (-1) p)) t = 0).
  { apply (too_many_roots n _ (zero n)).
    - rewrite padd_length, pscal_length. lia.
    - intros; apply (zero_inj n); assumption.
    - intros i Hi. rewrite peval_add, peval_scal, Eq. unfold c. rewrite dct_interpolates by exact Hi. ring. }
  rewrite peval_add, peval_scal, Eq in H. lra.
Qed.

(** * Cells *)
Lemma to_from a b t : a < b -> to_cell a b (from_cell a b t) = t.
Proof. intros. unfold to_cell, from_cell. field. lra. Qed.
Lemma from_to a b x : a < b -> from_cell a b (to_cell a b x) = x.
Proof. intros. unfold to_cell, from_cell. field. lra. Qed.
Lemma from_cell_incr a b s t : a < b -> s < t -> from_cell a b s < from_cell a b t.
Proof. intros. unfold from_cell. apply Rplus_lt_compat_r. unfold Rdiv. apply Rmult_lt_compat_r; [lra|]. apply Rmult_lt_compat_r; lra. Qed.
Lemma point_range a b n j : a < b -> (j < n)%nat -> a < point a b n j < b.
Proof.
  intros Hab Hj. pose proof (zero_range n j Hj).
  pose proof (from_cell_incr a b (-1) (zero n j) Hab). pose proof (from_cell_incr a b (zero n j) 1 Hab).
  unfold point. unfold from_cell in *. split.
  - apply Rle_lt_trans with ((-1 + 1) * (b - a) / 2 + a); [right; field|lra].
  - apply Rlt_le_trans with ((1 + 1) * (b - a) / 2 + a); [lra|right; field].
Qed.

Lemma dct_polynomial_cell a b n p : a < b -> (length p <= n)%nat ->
  forall x, series n (transform n (dct n) (fun j => peval p (point a b n j))) (to_cell a b x) = peval p x.
Proof.
  intros Hab Hl x. set (al := (b - a) / 2). set (be := (b - a) / 2 + a).
  assert (E : forall t, from_cell a b t = al * t + be) by (intros; unfold from_cell, al, be; field).
  rewrite <- (from_to a b x) at 2 by exact Hab. rewrite E, <- peval_affine.
  rewrite <- (dct_polynomial n (paffine al be p)) by (rewrite paffine_length; exact Hl).
  unfold series. apply rsum_ext. intros i Hi. f_equal. unfold transform. apply rsum_ext.
  intros j Hj. f_equal. unfold point. rewrite E, peval_affine. reflexivity.
Qed.
