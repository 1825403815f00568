(** C43: Chebyshev interpolation is exact at its nodes and for polynomials. *)
From Coq Require Import Reals ZArith List Lia Lra Arith Bool.
From Verif Require Import Base.Outcome Base.Ops Inst.ER Inst.ERTac Model.Chebyshev.
From Verif Require Import Spec.Means Spec.Chebyshev Proofs.ArrayFacts Proofs.MeanExact Proofs.ChebFacts Proofs.ChebModel.
Import ListNotations.
Open Scope R_scope.

(** Every arithmetic: MatMultiply writes row i of the matrix times x into cell i, summed from
    the left, and leaves the cells from n on alone. *)
Lemma C43_product_proof :
  forall (T : Type) (O : Ops T) (a : nat -> nat -> result T) (A : nat -> nat -> T)
         (x y : list T) (d : nat -> T) (n : nat),
    (forall i j, (i < n)%nat -> (j < n)%nat -> a i j = Ok (A i j)) ->
    (forall j, (j < n)%nat -> nth_error x j = Some (d j)) -> (n <= length y)%nat ->
    exists c, MatMultiply a x y (Z.of_nat n) = Ok c /\ same_from n y c /\
      forall i, (i < n)%nat -> nth_error c i = Some (dot n (A i) d).
Proof.
  intros T O a A x y d n. apply MatMultiply_any.
Qed.

Lemma C43_product_example :
  MatMultiply (fun i j => Ok (Fin (INR (i + 2 * j)))) [Fin 10; Fin 100] [NaN; NaN; Fin 5] 2
  = Ok [Fin 200; Fin 310; Fin 5].
Proof.
  unfold MatMultiply, for_int. change (Z.to_nat 2) with 2%nat. cbn. repeat f_equal; ring.
Qed.

(** Exact arithmetic: for every number of nodes, interval and data, the coefficients obtained
    with the matrix of discrete orthogonality give a sum that takes the data at the nodes. *)
Lemma C43_nodes_proof :
  forall (dbg : bool) (a b : R) (n : nat) (m : nat -> nat -> result ER) (x y : list ER) (d : nat -> R),
    a < b ->
    (forall i j, (i < n)%nat -> (j < n)%nat -> m i j = Ok (Fin (dct n i j))) ->
    reals x n d -> (n <= length y)%nat ->
    exists c, MatMultiply m x y (Z.of_nat n) = Ok c /\
      forall k, (k < n)%nat ->
        InterpFromCoeffs dbg (Fin (point a b n k)) (Fin a) (Fin b) c (Z.of_nat n) = Ok (Fin (d k)).
Proof.
  intros dbg a b n m x y d Hab Hm Hx Hy.
  destruct (MatMultiply_fin m (dct n) x d y n Hm Hx Hy) as [c [E [H1 H2]]].
  exists c. split; [exact E|]. intros k Hk.
  rewrite (InterpFromCoeffs_fin dbg _ a b c _ n Hab H2). unfold point.
  rewrite to_from by exact Hab. rewrite dct_interpolates by exact Hk. reflexivity.
Qed.

(** two nodes on [-1, 1]: -1/sqrt 2 and 1/sqrt 2, and the matrix for them *)
Lemma C43_nodes_example :
  point (-1) 1 2 0 = - (1 / sqrt 2) /\
  dct 2 0 0 = 1 / 2 /\ dct 2 0 1 = 1 / 2 /\ dct 2 1 0 = - (1 / sqrt 2).
Proof.
  assert (E : zero 2 0 = - (1 / sqrt 2)).
  { unfold zero. change (INR 0) with 0. change (INR 2) with 2.
    replace ((2 * 0 + 1) * PI / (2 * 2)) with (PI / 4) by field. rewrite cos_PI4. reflexivity. }
  assert (Hs : sqrt 2 <> 0) by (apply Rgt_not_eq; apply sqrt_lt_R0; lra).
  unfold point, from_cell, dct. cbn [Nat.eqb cheb]. rewrite E. change (INR 2) with 2.
  repeat split; field; exact Hs.
Qed.

(** Exact arithmetic: if the data are the values at the nodes of a polynomial of degree below
    the number of nodes, the interpolation returns the polynomial at every point, inside the
    interval or not. *)
Lemma C43_polynomial_proof :
  forall (dbg : bool) (a b : R) (n : nat) (m : nat -> nat -> result ER) (x y : list ER) (p : list R),
    a < b -> (length p <= n)%nat ->
    (forall i j, (i < n)%nat -> (j < n)%nat -> m i j = Ok (Fin (dct n i j))) ->
    reals x n (fun j => peval p (point a b n j)) -> (n <= length y)%nat ->
    exists c, MatMultiply m x y (Z.of_nat n) = Ok c /\
      forall z, InterpFromCoeffs dbg (Fin z) (Fin a) (Fin b) c (Z.of_nat n) = Ok (Fin (peval p z)).
Proof.
  intros dbg a b n m x y p Hab Hp Hm Hx Hy.
  destruct (MatMultiply_fin m (dct n) x _ y n Hm Hx Hy) as [c [E [H1 H2]]].
  exists c. split; [exact E|]. intros z.
  rewrite (InterpFromCoeffs_fin dbg _ a b c _ n Hab H2).
  rewrite dct_polynomial_cell by assumption. reflexivity.
Qed.

(** 1 + 2 x + 3 x^2 has degree below three *)
Lemma C43_polynomial_example :
  forall z, exists c,
    MatMultiply (fun i j => Ok (Fin (dct 3 i j)))
      (map (fun j => Fin (peval [1; 2; 3] (point 0 5 3 j))) [0; 1; 2]%nat) [NaN; NaN; NaN] 3 = Ok c /\
    InterpFromCoeffs true (Fin z) (Fin 0) (Fin 5) c 3 = Ok (Fin (1 + 2 * z + 3 * z * z)).
Proof.
  intros z.
  destruct (C43_polynomial_proof true 0 5 3 (fun i j => Ok (Fin (dct 3 i j)))
    (map (fun j => Fin (peval [1; 2; 3] (point 0 5 3 j))) [0; 1; 2]%nat) [NaN; NaN; NaN] [1; 2; 3])
    as [c [E H]]; [lra|cbn; lia|reflexivity| |cbn; lia|].
  { intros [|[|[|j]]] Hj; [reflexivity|reflexivity|reflexivity|lia]. }
  exists c. split; [exact E|]. specialize (H z). change (Z.of_nat 3) with 3%Z in H. rewrite H.
  do 2 f_equal. cbn [peval]. ring.
Qed.

(** The matrix is the inverse of the matrix of the basis at the nodes, for every number of
    nodes. *)
Lemma C43_inverse_proof :
  forall n j k, (j < n)%nat -> (k < n)%nat ->
    rsum n (fun i => dct n i j * cheb i (zero n k)) = if (j =? k)%nat then 1 else 0.
Proof.
  exact dct_dual.
Qed.
