(** C43: Chebyshev interpolation is exact at its nodes and for polynomials. *)
From Coq Require Import Reals ZArith List Lia Lra Arith Bool.
From Verif Require Import Proofs.C43 Base.Outcome Base.Ops Inst.ER Inst.ERTac Model.Chebyshev.
From Verif Require Import Spec.Means Spec.Chebyshev Proofs.ArrayFacts Proofs.MeanExact Proofs.ChebFacts Proofs.ChebModel.
Import ListNotations.
Open Scope R_scope.

(** Every arithmetic: MatMultiply writes row i of the matrix times x into cell i, summed from
    the left, and leaves the cells from n on alone. *)
Theorem C43_product :
  forall (T : Type) (O : Ops T) (a : nat -> nat -> result T) (A : nat -> nat -> T)
         (x y : list T) (d : nat -> T) (n : nat),
    (forall i j, (i < n)%nat -> (j < n)%nat -> a i j = Ok (A i j)) ->
    (forall j, (j < n)%nat -> nth_error x j = Some (d j)) -> (n <= length y)%nat ->
    exists c, MatMultiply a x y (Z.of_nat n) = Ok c /\ same_from n y c /\
      forall i, (i < n)%nat -> nth_error c i = Some (dot n (A i) d).
Proof. exact C43_product_proof. Qed.
Print Assumptions C43_product.

Example C43_product_example_holds :
  MatMultiply (fun i j => Ok (Fin (INR (i + 2 * j)))) [Fin 10; Fin 100] [NaN; NaN; Fin 5] 2
  = Ok [Fin 200; Fin 310; Fin 5].
Proof. exact C43_product_example. Qed.

(** Exact arithmetic: for every number of nodes, interval and data, the coefficients obtained
    with the matrix of discrete orthogonality give a sum that takes the data at the nodes. *)
Theorem C43_nodes :
  forall (dbg : bool) (a b : R) (n : nat) (m : nat -> nat -> result ER) (x y : list ER) (d : nat -> R),
    a < b ->
    (forall i j, (i < n)%nat -> (j < n)%nat -> m i j = Ok (Fin (dct n i j))) ->
    reals x n d -> (n <= length y)%nat ->
    exists c, MatMultiply m x y (Z.of_nat n) = Ok c /\
      forall k, (k < n)%nat ->
        InterpFromCoeffs dbg (Fin (point a b n k)) (Fin a) (Fin b) c (Z.of_nat n) = Ok (Fin (d k)).
Proof. exact C43_nodes_proof. Qed.
Print Assumptions C43_nodes.

(** two nodes on [-1, 1]: -1/sqrt 2 and 1/sqrt 2, and the matrix for them *)
Example C43_nodes_example_holds :
  point (-1) 1 2 0 = - (1 / sqrt 2) /\
  dct 2 0 0 = 1 / 2 /\ dct 2 0 1 = 1 / 2 /\ dct 2 1 0 = - (1 / sqrt 2).
Proof. exact C43_nodes_example. Qed.

(** Exact arithmetic: if the data are the values at the nodes of a polynomial of degree below
    the number of nodes, the interpolation returns the polynomial at every point, inside the
    interval or not. *)
Theorem C43_polynomial :
  forall (dbg : bool) (a b : R) (n : nat) (m : nat -> nat -> result ER) (x y : list ER) (p : list R),
    a < b -> (length p <= n)%nat ->
    (forall i j, (i < n)%nat -> (j < n)%nat -> m i j = Ok (Fin (dct n i j))) ->
    reals x n (fun j => peval p (point a b n j)) -> (n <= length y)%nat ->
    exists c, MatMultiply m x y (Z.of_nat n) = Ok c /\
      forall z, InterpFromCoeffs dbg (Fin z) (Fin a) (Fin b) c (Z.of_nat n) = Ok (Fin (peval p z)).
Proof. exact C43_polynomial_proof. Qed.
Print Assumptions C43_polynomial.

(** 1 + 2 x + 3 x^2 has degree below three *)
Example C43_polynomial_example_holds :
  forall z, exists c,
    MatMultiply (fun i j => Ok (Fin (dct 3 i j)))
      (map (fun j => Fin (peval [1; 2; 3] (point 0 5 3 j))) [0; 1; 2]%nat) [NaN; NaN; NaN] 3 = Ok c /\
    InterpFromCoeffs true (Fin z) (Fin 0) (Fin 5) c 3 = Ok (Fin (1 + 2 * z + 3 * z * z)).
Proof. exact C43_polynomial_example. Qed.

(** The matrix is the inverse of the matrix of the basis at the nodes, for every number of
    nodes. *)
Theorem C43_inverse :
  forall n j k, (j < n)%nat -> (k < n)%nat ->
    rsum n (fun i => dct n i j * cheb i (zero n k)) = if (j =? k)%nat then 1 else 0.
Proof. exact C43_inverse_proof. Qed.
Print Assumptions C43_inverse.
