(** C44: the inverse Vandermonde tables of chebyshev/vandermonde.hpp. *)
From Coq Require Import Reals ZArith List Lia Lra Arith Bool.
From Verif Require Import Proofs.C44 Base.Outcome Base.Ops Inst.ER Inst.ERTac Model.Spiner Model.Chebyshev Model.Vandermonde.
From Verif Require Import Model.Indexers Spec.Means Spec.Tables Spec.Chebyshev Proofs.ArrayFacts Proofs.MeanExact.
From Verif Require Import Proofs.InterpFacts Proofs.ChebFacts Proofs.ChebModel Proofs.ChebRoots Proofs.ChebNodes Proofs.C50.
Import ListNotations.
Open Scope R_scope.

(** Every entry of every table, read as the decimal number printed, is the exact coefficient
    (2 - [i = 0]) / n * T_i(t_j) to within half a unit of the 14th decimal, and to within 1e-55
    for the two tables printed with more figures. *)
Theorem C44_entries :
  forall n v tol, In (n, v, tol) tables ->
  forall i j, (i < n)%nat -> (j < n)%nat ->
  exists x, entry v i j = Ok (Fin x) /\ Rabs (x - dct n i j) <= tol.
Proof. exact C44_entries_proof. Qed.
Print Assumptions C44_entries.

(** the exact value of one entry: - 2/3 sin 60 degrees = - 1 / sqrt 3, printed -0.57735026918963 *)
Example C44_entries_example_holds :
  entry Vandermonde3 1 0 = Ok (Fin (-57735026918963 * / 10 ^ 14)) /\ dct 3 1 0 = - (2 / 3 * (sqrt 3 / 2)).
Proof. exact C44_entries_example. Qed.

(** Every arithmetic: get_vmbox fills 81 cells and no more, and the element (i, j) of a 9 x 9
    box on them is entry (i, j) of the 9-point table. *)
Theorem C44_layout :
  forall (T : Type) (O : Ops T) (r : list T), (81 <= length r)%nat ->
    exists r', get_vmbox r = Ok r' /\ same_from 81 r r' /\
      forall i j, (i < 9)%nat -> (j < 9)%nat ->
        at_flat r' (flat [9; 9]%Z [Z.of_nat i; Z.of_nat j] 0) = entry Vandermonde9 i j.
Proof. exact C44_layout_proof. Qed.
Print Assumptions C44_layout.

(** Exact arithmetic: with the printed tables instead of the exact matrix, interpolation returns
    the data at the nodes, and polynomials of degree below n in the whole interval, up to
    n^2 * tolerance * the largest datum. *)
Theorem C44_interpolation :
  forall n v tol, In (n, v, tol) tables ->
  forall (dbg : bool) (a b M : R) (x y : list ER),
    a < b -> (n <= length y)%nat ->
    (forall d, reals x n d -> (forall j, (j < n)%nat -> Rabs (d j) <= M) ->
       exists c, MatMultiply (entry v) x y (Z.of_nat n) = Ok c /\
       forall k, (k < n)%nat -> exists u,
         InterpFromCoeffs dbg (Fin (point a b n k)) (Fin a) (Fin b) c (Z.of_nat n) = Ok (Fin u) /\
         Rabs (u - d k) <= INR n * (INR n * (tol * M))) /\
    (forall p, (length p <= n)%nat -> reals x n (fun j => peval p (point a b n j)) ->
       (forall j, (j < n)%nat -> Rabs (peval p (point a b n j)) <= M) ->
       exists c, MatMultiply (entry v) x y (Z.of_nat n) = Ok c /\
       forall z, a <= z <= b -> exists u,
         InterpFromCoeffs dbg (Fin z) (Fin a) (Fin b) c (Z.of_nat n) = Ok (Fin u) /\
         Rabs (u - peval p z) <= INR n * (INR n * (tol * M))).
Proof. exact C44_interpolation_proof. Qed.
Print Assumptions C44_interpolation.

(** nine data of size at most 1 come back within 4.05e-13 *)
Example C44_interpolation_example_holds :
  In (9%nat, Vandermonde9, half14) tables /\ INR 9 * (INR 9 * (half14 * 1)) = 405 / 10 ^ 15.
Proof. exact C44_interpolation_example. Qed.

(** Exact arithmetic: LogCheb with a printed table returns the guarded data at its nodes up to a
    factor 10 to the power n^2 * tolerance * the largest |log10| of them. *)
Theorem C44_logcheb :
  forall n v tol, In (n, v, tol) tables ->
  forall (dbg : bool) (a b M : R) (data logdata coeffs : list ER) (d : nat -> R),
    0 < a -> a < b -> reals data n d -> (n <= length logdata)%nat -> (n <= length coeffs)%nat ->
    (forall j, (j < n)%nat -> Rabs (log10 (Rabs (d j) + / 10 ^ 20)) <= M) ->
    exists c, SetInterpCoeffs (Z.of_nat n) (entry v) (mk_LogCheb data logdata coeffs (Fin a) (Fin b)) = Ok c /\
      forall k, (k < n)%nat -> exists r,
        LogCheb_call dbg (Z.of_nat n) c (Fin (pow10 (point (log10 a) (log10 b) n k)))
        = Ok (Fin ((Rabs (d k) + / 10 ^ 20) * pow10 r)) /\
        Rabs r <= INR n * (INR n * (tol * M)).
Proof. exact C44_logcheb_proof. Qed.
Print Assumptions C44_logcheb.

(** three data equal to 1 between frequencies 1 and 10 meet the hypotheses with M = 1 *)
Example C44_logcheb_example_holds :
  In (3%nat, Vandermonde3, half14) tables /\
  reals [Fin 1; Fin 1; Fin 1] 3 (fun _ => 1) /\
  Rabs (log10 (Rabs 1 + / 10 ^ 20)) <= 1.
Proof. exact C44_logcheb_example. Qed.
