(** Chebyshev polynomials, their zeros and interpolation at them, over the reals and
    independently of the code. *)
From Coq Require Import Reals List Arith.
From Verif Require Import Base.Ops Inst.ER Spec.Means.
Import ListNotations.
Open Scope R_scope.

(** a polynomial by its coefficients, constant term first: degree < length *)
Fixpoint peval (p : list R) (x : R) : R :=
  match p with [] => 0 | a :: q => a + x * peval q x end.

(** T_0 = 1, T_1 = x, T_{n+2} = 2 x T_{n+1} - T_n *)
Fixpoint cheb (n : nat) (x : R) : R :=
  match n with
  | O => 1
  | S m => match m with O => x | S k => 2 * x * cheb m x - cheb k x end
  end.

(** the j-th zero (j = 0 ... n - 1) of T_n, in increasing order *)
Definition zero (n j : nat) : R := - cos ((2 * INR j + 1) * PI / (2 * INR n)).

(** the interval [a, b] from and to [-1, 1] *)
Definition to_cell (a b x : R) : R := 2 * (x - a) / (b - a) - 1.
Definition from_cell (a b t : R) : R := (t + 1) * (b - a) / 2 + a.
(** the Chebyshev points of [a, b] *)
Definition point (a b : R) (n j : nat) : R := from_cell a b (zero n j).

(** the coefficient matrix of discrete orthogonality *)
Definition dct (n i j : nat) : R := (if i =? 0 then 1 else 2) / INR n * cheb i (zero n j).
(** coefficients of the data d, and the sum they stand for *)
Definition transform (n : nat) (a : nat -> nat -> R) (d : nat -> R) (i : nat) : R :=
  rsum n (fun j => a i j * d j).
Definition series (n : nat) (c : nat -> R) (t : R) : R := rsum n (fun i => c i * cheb i t).

(** the first n cells of an array hold the real numbers d 0 ... d (n - 1) *)
Definition reals (l : list ER) (n : nat) (d : nat -> R) : Prop :=
  forall j, (j < n)%nat -> nth_error l j = Some (Fin (d j)).
(** an array written in its first n cells only *)
Definition same_from {A} (n : nat) (old new : list A) : Prop :=
  length new = length old /\ forall j, (n <= j)%nat -> nth_error new j = nth_error old j.
(** a_0 x_0 + a_1 x_1 + ... from the left, starting at 0, with the operations of the arithmetic *)
Fixpoint dot {T : Type} {O : Ops T} (n : nat) (a x : nat -> T) : T :=
  match n with O => OofZ 0 | S k => Oadd (dot k a x) (Omul (a k) (x k)) end.
