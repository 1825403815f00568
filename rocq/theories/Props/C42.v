(** C42: Chebyshev basis, nodes and cell maps. *)
From Coq Require Import Reals ZArith List Lia Lra Arith Bool.
From Verif Require Import Proofs.C42 Base.Outcome Base.Ops Inst.ER Inst.ERTac Model.Chebyshev.
From Verif Require Import Spec.Means Spec.Chebyshev Proofs.ArrayFacts Proofs.ChebFacts Proofs.ChebModel.
Import ListNotations.
Open Scope R_scope.

(** Every arithmetic: T_0 = 1, T_1 = x and T_{i+2} = 2 x T_{i+1} - T_i, for every degree and
    every number. *)
Theorem C42_recurrence :
  forall (T : Type) (O : Ops T) (x : T),
    ChebT 0 x = Ok (OofZ 1) /\ ChebT 1 x = Ok x /\
    forall i, (0 <= i)%Z -> exists a b, ChebT i x = Ok a /\ ChebT (i + 1) x = Ok b /\
      ChebT (i + 2) x = Ok (Osub (Omul (Omul (OofZ 2) x) b) a).
Proof. exact C42_recurrence_proof. Qed.
Print Assumptions C42_recurrence.

(** T_5 (2) = 16 * 32 - 20 * 8 + 5 * 2 = 362 *)
Example C42_recurrence_example_holds : ChebT 5 (Fin 2) = Ok (Fin 362).
Proof. exact C42_recurrence_example. Qed.

(** Exact arithmetic: T(n, x) = cos (n arccos x) on [-1, 1], for every degree. *)
Theorem C42_cosine :
  forall (n : Z) (x : R), (0 <= n)%Z -> -1 <= x <= 1 ->
    ChebT n (Fin x) = Ok (Fin (cos (IZR n * acos x))).
Proof. exact C42_cosine_proof. Qed.
Print Assumptions C42_cosine.

(** T_3 (cos 60 degrees) = cos 180 degrees *)
Example C42_cosine_example_holds : ChebT 3 (Fin (1 / 2)) = Ok (Fin (-1)).
Proof. exact C42_cosine_example. Qed.

(** Exact arithmetic: the maps to and from [-1, 1] are mutually inverse, and take the ends of
    the interval to the ends, in both builds. *)
Theorem C42_cells :
  forall (dbg : bool) (a b : R), a < b ->
    (forall x, exists t, ToUnitCell dbg (Fin x) (Fin a) (Fin b) = Ok (Fin t) /\
       FromUnitCell dbg (Fin t) (Fin a) (Fin b) = Ok (Fin x) /\ (a <= x <= b <-> -1 <= t <= 1)) /\
    (forall t, exists x, FromUnitCell dbg (Fin t) (Fin a) (Fin b) = Ok (Fin x) /\
       ToUnitCell dbg (Fin x) (Fin a) (Fin b) = Ok (Fin t)) /\
    FromUnitCell dbg (Fin (-1)) (Fin a) (Fin b) = Ok (Fin a) /\
    FromUnitCell dbg (Fin 1) (Fin a) (Fin b) = Ok (Fin b).
Proof. exact C42_cells_proof. Qed.
Print Assumptions C42_cells.

(** 7 is the middle of [4, 10] *)
Example C42_cells_example_holds :
  ToUnitCell true (Fin 7) (Fin 4) (Fin 10) = Ok (Fin 0) /\
  FromUnitCell true (Fin 0) (Fin 4) (Fin 10) = Ok (Fin 7).
Proof. exact C42_cells_example. Qed.

(** Exact arithmetic: for every interval and every number of points up to 2^30 - 1, GetPoints
    fills the first n cells with strictly increasing points of the open interval, leaves the
    rest of the array alone, and these points are exactly the places where T(n, .) of the unit
    cell coordinate is zero. *)
Theorem C42_points :
  forall (dbg : bool) (a b : R) (n : nat) (points : list ER),
    a < b -> (0 < n)%nat -> (Z.of_nat n < 2 ^ 30)%Z -> (n <= length points)%nat ->
    exists out p, GetPoints dbg (Fin a) (Fin b) (Z.of_nat n) points = Ok out /\
      same_from n points out /\ reals out n p /\
      (forall i j, (i < j)%nat -> (j < n)%nat -> p i < p j) /\
      (forall i, (i < n)%nat -> a < p i < b) /\
      forall x, (exists i, (i < n)%nat /\ x = p i) <->
        (exists t, ToUnitCell dbg (Fin x) (Fin a) (Fin b) = Ok t /\ ChebT (Z.of_nat n) t = Ok (Fin 0)).
Proof. exact C42_points_proof. Qed.
Print Assumptions C42_points.

(** one point: the middle *)
Example C42_points_example_holds :
  GetPoints false (Fin 4) (Fin 10) 1 [NaN; NaN] = Ok [Fin 7; NaN].
Proof. exact C42_points_example. Qed.

(** Every arithmetic, outside these bounds: from 2^30 points on, the int product 2 * npoints
    overflows; a negative degree reads before the array of three; with asserts compiled in an
    interval that is not increasing never returns. *)
Theorem C42_limits :
  forall (T : Type) (O : Ops T) (dbg : bool) (a b x : T),
    (forall n points, (2 ^ 30 <= n)%Z -> GetPoints dbg a b n points = UB) /\
    (forall i, (i < 0)%Z -> ChebT i x = UB) /\
    (Ogtb b a = false -> ToUnitCell true x a b = Error /\ FromUnitCell true x a b = Error).
Proof. exact C42_limits_proof. Qed.
Print Assumptions C42_limits.
