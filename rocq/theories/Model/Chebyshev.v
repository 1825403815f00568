(** Model of chebyshev/chebyshev.hpp. Vectors are lists; [Error] is an active assert
    ([dbg]: compiled without NDEBUG). Distinct array arguments do not overlap. *)
From Coq Require Import ZArith List Bool.
From Verif Require Import Base.Outcome Base.Ops.
Import ListNotations.
Open Scope ops_scope.

Section Chebyshev.
  Context {T : Type} {O : Ops T}.

  (** MatMultiply, 32-41: y[i] is set to 0 and accumulated in place; [a i j] is the call
      a(i, j), which may read outside its storage *)
  Definition MatMultiply (a : nat -> nat -> result T) (x y : list T) (npoints : Z)
    : result (list T) :=
    for_int npoints (fun i y =>
      y <- store y i #0 ;;
      for_int npoints (fun j y =>
        yi <- load y i ;;
        aij <- a i j ;;
        xj <- load x j ;;
        store y i (yi + aij * xj)) y) y.

  (** assert(xmax > xmin), 45, 50 *)
  Definition cell_assert (dbg : bool) (xmin xmax : T) : result unit :=
    if dbg && negb (Ogtb xmax xmin) then Error else Ok tt.

  (** ToUnitCell, 44-47 *)
  Definition ToUnitCell (dbg : bool) (x xmin xmax : T) : result T :=
    _ <- cell_assert dbg xmin xmax ;;
    Ok (#2 * (x - xmin) / (xmax - xmin) - #1).
  (** FromUnitCell, 48-52 *)
  Definition FromUnitCell (dbg : bool) (x xmin xmax : T) : result T :=
    _ <- cell_assert dbg xmin xmax ;;
    Ok ((x + #1) * (xmax - xmin) / #2 + xmin).

  (** GetPoints, 54-61; k = i + 1. 2 * npoints is an int multiplication *)
  Definition cheb_node (npoints : Z) (k : Z) : T :=
    - Ocos (#(2 * k - 1) * Opi / #(2 * npoints)).
  Definition GetPoints (dbg : bool) (xmin xmax : T) (npoints : Z) (points : list T)
    : result (list T) :=
    for_int npoints (fun i points =>
      if negb (int_fits (2 * npoints)) then UB else
      let k := (Z.of_nat i + 1)%Z in
      let tk := cheb_node npoints k in
      p <- FromUnitCell dbg tk xmin xmax ;;
      store points i p) points.

  (** T, 69-82. Ti[i] with a negative i is read outside the array; the loop from 3 to i is
      run i - 2 times on the array of three *)
  Definition T_next (x : T) (t : T * T * T) : T * T * T :=
    let '(t0, t1, t2) := t in (t1, t2, #2 * x * t2 - t1).
  Definition ChebT (i : Z) (x : T) : result T :=
    let t0 := #1 in
    let t1 := x in
    let t2 := #2 * x * t1 - t0 in
    if (i <? 0)%Z then UB else
    if (i <? 3)%Z then load [t0; t1; t2] (Z.to_nat i) else
    let '(_, _, r) := Nat.iter (Z.to_nat i - 2) (T_next x) (t0, t1, t2) in Ok r.

  (** InterpFromCoeffs, 84-96 *)
  Definition InterpFromCoeffs (dbg : bool) (x xmin xmax : T) (coeffs : list T) (ncoeffs : Z)
    : result T :=
    x <- ToUnitCell dbg x xmin xmax ;;
    for_int ncoeffs (fun i out =>
      c <- load coeffs i ;;
      t <- ChebT (Z.of_nat i) x ;;
      Ok (out + c * t)) #0.
End Chebyshev.
