(** What is asked of a single-precision logarithm, and the numbers a float can hold. *)
From Coq Require Import Reals ZArith.
From Flocq Require Import Core IEEE754.BinarySingleNaN.
From Verif Require Import Inst.B64.
Open Scope R_scope.

(** logf within one unit in the last place (2^-23 relative) of the natural logarithm,
    at every positive finite float *)
Definition accurate_logf (logf : b32 -> b32) : Prop :=
  forall x : b32, is_finite x = true -> 0 < B2R x ->
  is_finite (logf x) = true /\
  Rabs (B2R (logf x) - ln (B2R x)) <= / 2 ^ 23 * Rabs (ln (B2R x)).

(** doubles that round to a positive normal float: from the smallest normal float to
    (not including) the midpoint between the largest float and 2^128 *)
Definition float_range (x : R) : Prop := / 2 ^ 126 <= x < 2 ^ 128 - 2 ^ 103.

(** logf does not decrease *)
Definition monotone_logf (logf : b32 -> b32) : Prop :=
  forall x y : b32, is_finite x = true -> is_finite y = true -> 0 < B2R x -> B2R x <= B2R y ->
  B2R (logf x) <= B2R (logf y).
