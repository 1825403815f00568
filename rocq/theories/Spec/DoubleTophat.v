(** The natural logarithm in double precision. *)
From Coq Require Import Reals.
From Flocq Require Import Core IEEE754.BinarySingleNaN.
From Verif Require Import Inst.B64 Spec.DoublePrecision.
Open Scope R_scope.

(** log within one unit in the last place *)
Definition accurate_log (L : Libm) : Prop :=
  forall x, is_finite x = true -> 0 < B2R x -> within 2 (lm_log L x) (ln (B2R x)).
