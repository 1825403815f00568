(** C51. The single-precision logarithm behind the log-spaced frequency lookups. *)
From Coq Require Import Reals ZArith List Lra Lia Bool.
From Flocq Require Import Core IEEE754.BinarySingleNaN Relative.
From Verif Require Import Proofs.C51 Base.Outcome Base.Ops Inst.B64 Model.Spiner Model.Chebyshev Model.Indexers
  Spec.Tables Spec.SinglePrecision Proofs.B64Facts Proofs.FloatFacts.
Open Scope R_scope.

(** For every logf accurate to one unit in the last place and every double in the range of
    the normal floats: a finite answer, within 2^-22 relative plus 2^-25 absolute of the
    base-10 logarithm. *)
Theorem C51_accuracy_partial :
  forall (L : Libm) (x : b64), accurate_logf (lm_logf L) ->
  is_finite x = true -> float_range (B2R x) ->
  is_finite (BDMath_log10 L x) = true /\
  Rabs (B2R (BDMath_log10 L x) - log10 (B2R x)) <= / 2 ^ 22 * Rabs (log10 (B2R x)) + / 2 ^ 25.
Proof. exact C51_accuracy_partial_proof. Qed.
Print Assumptions C51_accuracy_partial.

(** Only the float nearest to the frequency matters: two frequencies with the same one
    get the same answer from every LogLinear and LogCheb object, whatever logf is. *)
Theorem C51_same_float :
  forall (L : Libm) (x y : b64), to_float x = to_float y ->
  BDMath_log10 L x = BDMath_log10 L y /\
  (forall b, @LogLinear_call _ (B64_ops L) b x = @LogLinear_call _ (B64_ops L) b y) /\
  (forall dbg N c, @LogCheb_call _ (B64_ops L) dbg N c x = @LogCheb_call _ (B64_ops L) dbg N c y) /\
  (forall b N, @LogLinear_box _ (B64_ops L) b x y N = Error).
Proof. exact C51_same_float_proof. Qed.
Print Assumptions C51_same_float.

(** At every positive normal float f there is a double, a relative 2^-27 above it, that is
    not told apart from it, so whatever logf is one of the two answers is off by 2^-30 or
    more: the accuracy above cannot be improved much. *)
Theorem C51_lower_bound :
  forall (L : Libm) (f : b32), is_finite f = true -> / 2 ^ 126 <= B2R f ->
  exists x y : b64, is_finite x = true /\ is_finite y = true /\
    float_range (B2R x) /\ float_range (B2R y) /\
    B2R x = B2R f /\ B2R y = B2R f * (1 + / 2 ^ 27) /\ BDMath_log10 L x = BDMath_log10 L y /\
    (/ 2 ^ 30 <= Rabs (B2R (BDMath_log10 L x) - log10 (B2R x)) \/
     / 2 ^ 30 <= Rabs (B2R (BDMath_log10 L y) - log10 (B2R y))).
Proof. exact C51_lower_bound_proof. Qed.
Print Assumptions C51_lower_bound.

(** So no logf makes BDMath::log10 a double-precision logarithm. *)
Theorem C51_double_precision_refuted :
  forall L : Libm,
  ~ (forall x : b64, is_finite x = true -> 0 < B2R x ->
     Rabs (B2R (BDMath_log10 L x) - log10 (B2R x)) <= / 2 ^ 50 * (1 + Rabs (log10 (B2R x)))).
Proof. exact C51_double_precision_refuted_proof. Qed.
Print Assumptions C51_double_precision_refuted.

(** Doubles from 2^128 up all look infinite, and those below 2^-150 all look zero. *)
Theorem C51_out_of_range :
  forall (L : Libm) (x : b64), is_finite x = true ->
  (2 ^ 128 <= B2R x -> BDMath_log10 L x = BDMath_log10 L (B754_infinity false)) /\
  (0 < B2R x < / 2 ^ 150 -> BDMath_log10 L x = BDMath_log10 L (B754_zero false)).
Proof. exact C51_out_of_range_proof. Qed.
Print Assumptions C51_out_of_range.

(** The hypotheses of the accuracy bound hold of a library with the rounded logarithm
    and a frequency of 10^15; those of the lower bound of the float 8388609 x 2^20. *)
Example C51_accuracy_partial_example_holds :
  exists L : Libm, accurate_logf (lm_logf L) /\ is_finite (b64_of_Z (10 ^ 15)) = true /\
  float_range (B2R (b64_of_Z (10 ^ 15))).
Proof. exact C51_accuracy_partial_example. Qed.

Example C51_lower_bound_example_holds :
  exists f : b32, is_finite f = true /\ / 2 ^ 126 <= B2R f /\ B2R f <> 1.
Proof. exact C51_lower_bound_example. Qed.
