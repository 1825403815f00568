(** C45. Guarded arithmetic helpers. *)
From Coq Require Import Reals ZArith Lra Lia Bool List.
From Flocq Require Import Core IEEE754.BinarySingleNaN.
From Verif Require Import Proofs.C45 Base.Outcome Base.Ops Inst.ER Inst.ERTac Inst.B64 Model.Robust Proofs.B64Facts.
Open Scope R_scope.

(** Exact arithmetic: a number for every pair of finite arguments; of the sign of
    the exact quotient, zero only if it is, not larger in magnitude, and smaller by
    exactly the factor |b| / (|b| + 10 min). *)
Theorem C45_ratio :
  forall a b : R, exists v : R, ratio (Fin a) (Fin b) = Fin v /\
  Rabs v = Rabs a / (Rabs b + small) /\
  (b <> 0 -> v = a / b * (Rabs b / (Rabs b + small)) /\
             0 <= v * (a / b) /\ (v = 0 <-> a / b = 0) /\ Rabs v <= Rabs (a / b)) /\
  (b = 0 -> v = a / small).
Proof. exact C45_ratio_proof. Qed.
Print Assumptions C45_ratio.

(** make_positive: positive for every non-NaN argument, and the argument itself
    when that is at least ten machine epsilons. *)
Theorem C45_make_positive :
  (forall a : R, exists v, make_positive (Fin a) = Fin v /\ 0 < v /\ (eps <= a -> v = a)) /\
  make_positive NInf = Fin eps /\ make_positive PInf = PInf.
Proof. exact C45_make_positive_proof. Qed.
Print Assumptions C45_make_positive.

(** make_bounded in exact arithmetic: strictly inside the interval for every
    argument exactly when the upper end is positive and the interval is not
    narrower than the guard. *)
Theorem C45_make_bounded_iff :
  forall vmin vmax : R,
  (forall val : R, exists r, make_bounded (Fin val) (Fin vmin) (Fin vmax) = Fin r /\ vmin < r < vmax)
  <-> 0 < vmax /\ vmin < vmax * (1 - eps).
Proof. exact C45_make_bounded_iff_proof. Qed.
Print Assumptions C45_make_bounded_iff.

(** So it fails on a negative interval: with val = 0 on [-2, -1] the result is
    above the upper end. *)
Theorem C45_make_bounded_negative_refuted :
  exists val vmin vmax r : R, vmin < vmax /\
  make_bounded (Fin val) (Fin vmin) (Fin vmax) = Fin r /\ vmax < r.
Proof. exact C45_make_bounded_negative_refuted_proof. Qed.
Print Assumptions C45_make_bounded_negative_refuted.

(** binary64, any libm: on [2^40, 2^41] the guard added to the lower end is lost
    to rounding, and the result is the lower end itself. *)
Theorem C45_make_bounded_binary64_refuted :
  forall L : Libm,
  exists val vmin vmax : b64, Bltb vmin vmax = true /\
  @make_bounded _ (B64_ops L) val vmin vmax = vmin.
Proof. exact C45_make_bounded_binary64_refuted_proof. Qed.
Print Assumptions C45_make_bounded_binary64_refuted.

(** binary64, any libm: the divisor of [ratio] is finite, not zero, at least as
    large as b in magnitude and of the same sign, for every finite b. *)
Theorem C45_ratio_binary64 :
  forall (L : Libm) (a b : b64), is_finite b = true ->
  exists d : b64, is_finite d = true /\
  @ratio _ (B64_ops L) a b = Bdiv mode_NE a d /\
  (if Rlt_dec (B2R b) 0 then B2R d <= B2R b /\ B2R d <= - small
   else B2R b <= B2R d /\ small <= B2R d).
Proof. exact C45_ratio_binary64_proof. Qed.
Print Assumptions C45_ratio_binary64.

(** 1/0 gives a number: the quotient by the guard. *)
Example C45_ratio_example_holds : ratio (Fin 1) (Fin 0) = Fin (1 / small) /\ exists v, ratio (Fin 1) (Fin (-3)) = Fin v /\ v < 0.
Proof. exact C45_ratio_example. Qed.

Example C45_make_bounded_iff_example_holds : 0 < 2 /\ 1 < 2 * (1 - eps).
Proof. exact C45_make_bounded_iff_example. Qed.

Example C45_ratio_binary64_example_holds : is_finite (b64_of_Z 0) = true /\ is_finite (b64_ldexp (-3) 970) = true.
Proof. exact C45_ratio_binary64_example. Qed.
