(** What is asked of the mathematical library, and what it means that a double is accurate. *)
From Coq Require Import Reals ZArith.
From Flocq Require Import Core IEEE754.BinarySingleNaN.
From Verif Require Import Base.Outcome Inst.B64.
Open Scope R_scope.

(** the double [x] is [r] up to [n] roundings: a relative error of at most n 2^-53 *)
Definition within (n : R) (x : b64) (r : R) : Prop :=
  is_finite x = true /\ Rabs (B2R x - r) <= n * / 2 ^ 53 * Rabs r.

(** the call succeeds with such a double *)
Definition returns (q : result b64) (n r : R) : Prop := exists x, q = Ok x /\ within n x r.

(** results that neither overflow nor underflow, with a factor 2 to spare *)
Definition normal (r : R) : Prop := / 2 ^ 1022 <= Rabs r <= 2 ^ 1023.

(** exp, expm1 and pow within one unit in the last place (2^-52 relative) of the exact
    value, wherever that is a normal number *)
Definition accurate_libm (L : Libm) : Prop :=
  (forall x, is_finite x = true -> normal (exp (B2R x)) ->
     within 2 (lm_exp L x) (exp (B2R x))) /\
  (forall x, is_finite x = true -> normal (exp (B2R x) - 1) ->
     within 2 (lm_expm1 L x) (exp (B2R x) - 1)) /\
  (forall x y, is_finite x = true -> is_finite y = true -> 0 < B2R x ->
     normal (Rpower (B2R x) (B2R y)) ->
     within 2 (lm_pow L x y) (Rpower (B2R x) (B2R y))).

(** the constants in cgs units (CODATA 2010) *)
Definition h_cgs : R := 662606957 / 10 ^ 35.
Definition k_cgs : R := 13806488 / 10 ^ 23.
Definition c_cgs : R := 29979245800.
Definition me_cgs : R := 910938291 / 10 ^ 36.
Definition mp_cgs : R := 1672621777 / 10 ^ 33.
Definition alpha_cgs : R := 72973525698 / 10 ^ 13.
(** the elementary charge: 1.602176565e-19 C, and 2997924580 statcoulomb to the coulomb *)
Definition qe_cgs : R := 1602176565 * 2997924580 / 10 ^ 28.

(** densities, temperatures and frequencies of any physical size *)
Definition physical (x : b64) : Prop :=
  is_finite x = true /\ / 2 ^ 100 <= B2R x <= 2 ^ 100.

(** a zero or physical offset *)
Definition offset (x : b64) : Prop := is_finite x = true /\ 0 <= B2R x <= 2 ^ 100.
(** an exponent *)
Definition exponent (x : b64) : Prop := is_finite x = true /\ Rabs (B2R x) <= 1000.
(** powers of a size that leaves room for the other factors *)
Definition moderate (r : R) : Prop := / 2 ^ 150 <= r <= 2 ^ 150.
(** not so small that it underflows *)
Definition not_tiny (r : R) : Prop := / 2 ^ 1000 <= r.
