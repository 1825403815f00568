(** IEEE 754 binary64 arithmetic (Flocq), round to nearest even.

    +, -, *, /, sqrt, comparisons, negation, absolute value and conversions are
    those of IEEE 754 (one NaN, payloads not modelled; the sign of zero is kept).
    The mathematical library functions are not determined by the standard: they
    are a parameter [Libm], on which nothing is assumed. BDMath::log10, which the
    repository contains, is computed from the single-precision [lm_logf]. *)
From Coq Require Import ZArith Bool.
From Flocq Require Import IEEE754.BinarySingleNaN Core.FLX Core.Zaux.
From Verif Require Import Base.Ops.
Open Scope Z_scope.

#[global] Instance prec53_gt_0 : FLX.Prec_gt_0 53 := eq_refl.
#[global] Instance prec53_lt_emax : Prec_lt_emax 53 1024 := eq_refl.

Definition b64 : Type := binary_float 53 1024.

(** float *)
#[global] Instance prec24_gt_0 : FLX.Prec_gt_0 24 := eq_refl.
#[global] Instance prec24_lt_emax : Prec_lt_emax 24 128 := eq_refl.
Definition b32 : Type := binary_float 24 128.

(** conversions between the two formats; a double beyond the floats becomes infinite
    (IEEE 754; the C++ standard leaves it undefined) *)
Definition to_float (x : b64) : b32 :=
  match x with
  | B754_zero s => B754_zero s
  | B754_infinity s => B754_infinity s
  | B754_nan => B754_nan
  | B754_finite s m e _ => binary_normalize 24 128 _ _ mode_NE (cond_Zopp s (Zpos m)) e s
  end.
Definition to_double (x : b32) : b64 :=
  match x with
  | B754_zero s => B754_zero s
  | B754_infinity s => B754_infinity s
  | B754_nan => B754_nan
  | B754_finite s m e _ => binary_normalize 53 1024 _ _ mode_NE (cond_Zopp s (Zpos m)) e s
  end.

(** What libm provides. *)
Record Libm := {
  lm_exp : b64 -> b64; lm_expm1 : b64 -> b64; lm_log10 : b64 -> b64;
  lm_log : b64 -> b64; lm_logf : b32 -> b32; lm_cos : b64 -> b64;
  lm_pow : b64 -> b64 -> b64;
}.

Definition b64_of_Z (z : Z) : b64 := binary_normalize 53 1024 _ _ mode_NE z 0 false.

(** m * 10^e rounded to nearest: exact for e >= 0 before rounding; for e < 0 the
    quotient is computed with 140 extra bits and a sticky bit. *)
Definition b64_dec (m e : Z) : b64 :=
  if (0 <=? e) then b64_of_Z (m * 10 ^ e)
  else
    let d := 10 ^ (- e) in
    let s := Z.log2 d + 140 in
    let n := Z.abs m * 2 ^ s in
    let q := n / d in
    let q' := 2 * q + (if n mod d =? 0 then 0 else 1) in
    binary_normalize 53 1024 _ _ mode_NE (Z.sgn m * q') (- s - 1) false.

Definition b64_ldexp (m e : Z) : b64 := binary_normalize 53 1024 _ _ mode_NE m e false.

(** BDMath::log10, utils/fast-math/logs.hpp 41-50, without BD_USE_FMATH: the argument of
    type double is converted to float, ILOG10 is a double, and so is the product, which
    is converted to float on return and back to double by the caller *)
Definition ILOG10 : b64 := b64_dec 43429448190325176 (-17).
Definition BDMath_log10 (L : Libm) (x : b64) : b64 :=
  to_double (to_float (Bmult mode_NE (to_double (lm_logf L (to_float x))) ILOG10)).

(** conversion to int: truncation toward zero of a finite number that fits *)
Definition b64_trunc (x : b64) : option Z :=
  if is_finite x then let z := Btrunc x in if int_fits z then Some z else None else None.

Definition B64_ops (L : Libm) : Ops b64 := {|
  Oadd := Bplus mode_NE; Osub := Bminus mode_NE; Omul := Bmult mode_NE;
  Odiv := Bdiv mode_NE; Oopp := Bopp; Oabs := Babs;
  Oexp := lm_exp L; Oexpm1 := lm_expm1 L; Olog10 := lm_log10 L; Olog := lm_log L;
  Olog10f := BDMath_log10 L; Osqrt := Bsqrt mode_NE; Ocos := lm_cos L; Opow := lm_pow L;
  Oltb := Bltb; Oleb := Bleb; Oeqb := Beqb;
  Oisnan := is_nan;
  Oisinf := fun x => match x with B754_infinity _ => true | _ => false end;
  Otrunc := b64_trunc;
  OofZ := b64_of_Z; Odec := b64_dec;
  Opi := b64_ldexp 884279719003555 (-48);       (* M_PI = 0x1.921fb54442d18p+1 *)
  Oinf := B754_infinity false;
  Onum_min := b64_ldexp 1 (-1022); Onum_eps := b64_ldexp 1 (-52);
|}.

(** Sanity checks on the literals: the doubles nearest to pi and to 0.1. *)
Example b64_dec_tenth : b64_dec 1 (-1) = b64_ldexp 3602879701896397 (-55).
Proof. apply B2SF_inj. vm_compute. reflexivity. Qed.
Example b64_dec_pi : b64_dec 31415926535897932385 (-19) = b64_ldexp 884279719003555 (-48).
Proof. apply B2SF_inj. vm_compute. reflexivity. Qed.
