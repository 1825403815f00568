(** Means of doubles, weighted with doubles, up to roundings. *)
From Coquelicot Require Import Coquelicot.
From Coq Require Import Reals ZArith List.
From Flocq Require Import Core IEEE754.BinarySingleNaN.
From Verif Require Import Base.Outcome Inst.B64 Spec.Physics Spec.Means Spec.Tables Spec.DoublePrecision.
Open Scope R_scope.

(** a finite double between 0 and 2^k *)
Definition upto (k : nat) (x : b64) : Prop := is_finite x = true /\ 0 <= B2R x <= 2 ^ k.

(** the arithmetic and the harmonic mean of [k 0], ..., [k (n - 1)] with weights [r i] *)
Definition arithmetic_mean (n : nat) (r k : nat -> R) : R := rsum n (fun i => k i * r i) / rsum n r.
Definition harmonic_mean (n : nat) (r k : nat -> R) : R := rsum n r / rsum n (fun i => r i / k i).

(** a total weight that is not tiny *)
Definition heavy (n : nat) (r : nat -> R) : Prop := / 2 ^ 500 <= rsum n r.

(** the roundings of a mean of [n] samples *)
Definition mean_roundings (n : nat) : R := 201 / 100 * INR n + 14.

(** what the samples of a group must be like for its means to be accurate: the coefficients
    [alpha i] are physical, the weights [B i], [D i] and the widths [d i] are not negative and
    do not overflow when multiplied, and the total weights are not tiny *)
Definition regular (n : nat) (alpha B D d : nat -> b64) : Prop :=
  INR n <= 500000000 /\
  (forall i, (i < n)%nat -> physical (alpha i) /\ upto 400 (B i) /\ upto 400 (D i) /\ upto 200 (d i)) /\
  heavy n (fun i => B2R (B i) * B2R (d i)) /\ heavy n (fun i => B2R (D i) * B2R (d i)).

(** [p] and [r] are the Planck and the Rosseland mean of the samples *)
Definition means_of (n : nat) (rho : b64) (alpha B D d : nat -> b64) (p r : b64) : Prop :=
  within (mean_roundings n) p
    (arithmetic_mean n (fun i => B2R (B i) * B2R (d i)) (fun i => B2R (alpha i) / B2R rho)) /\
  within (mean_roundings n) r
    (harmonic_mean n (fun i => B2R (D i) * B2R (d i)) (fun i => B2R (alpha i) / B2R rho)).

(** the same for neutrinos, whose widths are two factors: frequency and step *)
Definition nu_regular (n : nat) (alpha B D nu : nat -> b64) (dl : b64) : Prop :=
  INR n <= 500000000 /\ upto 100 dl /\
  (forall i, (i < n)%nat -> physical (alpha i) /\ upto 400 (B i) /\ upto 400 (D i) /\ upto 100 (nu i)) /\
  heavy n (fun i => B2R (B i) * B2R (nu i) * B2R dl) /\ heavy n (fun i => B2R (D i) * B2R (nu i) * B2R dl).
Definition nu_means_of (n : nat) (rho : b64) (alpha B D nu : nat -> b64) (dl p r : b64) : Prop :=
  within (mean_roundings n) p
    (arithmetic_mean n (fun i => B2R (B i) * B2R (nu i) * B2R dl) (fun i => B2R (alpha i) / B2R rho)) /\
  within (mean_roundings n) r
    (harmonic_mean n (fun i => B2R (D i) * B2R (nu i) * B2R dl) (fun i => B2R (alpha i) / B2R rho)).

(** [x] lies between [lo] and [hi], give or take [n] roundings *)
Definition between (n lo hi : R) (x : b64) : Prop :=
  is_finite x = true /\ lo * (1 - n * / 2 ^ 53) <= B2R x <= hi * (1 + n * / 2 ^ 53).

(** where exp underflows it returns something tiny and not negative *)
Definition graceful_libm (L : Libm) : Prop :=
  forall x, is_finite x = true -> exp (B2R x) < / 2 ^ 1022 ->
    is_finite (lm_exp L x) = true /\ 0 <= B2R (lm_exp L x) <= / 2 ^ 1021.

(** log10 returns a double nearest to the exact value *)
Definition nearest_log10 (L : Libm) : Prop :=
  forall x, is_finite x = true -> 0 < B2R x ->
    is_finite (lm_log10 L x) = true /\
    forall y : b64, is_finite y = true -> Rabs (B2R (lm_log10 L x) - log10 (B2R x)) <= Rabs (B2R y - log10 (B2R x)).

(** the exact weights of a frequency, per unit of the logarithm of the frequency: the Planck
    function and its derivative in temperature *)
Definition planck_weight (T nu : R) : R := Planck_B h_cgs k_cgs c_cgs T nu * nu.
Definition rosseland_weight (T nu : R) : R := Derive (fun t => Planck_B h_cgs k_cgs c_cgs t nu) T * nu.

(** the roundings of a mean of [n] samples with frequencies up to [X] kT/h; beyond 590 kT/h
    the weights are negligible *)
Definition group_roundings (n : nat) (X : R) : R := mean_roundings n + 80 + 15 * Rmin X 590.
