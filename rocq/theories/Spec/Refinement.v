(** The averages that the frequency sums of the mean opacities approximate: integrals over a
    band of frequencies. *)
From Coquelicot Require Import Coquelicot.
From Coq Require Import Reals ZArith.
From Verif Require Import Spec.Physics.
Open Scope R_scope.

(** A band: lower and upper frequency. *)
Definition total (f : R -> R) (band : R * R) : R := RInt f (fst band) (snd band).
Definition inside_band (band : R * R) (nu : R) : Prop := fst band <= nu <= snd band.

(** Planck average of the mass coefficient a / rho with the spectrum B *)
Definition Planck_average (B : R -> R) (rho : R) (a : R -> R) (band : R * R) : R :=
  total (fun nu => a nu / rho * B nu) band / total B band.
(** Rosseland average with the temperature derivative dB of the spectrum *)
Definition Rosseland_average (dB : R -> R) (rho : R) (a : R -> R) (band : R * R) : R :=
  total dB band / total (fun nu => rho / a nu * dB nu) band.

(** the coefficient is a continuous function of the frequency and never negative *)
Definition regular (a : R -> R) : Prop := forall nu, 0 < nu -> continuous a nu /\ 0 <= a nu.

(** Far above the smallest doubles: the thermal energy in the band and, for the Rosseland
    average, the coefficient and the two integrals. *)
Definition bright (B : R -> R) (band : R * R) : Prop := / 10 ^ 200 <= total B band.
Definition opaque (dB : R -> R) (rho : R) (a : R -> R) (band : R * R) : Prop :=
  / 10 ^ 200 <= total dB band /\ / 10 ^ 200 <= total (fun nu => rho / a nu * dB nu) band /\
  (forall nu, inside_band band nu -> / 10 ^ 200 <= a nu).

(** x is y to one part in 10^33 *)
Definition agrees (x y : R) : Prop := Rabs (x - y) <= / 10 ^ 33 * y.

(** N equal cells in log10 nu resolve the integrand f to the fraction eta: f nu, as a function
    of log10 nu, has a Lipschitz constant L for which the error bound of the midpoint rule is
    that fraction of the integral. *)
Definition decades (band : R * R) : R := ln (snd band / fst band) / ln 10.
Definition resolved (f : R -> R) (band : R * R) (N : Z) (eta : R) : Prop :=
  exists L, 0 <= L /\
  (forall mu nu, inside_band band mu -> inside_band band nu ->
     Rabs (f mu * mu - f nu * nu) <= L * Rabs (ln (mu / nu) / ln 10)) /\
  L * decades band ^ 2 / (4 * IZR N) <= eta * (total f band / ln 10).
