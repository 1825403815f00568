(** Textbook formulas, stated over the reals, independent of the code. *)
From Coq Require Import Reals.
Open Scope R_scope.

(** Planck's law: specific intensity of a black body *)
Definition Planck_B (h k c T nu : R) : R :=
  2 * h * nu ^ 3 / c ^ 2 / (exp (h * nu / (k * T)) - 1).

(** Fermi-Dirac specific intensity, zero chemical potential, [n] species *)
Definition FermiDirac_B (n h k c T nu : R) : R :=
  n * (2 * h * nu ^ 3 / c ^ 2 / (exp (h * nu / (k * T)) + 1)).

(** Stefan-Boltzmann constant and radiation constant *)
Definition sigma_SB (h k c : R) : R := 2 * PI ^ 5 * k ^ 4 / (15 * h ^ 3 * c ^ 2).
Definition a_rad (h k c : R) : R := 4 * sigma_SB h k c / c.
