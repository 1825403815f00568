(** Neutrino tables by energy in double precision: the units of the table, and what can be
    stored in one. *)
From Coq Require Import Reals ZArith.
From Flocq Require Import Core IEEE754.BinarySingleNaN.
From Verif Require Import Inst.B64 Model.RadTypes Spec.Tables Spec.Tabulated Spec.DoublePrecision.
Open Scope R_scope.

(** the electron volt: 1.602176565e-12 erg *)
Definition eV_cgs : R := 1602176565 / 10 ^ 21.
(** temperatures and frequencies as energies in MeV *)
Definition temp_MeV (T : R) : R := T / kelvin_per_MeV.
Definition energy_MeV (nu : R) : R := h_cgs * nu / (10 ^ 6 * eV_cgs).

(** a positive double between 10^-F and 10^F *)
Definition storable (F : R) (x : b64) : Prop :=
  is_finite x = true /\ 0 < B2R x /\ Rabs (log10 (B2R x)) <= F.
