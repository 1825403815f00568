(** Unit systems and physical dimensions, independent of the code.

    A quantity with dimension L^a M^b T^c K^d and code-unit value x has the CGS
    value x * (length^a mass^b time^c temp^d), where length is the length of one
    code unit in cm, and so on. *)
From Coq Require Import Reals ZArith.
From Verif Require Import Base.Outcome Inst.ER.
Open Scope R_scope.

Record unit_system := {
  us_time : R; us_mass : R; us_length : R; us_temp : R;
}.
Definition positive_system (s : unit_system) : Prop :=
  0 < us_time s /\ 0 < us_mass s /\ 0 < us_length s /\ 0 < us_temp s.

(** exponents of length, mass, time, temperature *)
Record Dim := dim { dL : Z; dM : Z; dT : Z; dK : Z }.

Definition unit_of (s : unit_system) (d : Dim) : R :=
  powerRZ (us_length s) (dL d) * powerRZ (us_mass s) (dM d) *
  powerRZ (us_time s) (dT d) * powerRZ (us_temp s) (dK d).

(** scaling a possibly non-finite number by a positive factor *)
Definition rescale (q : R) (x : ER) : ER :=
  match x with Fin r => Fin (r * q) | _ => x end.

(** code value -> CGS value *)
Definition in_cgs (s : unit_system) (d : Dim) (x : ER) : ER := rescale (unit_of s d) x.
(** CGS outcome -> code outcome *)
Definition in_code (s : unit_system) (d : Dim) (r : result ER) : result ER :=
  match r with Ok x => Ok (rescale (/ unit_of s d) x) | Error => Error | UB => UB end.

Definition d_none := dim 0 0 0 0.
Definition d_length := dim 1 0 0 0.
Definition d_mass := dim 0 1 0 0.
Definition d_time := dim 0 0 1 0.
Definition d_temperature := dim 0 0 0 1.
Definition d_frequency := dim 0 0 (-1) 0.
Definition d_mass_density := dim (-3) 1 0 0.
Definition d_velocity := dim 1 0 (-1) 0.
Definition d_energy := dim 2 1 (-2) 0.
Definition d_action := dim 2 1 (-1) 0.
(** absorption and scattering coefficients: per length *)
Definition d_absorption := dim (-1) 0 0 0.
Definition d_cross_section := dim 2 0 0 0.
(** energy per volume, time (, frequency): erg/cm^3/s(/Hz) *)
Definition d_emissivity_nu := dim (-1) 1 (-2) 0.
Definition d_emissivity := dim (-1) 1 (-3) 0.
(** number per volume and time *)
Definition d_number_emissivity := dim (-3) 0 (-1) 0.
(** specific intensity: erg/cm^2/s/Hz *)
Definition d_intensity_nu := dim 0 1 (-2) 0.
Definition d_intensity_nu_per_temp := dim 0 1 (-2) (-1).
(** energy, number through an area per time *)
Definition d_intensity := dim 0 1 (-3) 0.
Definition d_number_intensity := dim (-2) 0 (-1) 0.
Definition d_energy_density := dim (-1) 1 (-2) 0.
Definition d_number_density := dim (-3) 0 0 0.
