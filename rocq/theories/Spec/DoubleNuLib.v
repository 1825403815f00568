(** A NuLib file whose contents are doubles. *)
From Coq Require Import Reals ZArith List.
From Flocq Require Import Core IEEE754.BinarySingleNaN.
From Verif Require Import Inst.B64 Model.SpinerNeutrinos.
Import ListNotations.

(** the file: sizes, three species, the points of the four axes, and the two datasets *)
Definition nulib64 (NR NT NY NE : Z) (rhos temps yes energies emissivities absorption : list b64) : NuLibFile b64 := {|
  nl_nrho := Some NR; nl_ntemp := Some NT; nl_nye := Some NY; nl_number_groups := Some NE; nl_number_species := Some 3%Z;
  nl_rho_points := Some rhos; nl_temp_points := Some temps; nl_neutrino_energies := Some energies; nl_ye_points := Some yes;
  nl_emissivities := Some emissivities; nl_absorption_opacity := Some absorption |}.

(** [N] points from [x] to [y] *)
Definition spans (l : list b64) (N : Z) (x y : b64) : Prop :=
  Z.of_nat (length l) = N /\ nth_error l 0 = Some x /\ nth_error l (length l - 1) = Some y.

(** where a dataset (energy, species, electron fraction, temperature, density) has the group [e] *)
Definition where64 (NR NT NY : Z) (a b y : nat) (s : Z) (e : nat) : nat :=
  Z.to_nat ((((Z.of_nat e * 3 + s) * NY + Z.of_nat y) * NT + Z.of_nat b) * NR + Z.of_nat a).
