(** A NuLib table with real contents, independent of the code. *)
From Coq Require Import Reals ZArith List.
From Verif Require Import Inst.ER Model.SpinerNeutrinos Spec.Tables.
Import ListNotations.
Open Scope R_scope.

(** sizes, coordinates of the points, and the two datasets, read (energy, species, Ye,
    temperature, density) with the density fastest *)
Record nulib := {
  nb_NR : Z; nb_NT : Z; nb_NY : Z; nb_NS : Z; nb_NE : Z;
  nb_rho : list R; nb_temp : list R; nb_ye : list R; nb_energy : list R;
  nb_emissivities : list R; nb_absorption : list R;
}.
Definition nb_size (b : nulib) : Z := (nb_NE b * nb_NS b * nb_NY b * nb_NT b * nb_NR b)%Z.
Definition nb_index (b : nulib) (i j y s e : Z) : nat :=
  Z.to_nat ((((e * nb_NS b + s) * nb_NY b + y) * nb_NT b + j) * nb_NR b + i).
Definition first (l : list R) : R := nth 0 l 0.
Definition final (l : list R) : R := nth (length l - 1) l 0.
(** n points, at least two, from a first to a larger final one *)
Definition points (l : list R) (n : Z) : Prop :=
  (2 <= n < 2 ^ 31)%Z /\ Z.of_nat (length l) = n /\ first l < final l.
Definition nulib_ok (b : nulib) : Prop :=
  points (nb_rho b) (nb_NR b) /\ points (nb_temp b) (nb_NT b) /\ points (nb_ye b) (nb_NY b) /\
  points (nb_energy b) (nb_NE b) /\ (0 <= nb_NS b)%Z /\
  0 < first (nb_rho b) /\ 0 < first (nb_temp b) /\ 0 < first (nb_energy b) /\
  Z.of_nat (length (nb_emissivities b)) = nb_size b /\ Z.of_nat (length (nb_absorption b)) = nb_size b /\
  (forall k, (k < length (nb_absorption b))%nat -> 0 < nth k (nb_absorption b) 0).

(** grids with the same end points: logarithmic but for the electron fraction *)
Definition nb_gR (b : nulib) : rgrid :=
  {| rg_lo := log10 (first (nb_rho b)); rg_hi := log10 (final (nb_rho b)); rg_n := nb_NR b |}.
Definition nb_gT (b : nulib) : rgrid :=
  {| rg_lo := log10 (first (nb_temp b)); rg_hi := log10 (final (nb_temp b)); rg_n := nb_NT b |}.
Definition nb_gY (b : nulib) : rgrid :=
  {| rg_lo := first (nb_ye b); rg_hi := final (nb_ye b); rg_n := nb_NY b |}.
Definition nb_gE (b : nulib) : rgrid :=
  {| rg_lo := log10 (first (nb_energy b)); rg_hi := log10 (final (nb_energy b)); rg_n := nb_NE b |}.

(** the file *)
Definition file_of (b : nulib) : NuLibFile ER := {|
  nl_nrho := Some (nb_NR b); nl_ntemp := Some (nb_NT b); nl_nye := Some (nb_NY b);
  nl_number_groups := Some (nb_NE b); nl_number_species := Some (nb_NS b);
  nl_rho_points := Some (map Fin (nb_rho b)); nl_temp_points := Some (map Fin (nb_temp b));
  nl_neutrino_energies := Some (map Fin (nb_energy b)); nl_ye_points := Some (map Fin (nb_ye b));
  nl_emissivities := Some (map Fin (nb_emissivities b));
  nl_absorption_opacity := Some (map Fin (nb_absorption b)) |}.

(** a caller's state whose coordinates are those of the node (i, j, y) of the table *)
Definition table_node (b : nulib) (kelvin_per_MeV : R) (i j y : Z) (rho T Ye : R) : Prop :=
  (0 <= i < nb_NR b)%Z /\ 0 <= rho /\ rho + tiny = pow10 (rg_node (nb_gR b) i) /\
  (0 <= j < nb_NT b)%Z /\ 0 <= T /\ T / kelvin_per_MeV + tiny = pow10 (rg_node (nb_gT b) j) /\
  (0 <= y < nb_NY b)%Z /\ Ye = rg_node (nb_gY b) y.
(** energy of a group, MeV, and a caller's frequency meeting it *)
Definition group_energy (b : nulib) (e : Z) : R := pow10 (rg_node (nb_gE b) e).
Definition energy_node (b : nulib) (hz_per_MeV : R) (e : Z) (nu : R) : Prop :=
  (0 <= e < nb_NE b)%Z /\ 0 <= nu /\ nu / hz_per_MeV + tiny = group_energy b e.
