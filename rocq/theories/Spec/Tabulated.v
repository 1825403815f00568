(** A neutrino opacity tabulated in density, temperature, electron fraction, species and
    energy: its nodes and what it should answer there. Over the reals, independent of the
    code. *)
From Coq Require Import Reals ZArith List.
From Verif Require Import Base.Outcome Inst.ER Model.Constants Model.RadTypes Model.NeutrinoApi Spec.Tables.
Open Scope R_scope.

(** temperature and frequency units of the tables *)
Definition kelvin_per_MeV : R := 11604525006.
Definition hz_per_MeV (pc : PhysConst R) : R := 10 ^ 6 * pc_eV pc / pc_h pc.

(** the real functions an opacity computes: absorption coefficient, emissivity per
    frequency and angle, emissivity, number emissivity *)
Record nu_functions := {
  nf_alpha : R -> R -> R -> RadiationType -> R -> R;
  nf_j : R -> R -> R -> RadiationType -> R -> R;
  nf_J : R -> R -> R -> RadiationType -> R;
  nf_N : R -> R -> R -> RadiationType -> R;
}.
Definition neutrino_species (type : RadiationType) : Prop :=
  type = NU_ELECTRON \/ type = NU_ELECTRON_ANTI \/ type = NU_HEAVY.

(** at positive density, temperature and frequency the opacity answers with the numbers of f *)
Definition computes (o : NuOpac ER) (f : nu_functions) : Prop :=
  forall rho T Ye type nu, 0 < rho -> 0 < T -> 0 < nu -> neutrino_species type ->
  nu_Absorption o (Fin rho) (Fin T) (Fin Ye) type (Fin nu) = Ok (Fin (nf_alpha f rho T Ye type nu)) /\
  nu_EmissivityPerNuOmega o (Fin rho) (Fin T) (Fin Ye) type (Fin nu) = Ok (Fin (nf_j f rho T Ye type nu)) /\
  nu_Emissivity o (Fin rho) (Fin T) (Fin Ye) type = Ok (Fin (nf_J f rho T Ye type)) /\
  nu_NumberEmissivity o (Fin rho) (Fin T) (Fin Ye) type = Ok (Fin (nf_N f rho T Ye type)).

(** what logarithmic storage makes of a number: negative ones become 0, and the guard is added *)
Definition guarded (x : R) : R := Rmax x 0 + tiny.

(** A state at a node: (rho, T) is the node of density and temperature (in g/cm^3 and K), and
    (rho', T') the caller's numbers, whose guarded logarithms are the node's coordinates. *)
Definition density_node (gR : rgrid) (i : Z) (rho rho' : R) : Prop :=
  (0 <= i < rg_n gR)%Z /\ rho = pow10 (rg_node gR i) /\ 0 <= rho' /\ rho' + tiny = rho.
Definition temperature_node (gT : rgrid) (j : Z) (T T' : R) : Prop :=
  (0 <= j < rg_n gT)%Z /\ T = pow10 (rg_node gT j) /\ 0 <= T' /\
  T' / kelvin_per_MeV + tiny = T / kelvin_per_MeV.
Definition fraction_node (gY : rgrid) (k : Z) (Ye : R) : Prop :=
  (0 <= k < rg_n gY)%Z /\ Ye = rg_node gY k.
Definition frequency_node (pc : PhysConst R) (ge : rgrid) (l : Z) (nu nu' : R) : Prop :=
  (0 <= l < rg_n ge)%Z /\ nu = hz_per_MeV pc * pow10 (rg_node ge l) /\ 0 <= nu' /\
  nu' / hz_per_MeV pc + tiny = nu / hz_per_MeV pc.
