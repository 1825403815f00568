(** C07. Temperature and radiation energy density are mutually inverse. *)
From Coq Require Import Reals ZArith Lra Lia.
From Verif Require Import Proofs.C07 Base.Outcome Base.Ops Inst.ER Inst.ERTac Inst.RConsts
  Model.Constants Model.RadTypes Model.ThermalPhotons Model.ThermalNeutrinos
  Model.PhotonApi Model.GrayPhotons Model.PowerLawPhotons
  Model.EPBremsPhotons Model.NeutrinoApi Model.OpacNeutrinos
  Spec.Physics Spec.Integral Spec.Opacities Proofs.PlanckFacts
  Proofs.ThermalIntegrals.
Open Scope R_scope.

(** Photon energy density is a T^4, and the two calls invert each other on
    nonnegative arguments; a negative energy density gives NaN. *)
Theorem C07_photon_inverse :
  forall pc o, positive_hkc pc -> photon_opacity (finpc pc) o ->
  (forall T, 0 <= T -> exists E,
     returns (ph_EnergyDensityFromTemperature o (Fin T)) E /\
     E = 4 * (2 * PI ^ 5 * pc_kb pc ^ 4 / (15 * pc_h pc ^ 3 * pc_c pc ^ 2)) / pc_c pc * T ^ 4 /\
     returns (ph_TemperatureFromEnergyDensity o (Fin E)) T) /\
  (forall E, 0 <= E -> exists T, 0 <= T /\
     returns (ph_TemperatureFromEnergyDensity o (Fin E)) T /\
     returns (ph_EnergyDensityFromTemperature o (Fin T)) E) /\
  (forall E, E < 0 -> ph_TemperatureFromEnergyDensity o (Fin E) = Ok NaN).
Proof. exact C07_photon_inverse_proof. Qed.
Print Assumptions C07_photon_inverse.

Theorem C07_neutrino_inverse :
  forall ns pc o, (0 < ns)%Z -> positive_hkc pc -> neutrino_opacity ns (finpc pc) o ->
  forall type,
  (forall T, 0 <= T -> exists E,
     returns (nu_EnergyDensityFromTemperature o (Fin T) type) E /\
     returns (nu_TemperatureFromEnergyDensity o (Fin E) type) T) /\
  (forall E, 0 <= E -> exists T, 0 <= T /\
     returns (nu_TemperatureFromEnergyDensity o (Fin E) type) T /\
     returns (nu_EnergyDensityFromTemperature o (Fin T) type) E) /\
  (forall E, E < 0 -> nu_TemperatureFromEnergyDensity o (Fin E) type = Ok NaN).
Proof. exact C07_neutrino_inverse_proof. Qed.
Print Assumptions C07_neutrino_inverse.

Example C07_example_holds :
  positive_hkc cgsR /\
  photon_opacity (finpc cgsR) (GrayOpacity PhysicalConstantsCGS (Fin 1)) /\
  neutrino_opacity 3 (finpc cgsR) (TophatEmissivity 3 PhysicalConstantsCGS (Fin 1) (Fin 1) (Fin 2)).
Proof. exact C07_example. Qed.
