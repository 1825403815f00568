(** Model of photons/gray_opacity_photons.hpp (GrayOpacity<pc>). *)
From Coq Require Import ZArith.
From Verif Require Import Base.Outcome Base.Ops Model.Constants
  Model.PhotonApi Model.ThermalPhotons.
Open Scope ops_scope.

Section Gray.
  Context {T : Type} {O : Ops T} (pc : PhysConst T) (kappa : T).

  (** AbsorptionCoefficient, 48-52 *)
  Definition gray_alpha (rho temp nu : T) : T := rho * kappa.
  (** AngleAveragedAbsorptionCoefficient, 64-69 *)
  Definition gray_alpha_avg (rho temp nu : T) : T := gray_alpha rho temp nu.
  (** EmissivityPerNuOmega, 81-86 *)
  Definition gray_jnu (rho temp nu : T) : T :=
    let Bnu := planck_nu pc temp nu in rho * kappa * Bnu.
  (** EmissivityPerNu, 98-102 *)
  Definition gray_Jnu (rho temp nu : T) : T := #4 * Opi * gray_jnu rho temp nu.
  (** Emissivity, 114-119 *)
  Definition gray_J (rho temp : T) : T :=
    let B := planck_T pc temp in rho * kappa * B.
  (** NumberEmissivity, 121-125 *)
  Definition gray_JN (rho temp : T) : T := kappa * planck_number_T pc temp.

  (** The class; array overloads 54-62, 71-79, 88-96, 104-112; thermal
      functions 127-165; runtime constants 167-170; nlambda 41. *)
  Definition GrayOpacity : PhotonOpac T := {|
    ph_Absorption := fun rho temp nu => Ok (gray_alpha rho temp nu);
    ph_Absorption_v := fun rho temp =>
      array_loop (fun nu => Ok (gray_alpha rho temp nu));
    ph_AngleAvgAbsorption := fun rho temp nu => Ok (gray_alpha_avg rho temp nu);
    ph_AngleAvgAbsorption_v := fun rho temp =>
      array_loop (fun nu => Ok (gray_alpha_avg rho temp nu));
    ph_EmissivityPerNuOmega := fun rho temp nu => Ok (gray_jnu rho temp nu);
    ph_EmissivityPerNuOmega_v := fun rho temp =>
      array_loop (fun nu => Ok (gray_jnu rho temp nu));
    ph_EmissivityPerNu := fun rho temp nu => Ok (gray_Jnu rho temp nu);
    ph_EmissivityPerNu_v := fun rho temp =>
      array_loop (fun nu => Ok (gray_Jnu rho temp nu));
    ph_Emissivity := fun rho temp => Ok (gray_J rho temp);
    ph_NumberEmissivity := fun rho temp => Ok (gray_JN rho temp);
    ph_ThermalDistributionOfTNu := fun temp nu => Ok (planck_nu pc temp nu);
    ph_DThermalDistributionOfTNuDT := fun temp nu => Ok (planck_dT pc temp nu);
    ph_ThermalDistributionOfT := fun temp => Ok (planck_T pc temp);
    ph_ThermalNumberDistributionOfT := fun temp => Ok (planck_number_T pc temp);
    ph_EnergyDensityFromTemperature := fun temp => Ok (planck_energy_density pc temp);
    ph_TemperatureFromEnergyDensity := fun er => Ok (planck_temperature pc er);
    ph_NumberDensityFromTemperature := fun temp => Ok (planck_number_density pc temp);
    ph_RuntimePC := RuntimePC_of pc;
    ph_nlambda := 0%Z |}.
End Gray.
