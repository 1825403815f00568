(** Model of photons/epbremsstrahlung_opacity_photons.hpp. *)
From Coq Require Import ZArith.
From Verif Require Import Base.Outcome Base.Ops Model.Constants
  Model.PhotonApi Model.ThermalPhotons.
Open Scope ops_scope.

Section EPBrems.
  Context {T : Type} {O : Ops T} (pc : PhysConst T).

  (** mmw_, 189-190; gff_, 191; prefac_, 192-194 *)
  Definition ep_mmw : T := (pc_mp pc + pc_me pc) / #2.
  Definition ep_gff : T := Odec 12 (-1).
  Definition ep_prefac : T :=
    #8 * Opow (pc_qe pc) #6 / (#3 * Opow (pc_me pc * pc_c pc * pc_c pc) #2) *
    Osqrt (#2 * Opi / #3).

  (** EmissivityPerNuOmega, 87-95 *)
  Definition ep_jnu (rho temp nu : T) : T :=
    let thetaE := pc_kb pc * temp / (pc_me pc * pc_c pc * pc_c pc) in
    let x := pc_h pc * nu / (pc_kb pc * temp) in
    let ne := rho / ep_mmw / #2 in
    let ni := ne in
    ep_prefac / Osqrt thetaE * ne * ni * Oexp (- x) * ep_gff.
  (** EmissivityPerNu, 107-111 *)
  Definition ep_Jnu (rho temp nu : T) : T := #4 * Opi * ep_jnu rho temp nu.
  (** AbsorptionCoefficient, 52-57 *)
  Definition ep_alpha (rho temp nu : T) : T := kirchhoff pc ep_jnu rho temp nu.
  (** AngleAveragedAbsorptionCoefficient, 69-75 *)
  Definition ep_alpha_avg (rho temp nu : T) : T := kirchhoff_avg pc ep_Jnu rho temp nu.
  (** Emissivity, 123-132 *)
  Definition ep_J (rho temp : T) : T :=
    let thetaE := pc_kb pc * temp / (pc_me pc * pc_c pc * pc_c pc) in
    let ne := rho / ep_mmw / #2 in
    let ni := ne in
    #4 * Opi * pc_kb pc * temp / pc_h pc * ep_prefac / Osqrt thetaE * ne * ni * ep_gff.
  (** NumberEmissivity, 134-139 *)
  Definition ep_JN (rho temp : T) : T := Oinf.

  (** The class; array overloads 59-67, 77-85, 97-105, 113-121. *)
  Definition EPBremsstrahlungOpacity : PhotonOpac T := {|
    ph_Absorption := fun rho temp nu => Ok (ep_alpha rho temp nu);
    ph_Absorption_v := fun rho temp =>
      array_loop (fun nu => Ok (ep_alpha rho temp nu));
    ph_AngleAvgAbsorption := fun rho temp nu => Ok (ep_alpha_avg rho temp nu);
    ph_AngleAvgAbsorption_v := fun rho temp =>
      array_loop (fun nu => Ok (ep_alpha_avg rho temp nu));
    ph_EmissivityPerNuOmega := fun rho temp nu => Ok (ep_jnu rho temp nu);
    ph_EmissivityPerNuOmega_v := fun rho temp =>
      array_loop (fun nu => Ok (ep_jnu rho temp nu));
    ph_EmissivityPerNu := fun rho temp nu => Ok (ep_Jnu rho temp nu);
    ph_EmissivityPerNu_v := fun rho temp =>
      array_loop (fun nu => Ok (ep_Jnu rho temp nu));
    ph_Emissivity := fun rho temp => Ok (ep_J rho temp);
    ph_NumberEmissivity := fun rho temp => Ok (ep_JN rho temp);
    ph_ThermalDistributionOfTNu := fun temp nu => Ok (planck_nu pc temp nu);
    ph_DThermalDistributionOfTNuDT := fun temp nu => Ok (planck_dT pc temp nu);
    ph_ThermalDistributionOfT := fun temp => Ok (planck_T pc temp);
    ph_ThermalNumberDistributionOfT := fun temp => Ok (planck_number_T pc temp);
    ph_EnergyDensityFromTemperature := fun temp => Ok (planck_energy_density pc temp);
    ph_TemperatureFromEnergyDensity := fun er => Ok (planck_temperature pc er);
    ph_NumberDensityFromTemperature := fun temp => Ok (planck_number_density pc temp);
    ph_RuntimePC := RuntimePC_of pc;
    ph_nlambda := 0%Z |}.
End EPBrems.
