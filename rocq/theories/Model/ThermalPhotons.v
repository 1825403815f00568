(** Model of photons/thermal_distributions_photons.hpp (PlanckDistribution). *)
From Coq Require Import ZArith.
From Verif Require Import Base.Ops Model.Constants Model.Robust.
Open Scope ops_scope.

Section Planck.
  Context {T : Type} {O : Ops T} (pc : PhysConst T).

  (** ThermalDistributionOfTNu, 31-37 *)
  Definition planck_nu (temp nu : T) : T :=
    let x := pc_h pc * nu / (pc_kb pc * temp) in
    (#2 * pc_h pc * nu * nu * nu / (pc_c pc * pc_c pc)) * #1 / Oexpm1 x.

  (** DThermalDistributionOfTNuDT, 39-48 *)
  Definition planck_dT (temp nu : T) : T :=
    let x := pc_h pc * nu / (pc_kb pc * temp) in
    let expmx := Oexp (- x) in
    let one_minus_expmx := - Oexpm1 (- x) in
    let prefactor := #2 * pc_h pc * pc_h pc * nu * nu * nu * nu /
                     (temp * temp * pc_c pc * pc_c pc * pc_kb pc) in
    prefactor * expmx / (one_minus_expmx * one_minus_expmx).

  (** ThermalDistributionOfT, 50-55 *)
  Definition planck_T (temp : T) : T :=
    #8 * Opow Opi #5 * Opow (pc_kb pc) #4 * Opow temp #4 /
    (#15 * Opow (pc_c pc) #2 * Opow (pc_h pc) #3).

  (** ThermalNumberDistributionOfT, 57-62 *)
  Definition planck_number_T (temp : T) : T :=
    let zeta3 := Odec 120206 (-5) in
    #16 * Opow (pc_kb pc) #3 * Opi * Opow temp #3 * zeta3 /
    (Opow (pc_c pc) #2 * Opow (pc_h pc) #3).

  (** EnergyDensityFromTemperature, 64-67 *)
  Definition planck_energy_density (temp : T) : T := planck_T temp / pc_c pc.

  (** TemperatureFromEnergyDensity, 69-74 *)
  Definition planck_temperature (er : T) : T :=
    Opow (#15 * Opow (pc_c pc) #3 * Opow (pc_h pc) #3 * er /
          (#8 * Opow Opi #5 * Opow (pc_kb pc) #4))
         (#1 / #4).

  (** NumberDensityFromTemperature, 76-79 *)
  Definition planck_number_density (temp : T) : T := planck_number_T temp / pc_c pc.

  (** AbsorptionCoefficientFromKirchhoff, 80-87; [jnu] is J.EmissivityPerNuOmega *)
  Definition kirchhoff (jnu : T -> T -> T -> T) (rho temp nu : T) : T :=
    ratio (jnu rho temp nu) (planck_nu temp nu).

  (** AngleAveragedAbsorptionCoefficientFromKirchhoff, 88-95; [Jnu] is
      J.EmissivityPerNu *)
  Definition kirchhoff_avg (Jnu : T -> T -> T -> T) (rho temp nu : T) : T :=
    ratio (Jnu rho temp nu / (#4 * Opi)) (planck_nu temp nu).
End Planck.
