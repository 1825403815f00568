(** Model of neutrinos/thermal_distributions_neutrinos.hpp
    (FermiDiracDistributionNoMu<NSPECIES, pc>). *)
From Coq Require Import ZArith.
From Verif Require Import Base.Ops Model.Constants Model.Robust Model.RadTypes.
Open Scope ops_scope.

Section FermiDirac.
  Context {T : Type} {O : Ops T} (NSPECIES : Z) (pc : PhysConst T).

  (** ThermalDistributionOfTNu, 34-41; the int NSPECIES converts to Real *)
  Definition fd_nu (temp : T) (type : RadiationType) (nu : T) : T :=
    let x := pc_h pc * nu / (pc_kb pc * temp) in
    #NSPECIES * (#2 * pc_h pc * nu * nu * nu / (pc_c pc * pc_c pc)) * #1 /
    (Oexp x + #1).

  (** DThermalDistributionOfTNuDT, 42-53 *)
  Definition fd_dT (temp : T) (type : RadiationType) (nu : T) : T :=
    let x := pc_h pc * nu / (pc_kb pc * temp) in
    let expmx := Oexp (- x) in
    let denom := #1 + expmx in
    let prefactor := #NSPECIES * (#2 * pc_h pc * pc_h pc * nu * nu * nu * nu /
                       (temp * temp * pc_c pc * pc_c pc * pc_kb pc)) in
    prefactor * expmx / (denom * denom).

  (** ThermalDistributionOfT, 54-59 *)
  Definition fd_T (temp : T) (type : RadiationType) : T :=
    #7 * Opow Opi #5 * Opow (pc_kb pc) #4 * #NSPECIES * Opow temp #4 /
    (#15 * Opow (pc_c pc) #2 * Opow (pc_h pc) #3).

  (** ThermalNumberDistributionOfT, 60-66 *)
  Definition fd_number_T (temp : T) (type : RadiationType) : T :=
    let zeta3 := Odec 120206 (-5) in
    #12 * Opow (pc_kb pc) #3 * Opi * #NSPECIES * Opow temp #3 * zeta3 /
    (Opow (pc_c pc) #2 * Opow (pc_h pc) #3).

  (** EnergyDensityFromTemperature, 67-71 *)
  Definition fd_energy_density (temp : T) (type : RadiationType) : T :=
    fd_T temp type / pc_c pc.

  (** TemperatureFromEnergyDensity, 72-79 *)
  Definition fd_temperature (er : T) (type : RadiationType) : T :=
    Opow (#15 * Opow (pc_c pc) #3 * Opow (pc_h pc) #3 * er /
          (#7 * Opow Opi #5 * Opow (pc_kb pc) #4 * #NSPECIES))
         (#1 / #4).

  (** NumberDensityFromTemperature, 80-84 *)
  Definition fd_number_density (temp : T) (type : RadiationType) : T :=
    fd_number_T temp type / pc_c pc.

  (** The macro EPS, 30 *)
  Definition fd_EPS : T := #10 * Onum_min.

  (** AbsorptionCoefficientFromKirchhoff, 85-94 *)
  Definition fd_kirchhoff (jnu : T -> T -> T -> RadiationType -> T -> T)
      (rho temp Ye : T) (type : RadiationType) (nu : T) : T :=
    let Bnu := Omax (fd_nu temp type nu) fd_EPS in
    let j := Omax (jnu rho temp Ye type nu) fd_EPS in
    ratio j Bnu.

  (** AngleAveragedAbsorptionCoefficientFromKirchhoff, 95-105 *)
  Definition fd_kirchhoff_avg (Jnu : T -> T -> T -> RadiationType -> T -> T)
      (rho temp Ye : T) (type : RadiationType) (nu : T) : T :=
    let Bnu := Omax (fd_nu temp type nu) fd_EPS in
    let j := Omax (Jnu rho temp Ye type nu) fd_EPS / (#4 * Opi) in
    ratio j Bnu.
End FermiDirac.
