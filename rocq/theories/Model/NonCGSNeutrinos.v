(** Model of neutrinos/non_cgs_neutrinos.hpp (NonCGSUnits, 28-252) and
    neutrinos/{gray_s_opacity_neutrinos,non_cgs_s_neutrinos}.hpp. The unit
    factors (34-45) are computed as in the photon wrapper, so [Units], [mk_units]
    and [noncgs_array] are shared with NonCGSPhotons. *)
From Coq Require Import ZArith.
From Verif Require Import Base.Outcome Base.Ops Model.Constants Model.RadTypes
  Model.PhotonApi Model.NeutrinoApi Model.NonCGSPhotons.
Open Scope ops_scope.
Open Scope result_scope.

(** The neutrino scattering interface (neutrinos/neutrino_s_variant.hpp). *)
Record NuSOpac (T : Type) := {
  nus_TotalCrossSection : T -> T -> T -> RadiationType -> T -> result T;
  nus_DifferentialCrossSection : T -> T -> T -> RadiationType -> T -> T -> result T;
  nus_TotalScatteringCoefficient : T -> T -> T -> RadiationType -> T -> result T;
  nus_nlambda : Z;
}.
Arguments nus_TotalCrossSection {T}. Arguments nus_DifferentialCrossSection {T}.
Arguments nus_TotalScatteringCoefficient {T}. Arguments nus_nlambda {T}.

Section NuNonCGS.
  Context {T : Type} {O : Ops T}.

  Definition NuNonCGSUnits (pc : PhysConst T) (o : NuOpac T) (u : Units T)
    : NuOpac T := {|
    (* 57-68 *)
    nu_Absorption := fun rho temp Ye type nu =>
      alpha <- nu_Absorption o (un_rho u * rho) (un_temp u * temp) Ye type
                             (nu * un_freq u) ;;
      Ok (alpha * un_length u);
    (* 70-85 *)
    nu_Absorption_v := fun rho temp Ye type =>
      noncgs_array u (un_length u)
        (nu_Absorption_v o (rho * un_rho u) (temp * un_temp u) Ye type);
    (* 87-96 *)
    nu_AngleAvgAbsorption := fun rho temp Ye type nu =>
      alpha <- nu_AngleAvgAbsorption o (rho * un_rho u) (temp * un_temp u) Ye type
                                     (nu * un_freq u) ;;
      Ok (alpha * un_length u);
    (* 100-115 *)
    nu_AngleAvgAbsorption_v := fun rho temp Ye type =>
      noncgs_array u (un_length u)
        (nu_AngleAvgAbsorption_v o (rho * un_rho u) (temp * un_temp u) Ye type);
    (* 117-124 *)
    nu_EmissivityPerNuOmega := fun rho temp Ye type nu =>
      jnu <- nu_EmissivityPerNuOmega o (rho * un_rho u) (temp * un_temp u) Ye type
                                     (nu * un_freq u) ;;
      Ok (jnu * un_inv_emiss u);
    (* 126-141 *)
    nu_EmissivityPerNuOmega_v := fun rho temp Ye type =>
      noncgs_array u (un_inv_emiss u)
        (nu_EmissivityPerNuOmega_v o (rho * un_rho u) (temp * un_temp u) Ye type);
    (* 143-150 *)
    nu_EmissivityPerNu := fun rho temp Ye type nu =>
      Jnu <- nu_EmissivityPerNu o (rho * un_rho u) (temp * un_temp u) Ye type
                                (nu * un_freq u) ;;
      Ok (Jnu * un_inv_emiss u);
    (* 152-167 *)
    nu_EmissivityPerNu_v := fun rho temp Ye type =>
      noncgs_array u (un_inv_emiss u)
        (nu_EmissivityPerNu_v o (rho * un_rho u) (temp * un_temp u) Ye type);
    (* 169-176 *)
    nu_Emissivity := fun rho temp Ye type =>
      J <- nu_Emissivity o (rho * un_rho u) (temp * un_temp u) Ye type ;;
      Ok (J * un_inv_emiss u * un_time u);
    (* 178-184 *)
    nu_NumberEmissivity := fun rho temp Ye type =>
      JoH <- nu_NumberEmissivity o (rho * un_rho u) (temp * un_temp u) Ye type ;;
      Ok (JoH * un_inv_num_emiss u);
    (* 186-192 *)
    nu_ThermalDistributionOfTNu := fun temp type nu =>
      BoH <- nu_ThermalDistributionOfTNu o (temp * un_temp u) type (nu * un_freq u) ;;
      Ok (BoH * un_inv_intensity u);
    (* 194-200: temp and nu are passed on unconverted *)
    nu_DThermalDistributionOfTNuDT := fun temp type nu =>
      dBdToH <- nu_DThermalDistributionOfTNuDT o temp type nu ;;
      Ok (dBdToH * un_inv_intensity u * un_temp u);
    (* 202-207 *)
    nu_ThermalDistributionOfT := fun temp type =>
      BoH <- nu_ThermalDistributionOfT o (temp * un_temp u) type ;;
      Ok (BoH * un_inv_energy_dens u * un_time u / un_length u);
    (* 209-215 *)
    nu_ThermalNumberDistributionOfT := fun temp type =>
      NoH <- nu_ThermalNumberDistributionOfT o (temp * un_temp u) type ;;
      Ok (NoH * un_mass u / un_rho u * un_time u / un_length u);
    (* 217-223 *)
    nu_EnergyDensityFromTemperature := fun temp type =>
      BoH <- nu_EnergyDensityFromTemperature o (temp * un_temp u) type ;;
      Ok (BoH * un_inv_energy_dens u);
    (* 225-231 *)
    nu_TemperatureFromEnergyDensity := fun er type =>
      BoH <- nu_TemperatureFromEnergyDensity o (er / un_inv_energy_dens u) type ;;
      Ok (BoH / un_temp u);
    (* 233-239 *)
    nu_NumberDensityFromTemperature := fun temp type =>
      NoH <- nu_NumberDensityFromTemperature o (temp * un_temp u) type ;;
      Ok (NoH * un_mass u / un_rho u);
    (* 241-245 *)
    nu_RuntimePC := RuntimePC_units pc (un_time u) (un_mass u) (un_length u) (un_temp u);
    (* 54-55 *)
    nu_nlambda := nu_nlambda o |}.

  (** GraySOpacity, gray_s_opacity_neutrinos.hpp 45-64 *)
  Definition NuGraySOpacity (sigma apm : T) : NuSOpac T := {|
    nus_TotalCrossSection := fun _ _ _ _ _ => Ok sigma;
    nus_DifferentialCrossSection := fun _ _ _ _ _ _ => Ok (sigma / (#4 * Opi));
    nus_TotalScatteringCoefficient := fun rho _ _ _ _ => Ok ((rho / apm) * sigma);
    nus_nlambda := 0%Z |}.

  (** NonCGSUnitsS, non_cgs_s_neutrinos.hpp 48-78 *)
  Definition NuNonCGSUnitsS (o : NuSOpac T) (u : Units T) : NuSOpac T := {|
    nus_TotalCrossSection := fun rho temp Ye type nu =>
      sigma <- nus_TotalCrossSection o (un_rho u * rho) (un_temp u * temp) Ye type
                                     (nu * un_freq u) ;;
      Ok (sigma / (un_length u * un_length u));
    nus_DifferentialCrossSection := fun rho temp Ye type nu mu =>
      dsigma <- nus_DifferentialCrossSection o (un_rho u * rho) (un_temp u * temp) Ye
                                             type (nu * un_freq u) mu ;;
      Ok (dsigma / (un_length u * un_length u));
    nus_TotalScatteringCoefficient := fun rho temp Ye type nu =>
      alpha <- nus_TotalScatteringCoefficient o (un_rho u * rho) (un_temp u * temp) Ye
                                              type (nu * un_freq u) ;;
      Ok (alpha * un_length u);
    nus_nlambda := nus_nlambda o |}.
End NuNonCGS.
