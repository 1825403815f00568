(** The interface shared by the neutrino absorption opacities
    (neutrinos/neutrino_variant.hpp). Same conventions as PhotonApi: [lambda]
    dropped, indexers are plain arrays in a flat memory. *)
From Coq Require Import ZArith.
From Verif Require Import Base.Outcome Base.Ops Model.Constants Model.RadTypes
  Model.PhotonApi.

Record NuOpac (T : Type) := {
  (* rho temp Ye type nu *)
  nu_Absorption : T -> T -> T -> RadiationType -> T -> result T;
  nu_Absorption_v : T -> T -> T -> RadiationType -> array_call T;
  nu_AngleAvgAbsorption : T -> T -> T -> RadiationType -> T -> result T;
  nu_AngleAvgAbsorption_v : T -> T -> T -> RadiationType -> array_call T;
  nu_EmissivityPerNuOmega : T -> T -> T -> RadiationType -> T -> result T;
  nu_EmissivityPerNuOmega_v : T -> T -> T -> RadiationType -> array_call T;
  nu_EmissivityPerNu : T -> T -> T -> RadiationType -> T -> result T;
  nu_EmissivityPerNu_v : T -> T -> T -> RadiationType -> array_call T;
  nu_Emissivity : T -> T -> T -> RadiationType -> result T;
  nu_NumberEmissivity : T -> T -> T -> RadiationType -> result T;
  nu_ThermalDistributionOfTNu : T -> RadiationType -> T -> result T; (* temp type nu *)
  nu_DThermalDistributionOfTNuDT : T -> RadiationType -> T -> result T;
  nu_ThermalDistributionOfT : T -> RadiationType -> result T;
  nu_ThermalNumberDistributionOfT : T -> RadiationType -> result T;
  nu_EnergyDensityFromTemperature : T -> RadiationType -> result T;
  nu_TemperatureFromEnergyDensity : T -> RadiationType -> result T;
  nu_NumberDensityFromTemperature : T -> RadiationType -> result T;
  nu_RuntimePC : RuntimePC T;
  nu_nlambda : Z;
}.
Arguments nu_Absorption {T}. Arguments nu_Absorption_v {T}.
Arguments nu_AngleAvgAbsorption {T}. Arguments nu_AngleAvgAbsorption_v {T}.
Arguments nu_EmissivityPerNuOmega {T}. Arguments nu_EmissivityPerNuOmega_v {T}.
Arguments nu_EmissivityPerNu {T}. Arguments nu_EmissivityPerNu_v {T}.
Arguments nu_Emissivity {T}. Arguments nu_NumberEmissivity {T}.
Arguments nu_ThermalDistributionOfTNu {T}.
Arguments nu_DThermalDistributionOfTNuDT {T}.
Arguments nu_ThermalDistributionOfT {T}.
Arguments nu_ThermalNumberDistributionOfT {T}.
Arguments nu_EnergyDensityFromTemperature {T}.
Arguments nu_TemperatureFromEnergyDensity {T}.
Arguments nu_NumberDensityFromTemperature {T}.
Arguments nu_RuntimePC {T}. Arguments nu_nlambda {T}.
