(** The interface shared by the photon absorption opacities
    (photons/photon_variant.hpp lists it). Array overloads take two buffers in
    a flat memory: [nu_bins] and [coeffs] are base addresses, [nbins] a C++ int.

    Simplifications: the trailing argument [Real *lambda] is dropped; no
    modelled opacity dereferences it (all report nlambda() = 0). Indexers are
    plain arrays (FrequencyIndexer / DataIndexer = Real pointers). *)
From Coq Require Import ZArith List.
From Verif Require Import Base.Outcome Base.Ops Model.Constants.

Definition array_call (T : Type) :=
  (* nu_bins, coeffs, nbins, memory before -> memory after *)
  nat -> nat -> Z -> mem T -> result (mem T).

Record PhotonOpac (T : Type) := {
  ph_Absorption : T -> T -> T -> result T;            (* rho temp nu *)
  ph_Absorption_v : T -> T -> array_call T;
  ph_AngleAvgAbsorption : T -> T -> T -> result T;
  ph_AngleAvgAbsorption_v : T -> T -> array_call T;
  ph_EmissivityPerNuOmega : T -> T -> T -> result T;
  ph_EmissivityPerNuOmega_v : T -> T -> array_call T;
  ph_EmissivityPerNu : T -> T -> T -> result T;
  ph_EmissivityPerNu_v : T -> T -> array_call T;
  ph_Emissivity : T -> T -> result T;                 (* rho temp *)
  ph_NumberEmissivity : T -> T -> result T;
  ph_ThermalDistributionOfTNu : T -> T -> result T;   (* temp nu *)
  ph_DThermalDistributionOfTNuDT : T -> T -> result T;
  ph_ThermalDistributionOfT : T -> result T;
  ph_ThermalNumberDistributionOfT : T -> result T;
  ph_EnergyDensityFromTemperature : T -> result T;
  ph_TemperatureFromEnergyDensity : T -> result T;
  ph_NumberDensityFromTemperature : T -> result T;
  ph_RuntimePC : RuntimePC T;
  ph_nlambda : Z;
}.
Arguments ph_Absorption {T}. Arguments ph_Absorption_v {T}.
Arguments ph_AngleAvgAbsorption {T}. Arguments ph_AngleAvgAbsorption_v {T}.
Arguments ph_EmissivityPerNuOmega {T}. Arguments ph_EmissivityPerNuOmega_v {T}.
Arguments ph_EmissivityPerNu {T}. Arguments ph_EmissivityPerNu_v {T}.
Arguments ph_Emissivity {T}. Arguments ph_NumberEmissivity {T}.
Arguments ph_ThermalDistributionOfTNu {T}.
Arguments ph_DThermalDistributionOfTNuDT {T}.
Arguments ph_ThermalDistributionOfT {T}.
Arguments ph_ThermalNumberDistributionOfT {T}.
Arguments ph_EnergyDensityFromTemperature {T}.
Arguments ph_TemperatureFromEnergyDensity {T}.
Arguments ph_NumberDensityFromTemperature {T}.
Arguments ph_RuntimePC {T}. Arguments ph_nlambda {T}.

(** The loop every array overload of the plain models consists of, e.g.
    gray_opacity_photons.hpp 59-61:
    for (i = 0; i < nbins; ++i) coeffs[i] = F(nu_bins[i]); *)
Definition array_loop {T} (F : T -> result T) : array_call T :=
  fun nu_bins coeffs nbins m =>
    for_int nbins
      (fun i m => nu <- load m (nu_bins + i) ;; v <- F nu ;; store m (coeffs + i) v)
      m.

(** for (i = 0; i < n; ++i) a[i] *= factor; *)
Definition scale_loop {T} {O : Ops T} (a : nat) (factor : T) (n : Z) (m : mem T)
  : result (mem T) :=
  for_int n (fun i m => v <- load m (a + i) ;; store m (a + i) (Omul v factor)) m.
