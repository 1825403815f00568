(** C61. Unit conversion in double precision costs a few roundings. *)
From Coquelicot Require Import Coquelicot.
From Coq Require Import Reals ZArith List Lra Lia Bool.
From Flocq Require Import Core IEEE754.BinarySingleNaN.
From Verif Require Import Proofs.C61 Base.Outcome Base.Ops Inst.ER Inst.B64 Model.Constants Model.RadTypes
  Model.PhotonApi Model.NeutrinoApi Model.NonCGSPhotons Model.NonCGSNeutrinos Model.ScatteringPhotons
  Spec.Units Spec.Arrays Spec.DoublePrecision Spec.ConvertedPrecision Spec.Opacities Model.GrayPhotons Proofs.C17 Proofs.ArrayFacts Proofs.B64Facts Proofs.Near Proofs.NearConsts Proofs.NearRules.
Import ListNotations.
Open Scope R_scope.

(** A photon opacity in units, in doubles: the wrapped opacity is asked at density,
    temperature, frequency and energy density that are the caller's to 5, 2, 3 and 5
    roundings, and what it returns is converted back to at most 8 more. The wrapped opacity
    is arbitrary. (The temperature derivative is left out: its arguments are not converted,
    see C20.) *)
Theorem C61_photons :
  forall (L : Libm) (pc : PhysConst b64) (o : PhotonOpac b64) (time mass len tmp rho temp nu er : b64),
  physical time -> physical mass -> physical len -> physical tmp ->
  physical rho -> physical temp -> physical nu -> energy er ->
  let s := units_of time mass len tmp in
  let w := @NonCGSUnits b64 (B64_ops L) pc o (@mk_units b64 (B64_ops L) time mass len tmp) in
  exists r t n e,
  to_cgs s 5 d_mass_density rho r /\ to_cgs s 2 d_temperature temp t /\
  to_cgs s 3 d_frequency nu n /\ to_cgs s 5 d_energy_density er e /\
  from_cgs s 2 d_absorption (ph_Absorption o r t n) (ph_Absorption w rho temp nu) /\
  from_cgs s 2 d_absorption (ph_AngleAvgAbsorption o r t n) (ph_AngleAvgAbsorption w rho temp nu) /\
  from_cgs s 5 d_emissivity_nu (ph_EmissivityPerNuOmega o r t n) (ph_EmissivityPerNuOmega w rho temp nu) /\
  from_cgs s 5 d_emissivity_nu (ph_EmissivityPerNu o r t n) (ph_EmissivityPerNu w rho temp nu) /\
  from_cgs s 6 d_emissivity (ph_Emissivity o r t) (ph_Emissivity w rho temp) /\
  from_cgs s 5 d_number_emissivity (ph_NumberEmissivity o r t) (ph_NumberEmissivity w rho temp) /\
  from_cgs s 4 d_intensity_nu (ph_ThermalDistributionOfTNu o t n) (ph_ThermalDistributionOfTNu w temp nu) /\
  from_cgs s 7 d_intensity (ph_ThermalDistributionOfT o t) (ph_ThermalDistributionOfT w temp) /\
  from_cgs s 8 d_number_intensity (ph_ThermalNumberDistributionOfT o t) (ph_ThermalNumberDistributionOfT w temp) /\
  from_cgs s 5 d_energy_density (ph_EnergyDensityFromTemperature o t) (ph_EnergyDensityFromTemperature w temp) /\
  from_cgs s 6 d_number_density (ph_NumberDensityFromTemperature o t) (ph_NumberDensityFromTemperature w temp) /\
  from_cgs s 2 d_temperature (ph_TemperatureFromEnergyDensity o e) (ph_TemperatureFromEnergyDensity w er).
Proof. exact C61_photons_proof. Qed.
Print Assumptions C61_photons.

(** The same for neutrinos, for every composition and species. *)
Theorem C61_neutrinos :
  forall (L : Libm) (pc : PhysConst b64) (o : NuOpac b64) (time mass len tmp rho temp nu er Ye : b64) (ty : RadiationType),
  physical time -> physical mass -> physical len -> physical tmp ->
  physical rho -> physical temp -> physical nu -> energy er ->
  let s := units_of time mass len tmp in
  let w := @NuNonCGSUnits b64 (B64_ops L) pc o (@mk_units b64 (B64_ops L) time mass len tmp) in
  exists r t n e,
  to_cgs s 5 d_mass_density rho r /\ to_cgs s 2 d_temperature temp t /\
  to_cgs s 3 d_frequency nu n /\ to_cgs s 5 d_energy_density er e /\
  from_cgs s 2 d_absorption (nu_Absorption o r t Ye ty n) (nu_Absorption w rho temp Ye ty nu) /\
  from_cgs s 2 d_absorption (nu_AngleAvgAbsorption o r t Ye ty n) (nu_AngleAvgAbsorption w rho temp Ye ty nu) /\
  from_cgs s 5 d_emissivity_nu (nu_EmissivityPerNuOmega o r t Ye ty n) (nu_EmissivityPerNuOmega w rho temp Ye ty nu) /\
  from_cgs s 5 d_emissivity_nu (nu_EmissivityPerNu o r t Ye ty n) (nu_EmissivityPerNu w rho temp Ye ty nu) /\
  from_cgs s 6 d_emissivity (nu_Emissivity o r t Ye ty) (nu_Emissivity w rho temp Ye ty) /\
  from_cgs s 5 d_number_emissivity (nu_NumberEmissivity o r t Ye ty) (nu_NumberEmissivity w rho temp Ye ty) /\
  from_cgs s 4 d_intensity_nu (nu_ThermalDistributionOfTNu o t ty n) (nu_ThermalDistributionOfTNu w temp ty nu) /\
  from_cgs s 7 d_intensity (nu_ThermalDistributionOfT o t ty) (nu_ThermalDistributionOfT w temp ty) /\
  from_cgs s 8 d_number_intensity (nu_ThermalNumberDistributionOfT o t ty) (nu_ThermalNumberDistributionOfT w temp ty) /\
  from_cgs s 5 d_energy_density (nu_EnergyDensityFromTemperature o t ty) (nu_EnergyDensityFromTemperature w temp ty) /\
  from_cgs s 6 d_number_density (nu_NumberDensityFromTemperature o t ty) (nu_NumberDensityFromTemperature w temp ty) /\
  from_cgs s 2 d_temperature (nu_TemperatureFromEnergyDensity o e ty) (nu_TemperatureFromEnergyDensity w er ty).
Proof. exact C61_neutrinos_proof. Qed.
Print Assumptions C61_neutrinos.

(** Scattering opacities in units: cross sections are per area, the coefficient per length. *)
Theorem C61_scattering :
  forall (L : Libm) (o : SOpac b64) (no : NuSOpac b64) (time mass len tmp rho temp nu Ye mu : b64) (ty : RadiationType),
  physical time -> physical mass -> physical len -> physical tmp ->
  physical rho -> physical temp -> physical nu ->
  let s := units_of time mass len tmp in
  let u := @mk_units b64 (B64_ops L) time mass len tmp in
  let w := @NonCGSUnitsS b64 (B64_ops L) o u in
  let nw := @NuNonCGSUnitsS b64 (B64_ops L) no u in
  exists r t n,
  to_cgs s 5 d_mass_density rho r /\ to_cgs s 2 d_temperature temp t /\ to_cgs s 3 d_frequency nu n /\
  from_cgs s 3 d_cross_section (s_TotalCrossSection o r t n) (s_TotalCrossSection w rho temp nu) /\
  from_cgs s 3 d_cross_section (s_DifferentialCrossSection o r t n mu) (s_DifferentialCrossSection w rho temp nu mu) /\
  from_cgs s 2 d_absorption (s_TotalScatteringCoefficient o r t n) (s_TotalScatteringCoefficient w rho temp nu) /\
  from_cgs s 3 d_cross_section (nus_TotalCrossSection no r t Ye ty n) (nus_TotalCrossSection nw rho temp Ye ty nu) /\
  from_cgs s 3 d_cross_section (nus_DifferentialCrossSection no r t Ye ty n mu)
    (nus_DifferentialCrossSection nw rho temp Ye ty nu mu) /\
  from_cgs s 2 d_absorption (nus_TotalScatteringCoefficient no r t Ye ty n)
    (nus_TotalScatteringCoefficient nw rho temp Ye ty nu).
Proof. exact C61_scattering_proof. Qed.
Print Assumptions C61_scattering.

(** Array calls of the wrapped opacities: every output is the scalar result at the caller's
    bin, bit for bit, and the bins come back to 4 roundings (not bit for bit: C18). *)
Theorem C61_arrays :
  forall (L : Libm) (pc : PhysConst b64) (o : PhotonOpac b64), @photon_opacity b64 (B64_ops L) pc o ->
  forall (time mass len tmp rho temp : b64),
  physical time -> physical mass -> physical len -> physical tmp -> physical rho -> physical temp ->
  let w := @NonCGSUnits b64 (B64_ops L) pc o (@mk_units b64 (B64_ops L) time mass len tmp) in
  converted_within 4 (ph_Absorption w rho temp) (ph_Absorption_v w rho temp) /\
  converted_within 4 (ph_AngleAvgAbsorption w rho temp) (ph_AngleAvgAbsorption_v w rho temp) /\
  converted_within 4 (ph_EmissivityPerNuOmega w rho temp) (ph_EmissivityPerNuOmega_v w rho temp) /\
  converted_within 4 (ph_EmissivityPerNu w rho temp) (ph_EmissivityPerNu_v w rho temp).
Proof. exact C61_arrays_proof. Qed.
Print Assumptions C61_arrays.

Theorem C61_neutrino_arrays :
  forall (L : Libm) ns (pc : PhysConst b64) (o : NuOpac b64), @neutrino_opacity b64 (B64_ops L) ns pc o ->
  forall (time mass len tmp rho temp Ye : b64) (ty : RadiationType),
  physical time -> physical mass -> physical len -> physical tmp -> physical rho -> physical temp ->
  let w := @NuNonCGSUnits b64 (B64_ops L) pc o (@mk_units b64 (B64_ops L) time mass len tmp) in
  converted_within 4 (nu_Absorption w rho temp Ye ty) (nu_Absorption_v w rho temp Ye ty) /\
  converted_within 4 (nu_AngleAvgAbsorption w rho temp Ye ty) (nu_AngleAvgAbsorption_v w rho temp Ye ty) /\
  converted_within 4 (nu_EmissivityPerNuOmega w rho temp Ye ty) (nu_EmissivityPerNuOmega_v w rho temp Ye ty) /\
  converted_within 4 (nu_EmissivityPerNu w rho temp Ye ty) (nu_EmissivityPerNu_v w rho temp Ye ty).
Proof. exact C61_neutrino_arrays_proof. Qed.
Print Assumptions C61_neutrino_arrays.

(** The drift of bins reused for many calls is at most linear: after [k] wrapped array calls
    in a row, up to 2^30, of any of the four kinds, at any densities and temperatures, a bin
    is what it was to 4 k roundings. *)
Theorem C61_drift :
  forall (L : Libm) (pc : PhysConst b64) (o : PhotonOpac b64), @photon_opacity b64 (B64_ops L) pc o ->
  forall (time mass len tmp : b64), physical time ->
  let w := @NonCGSUnits b64 (B64_ops L) pc o (@mk_units b64 (B64_ops L) time mass len tmp) in
  let calls c := exists rho temp, c = ph_Absorption_v w rho temp \/ c = ph_AngleAvgAbsorption_v w rho temp \/
                   c = ph_EmissivityPerNuOmega_v w rho temp \/ c = ph_EmissivityPerNu_v w rho temp in
  forall nu_bins coeffs n k m m',
  (0 <= n)%Z -> (nu_bins + Z.to_nat n <= length m)%nat -> (coeffs + Z.to_nat n <= length m)%nat ->
  (coeffs + Z.to_nat n <= nu_bins \/ nu_bins + Z.to_nat n <= coeffs)%nat ->
  call_run calls nu_bins coeffs n k m m' -> INR k <= 2 ^ 30 ->
  forall i nu, (i < Z.to_nat n)%nat -> nth_error m (nu_bins + i) = Some nu -> physical nu ->
  exists nu', nth_error m' (nu_bins + i) = Some nu' /\ within (4 * INR k) nu' (B2R nu).
Proof. exact C61_drift_proof. Qed.
Print Assumptions C61_drift.

(** End to end: a gray opacity of kappa cm^2/g in any units. *)
Theorem C61_gray :
  forall (L : Libm) (pc : PhysConst b64) (kappa time mass len tmp rho temp nu : b64),
  physical kappa -> physical time -> physical mass -> physical len -> physical tmp -> physical rho ->
  let s := units_of time mass len tmp in
  let w := @NonCGSUnits b64 (B64_ops L) pc (@GrayOpacity b64 (B64_ops L) pc kappa)
             (@mk_units b64 (B64_ops L) time mass len tmp) in
  returns (ph_Absorption w rho temp nu) 7
    (B2R rho * unit_of s d_mass_density * B2R kappa / unit_of s d_absorption).
Proof. exact C61_gray_proof. Qed.
Print Assumptions C61_gray.

(** units of 2 s, 3 g, 5 cm, 7 K, and a result that is neither zero nor out of range: the
    hypotheses of the theorems above *)
Example C61_photons_example_holds :
  forall (L : Libm) (pc : PhysConst b64),
  physical (b64_of_Z 2) /\ physical (b64_of_Z 3) /\ physical (b64_of_Z 5) /\ physical (b64_of_Z 7) /\
  energy (b64_of_Z 11) /\
  exists v, ph_Absorption (@GrayOpacity b64 (B64_ops L) pc (b64_of_Z 3)) (b64_of_Z 5) (b64_of_Z 7) (b64_of_Z 2) = Ok v /\
            sized v /\ B2R v = 15.
Proof. exact C61_photons_example. Qed.

(** any number of calls in a row on a bin buffer and an output buffer of one cell each *)
Example C61_drift_example_holds :
  forall (L : Libm) (pc : PhysConst b64) (k : nat),
  let o := @GrayOpacity b64 (B64_ops L) pc (b64_of_Z 3) in
  let w := @NonCGSUnits b64 (B64_ops L) pc o (@mk_units b64 (B64_ops L) (b64_of_Z 49) (b64_of_Z 2) (b64_of_Z 5) (b64_of_Z 7)) in
  let calls c := exists rho temp, c = ph_Absorption_v w rho temp \/ c = ph_AngleAvgAbsorption_v w rho temp \/
                   c = ph_EmissivityPerNuOmega_v w rho temp \/ c = ph_EmissivityPerNu_v w rho temp in
  @photon_opacity b64 (B64_ops L) pc o /\ physical (b64_of_Z 49) /\ physical (b64_of_Z 1) /\
  exists m', call_run calls 0 1 1 k [b64_of_Z 1; b64_of_Z 0] m'.
Proof. exact C61_drift_example. Qed.
