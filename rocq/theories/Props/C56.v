(** C56. The closed-form results are accurate in double precision. *)
From Coquelicot Require Import Coquelicot.
From Coq Require Import Reals ZArith Lra Lia Bool.
From Flocq Require Import Core IEEE754.BinarySingleNaN Relative.
From Verif Require Import Proofs.C56 Base.Outcome Base.Ops Inst.B64 Model.Constants Model.RadTypes Model.PhotonApi Model.NeutrinoApi
  Model.Robust Model.ThermalPhotons Model.GrayPhotons Model.PowerLawPhotons Model.EPBremsPhotons Model.ScatteringPhotons
  Model.ThermalNeutrinos Model.OpacNeutrinos Spec.Physics Spec.Opacities Spec.DoublePrecision Spec.DoubleFormulas
  Proofs.B64Facts Proofs.PlanckFacts Proofs.C20 Proofs.Near Proofs.NearConsts Proofs.NearRules Proofs.NearPhotons Proofs.NearNeutrinos.
Open Scope R_scope.

(** Planck's law, for every photon opacity: the call for the spectrum returns it to
    17 + 7 h nu / (k T) roundings.  The bound grows with h nu / (k T) because the
    exponential magnifies the rounding of its argument. *)
Theorem C56_spectrum : forall (L : Libm) (o : PhotonOpac b64) (temp nu : b64),
  let O := B64_ops L in
  let x := h_cgs * B2R nu / (k_cgs * B2R temp) in
  let B := Planck_B h_cgs k_cgs c_cgs (B2R temp) (B2R nu) in
  accurate_libm L -> @photon_opacity b64 O (@PhysicalConstantsCGS b64 O) o ->
  physical temp -> physical nu -> x <= 680 -> not_tiny B ->
  returns (ph_ThermalDistributionOfTNu o temp nu) (17 + 7 * x) B.
Proof. exact C56_spectrum_proof. Qed.
Print Assumptions C56_spectrum.

(** ... and its derivative in the temperature: the call returns the derivative of
    Planck's law to 34 + 7 h nu / (k T) roundings. *)
Theorem C56_derivative : forall (L : Libm) (o : PhotonOpac b64) (temp nu : b64) (D : R),
  let O := B64_ops L in
  let x := h_cgs * B2R nu / (k_cgs * B2R temp) in
  accurate_libm L -> @photon_opacity b64 O (@PhysicalConstantsCGS b64 O) o ->
  physical temp -> physical nu -> x <= 680 ->
  is_derive (fun t => Planck_B h_cgs k_cgs c_cgs t (B2R nu)) (B2R temp) D -> not_tiny D ->
  returns (ph_DThermalDistributionOfTNuDT o temp nu) (34 + 7 * x) D.
Proof. exact C56_derivative_proof. Qed.
Print Assumptions C56_derivative.

(** The integrated thermal functions of every photon opacity are accurate at every
    temperature from 2^-100 to 2^100 K: radiated energy and energy density (29 and 30
    roundings), number of photons and number density (27 and 28; relative to the
    five-digit zeta(3) of the code). *)
Theorem C56_totals : forall (L : Libm) (o : PhotonOpac b64) (temp : b64),
  let O := B64_ops L in
  let t := B2R temp in
  let a := a_rad h_cgs k_cgs c_cgs in
  accurate_libm L -> @photon_opacity b64 O (@PhysicalConstantsCGS b64 O) o -> physical temp ->
  returns (ph_ThermalDistributionOfT o temp) 29 (c_cgs * a * t ^ 4) /\
  returns (ph_EnergyDensityFromTemperature o temp) 30 (a * t ^ 4) /\
  returns (ph_ThermalNumberDistributionOfT o temp) 27 (number_cgs t) /\
  returns (ph_NumberDensityFromTemperature o temp) 28 (number_cgs t / c_cgs).
Proof. exact C56_totals_proof. Qed.
Print Assumptions C56_totals.

(** The temperature of a given energy density, for every photon opacity and every
    energy density from 2^-640 to 2^640: (e/a)^(1/4) to 11 roundings.  Going to the
    energy density and back returns the temperature to 19 roundings. *)
Theorem C56_temperature : forall (L : Libm) (o : PhotonOpac b64) (er temp : b64),
  let O := B64_ops L in
  accurate_libm L -> @photon_opacity b64 O (@PhysicalConstantsCGS b64 O) o ->
  is_finite er = true -> / 2 ^ 640 <= B2R er <= 2 ^ 640 -> physical temp ->
  returns (ph_TemperatureFromEnergyDensity o er) 11 (Rpower (B2R er / a_rad h_cgs k_cgs c_cgs) (/ 4)) /\
  returns (bind (ph_EnergyDensityFromTemperature o temp) (ph_TemperatureFromEnergyDensity o)) 19 (B2R temp).
Proof. exact C56_temperature_proof. Qed.
Print Assumptions C56_temperature.

(** The gray opacity: absorption to 2 roundings, emission per frequency to
    20 + 7 h nu / (k T) (23 for all directions), in total to 32, the number to 29. *)
Theorem C56_gray : forall (L : Libm) (kappa rho temp nu : b64),
  let O := B64_ops L in
  let pc := @PhysicalConstantsCGS b64 O in
  let o := @GrayOpacity b64 O pc kappa in
  let x := h_cgs * B2R nu / (k_cgs * B2R temp) in
  let B := Planck_B h_cgs k_cgs c_cgs (B2R temp) (B2R nu) in
  let j := B2R rho * B2R kappa * B in
  accurate_libm L -> physical kappa -> physical rho -> physical temp -> physical nu ->
  returns (ph_Absorption o rho temp nu) 2 (B2R rho * B2R kappa) /\
  returns (ph_Emissivity o rho temp) 32 (B2R rho * B2R kappa * (c_cgs * a_rad h_cgs k_cgs c_cgs * B2R temp ^ 4)) /\
  returns (ph_NumberEmissivity o rho temp) 29 (B2R kappa * number_cgs (B2R temp)) /\
  (x <= 680 -> not_tiny B -> not_tiny j ->
   returns (ph_EmissivityPerNuOmega o rho temp nu) (20 + 7 * x) j /\
   returns (ph_EmissivityPerNu o rho temp nu) (23 + 7 * x) (4 * PI * j)).
Proof. exact C56_gray_proof. Qed.
Print Assumptions C56_gray.

(** The power law, with exponents whose sizes add up to s: absorption to 3 s + 19
    roundings, emission per frequency to 3 s + 40 + 7 h nu / (k T), and, where the total
    is defined (no power of the frequency), the total to 3 s + 40. *)
Theorem C56_powerlaw : forall (L : Libm) (p : PowerLawParams b64) (rho temp nu : b64),
  let O := B64_ops L in
  let pc := @PhysicalConstantsCGS b64 O in
  let o := @PowerLawOpacity b64 O pc p in
  let s := exps p in
  let x := h_cgs * B2R nu / (k_cgs * B2R temp) in
  let B := Planck_B h_cgs k_cgs c_cgs (B2R temp) (B2R nu) in
  let kappa := powerlaw_R p (B2R rho) (B2R temp) (B2R nu) * stimulated p (B2R temp) (B2R nu) in
  let j := B2R rho * kappa * B in
  accurate_libm L -> powerlaw_ok p rho temp nu ->
  returns (ph_Absorption o rho temp nu) (3 * s + 19) (B2R rho * kappa) /\
  (x <= 680 -> not_tiny B -> not_tiny j -> j <= 2 ^ 1000 ->
   returns (ph_EmissivityPerNuOmega o rho temp nu) (3 * s + 40 + 7 * x) j /\
   returns (ph_EmissivityPerNu o rho temp nu) (3 * s + 43 + 7 * x) (4 * PI * j)) /\
  (let J := B2R rho * powerlaw_R p (B2R rho) (B2R temp) (B2R nu) * (c_cgs * a_rad h_cgs k_cgs c_cgs * B2R temp ^ 4) in
   B2R (pl_nu_exp p) = 0 -> not_tiny J -> J <= 2 ^ 1000 -> 
   returns (ph_Emissivity o rho temp) (3 * s + 40) J).
Proof. exact C56_powerlaw_proof. Qed.
Print Assumptions C56_powerlaw.

(** Bremsstrahlung: emission per frequency to 62 + 7 h nu / (k T) roundings, in total to
    67, and the absorption from Kirchhoff's law to 82 + 14 h nu / (k T) (90 if averaged
    over angles) wherever the spectrum is at least 2^-900, so that the guard against division by zero is lost in
    the rounding. *)
Theorem C56_brems : forall (L : Libm) (rho temp nu : b64),
  let O := B64_ops L in
  let pc := @PhysicalConstantsCGS b64 O in
  let o := @EPBremsstrahlungOpacity b64 O pc in
  let x := h_cgs * B2R nu / (k_cgs * B2R temp) in
  let B := Planck_B h_cgs k_cgs c_cgs (B2R temp) (B2R nu) in
  let j := brems_R (B2R rho) (B2R temp) (B2R nu) in
  accurate_libm L -> physical rho -> physical temp -> physical nu ->
  returns (ph_Emissivity o rho temp) 67 (brems_total_R (B2R rho) (B2R temp)) /\
  (x <= 680 -> not_tiny j ->
   returns (ph_EmissivityPerNuOmega o rho temp nu) (62 + 7 * x) j /\
   returns (ph_EmissivityPerNu o rho temp nu) (65 + 7 * x) (4 * PI * j) /\
   (/ 2 ^ 900 <= B -> not_tiny (j / B) -> j / B <= 2 ^ 1000 ->
    returns (ph_Absorption o rho temp nu) (82 + 14 * x) (j / B) /\
    returns (ph_AngleAvgAbsorption o rho temp nu) (90 + 14 * x) (j / B))).
Proof. exact C56_brems_proof. Qed.
Print Assumptions C56_brems.

(** Scattering with mass per particle m: the gray, Thomson and power-law cross sections
    to 0, 27 and 3 s + 10 roundings, and the coefficients rho/m sigma (Thomson: with one
    electron to two particles) to 3, 30 and 3 s + 12. *)
Theorem C56_scattering : forall (L : Libm) (p : PowerLawParams b64) (sigma m rho temp nu : b64),
  let O := B64_ops L in
  let pc := @PhysicalConstantsCGS b64 O in
  let s := exps p in
  let sR := powerlaw_R p (B2R rho) (B2R temp) (B2R nu) in
  accurate_libm L -> physical sigma -> physical m -> physical rho -> powerlaw_ok p rho temp nu ->
  (let o := @GraySOpacity b64 O sigma m in
   returns (s_TotalCrossSection o rho temp nu) 0 (B2R sigma) /\
   returns (s_TotalScatteringCoefficient o rho temp nu) 3 (B2R rho / B2R m * B2R sigma)) /\
  (let o := @ThomsonSOpacity b64 O pc m in
   returns (s_TotalCrossSection o rho temp nu) 27 sigmaT_cgs /\
   returns (s_TotalScatteringCoefficient o rho temp nu) 30 (B2R rho / B2R m / 2 * sigmaT_cgs)) /\
  (let o := @PowerLawSOpacity b64 O p m in
   returns (s_TotalCrossSection o rho temp nu) (3 * s + 10) sR /\
   returns (s_TotalScatteringCoefficient o rho temp nu) (3 * s + 12) (B2R rho / B2R m * sR)).
Proof. exact C56_scattering_proof. Qed.
Print Assumptions C56_scattering.

(** The Fermi-Dirac spectrum of three species, for every neutrino opacity, to
    15 + 7 h nu / (k T) roundings, and its derivative in the temperature to
    28 + 17 h nu / (k T). *)
Theorem C56_neutrino_spectrum : forall (L : Libm) (o : NuOpac b64) (temp nu : b64) (type : RadiationType) (D : R),
  let O := B64_ops L in
  let x := h_cgs * B2R nu / (k_cgs * B2R temp) in
  let B := FermiDirac_B 3 h_cgs k_cgs c_cgs (B2R temp) (B2R nu) in
  accurate_libm L -> @neutrino_opacity b64 O 3 (@PhysicalConstantsCGS b64 O) o ->
  physical temp -> physical nu -> x <= 680 ->
  (not_tiny B -> returns (nu_ThermalDistributionOfTNu o temp type nu) (15 + 7 * x) B) /\
  (is_derive (fun t => FermiDirac_B 3 h_cgs k_cgs c_cgs t (B2R nu)) (B2R temp) D -> not_tiny D ->
   returns (nu_DThermalDistributionOfTNuDT o temp type nu) (28 + 17 * x) D).
Proof. exact C56_neutrino_spectrum_proof. Qed.
Print Assumptions C56_neutrino_spectrum.

(** The integrated thermal functions of every neutrino opacity: three species carry
    3 x 7/8 of the energy and 3 x 3/4 of the number of photons; energy to 30 and 31
    roundings, number to 28 and 29, the temperature of an energy density to 11, and the
    way there and back to 19. *)
Theorem C56_neutrino_totals : forall (L : Libm) (o : NuOpac b64) (er temp : b64) (type : RadiationType),
  let O := B64_ops L in
  let t := B2R temp in
  let a := 21 / 8 * a_rad h_cgs k_cgs c_cgs in
  accurate_libm L -> @neutrino_opacity b64 O 3 (@PhysicalConstantsCGS b64 O) o ->
  is_finite er = true -> / 2 ^ 640 <= B2R er <= 2 ^ 640 -> physical temp ->
  returns (nu_ThermalDistributionOfT o temp type) 30 (c_cgs * a * t ^ 4) /\
  returns (nu_EnergyDensityFromTemperature o temp type) 31 (a * t ^ 4) /\
  returns (nu_ThermalNumberDistributionOfT o temp type) 28 (9 / 4 * number_cgs t) /\
  returns (nu_NumberDensityFromTemperature o temp type) 29 (9 / 4 * number_cgs t / c_cgs) /\
  returns (nu_TemperatureFromEnergyDensity o er type) 11 (Rpower (B2R er / a) (/ 4)) /\
  returns (bind (nu_EnergyDensityFromTemperature o temp type) (fun e => nu_TemperatureFromEnergyDensity o e type)) 19 t.
Proof. exact C56_neutrino_totals_proof. Qed.
Print Assumptions C56_neutrino_totals.

(** The gray neutrino opacity: absorption to 2 roundings, emission per frequency to
    18 + 7 h nu / (k T) (21 for all directions), in total to 33, the number to 30. *)
Theorem C56_neutrino_gray : forall (L : Libm) (kappa rho temp Ye nu : b64) (type : RadiationType),
  let O := B64_ops L in
  let pc := @PhysicalConstantsCGS b64 O in
  let o := @NuGrayOpacity b64 O 3 pc kappa in
  let x := h_cgs * B2R nu / (k_cgs * B2R temp) in
  let B := FermiDirac_B 3 h_cgs k_cgs c_cgs (B2R temp) (B2R nu) in
  let j := B2R rho * B2R kappa * B in
  accurate_libm L -> physical kappa -> physical rho -> physical temp -> physical nu ->
  returns (nu_Absorption o rho temp Ye type nu) 2 (B2R rho * B2R kappa) /\
  returns (nu_Emissivity o rho temp Ye type) 33
    (B2R rho * B2R kappa * (c_cgs * (21 / 8 * a_rad h_cgs k_cgs c_cgs) * B2R temp ^ 4)) /\
  returns (nu_NumberEmissivity o rho temp Ye type) 30 (B2R kappa * (9 / 4 * number_cgs (B2R temp))) /\
  (x <= 680 -> not_tiny B -> not_tiny j ->
   returns (nu_EmissivityPerNuOmega o rho temp Ye type nu) (18 + 7 * x) j /\
   returns (nu_EmissivityPerNu o rho temp Ye type nu) (21 + 7 * x) (4 * PI * j)).
Proof. exact C56_neutrino_gray_proof. Qed.
Print Assumptions C56_neutrino_gray.

(** Absorption on nucleons, for electron neutrinos: the coefficient to 72 roundings, the
    emission per frequency to 88 + 7 h nu / (k T) (91 for all directions), in total and in
    number to 126. *)
Theorem C56_brt : forall (L : Libm) (rho temp Ye nu : b64),
  let O := B64_ops L in
  let pc := @PhysicalConstantsCGS b64 O in
  let o := @BRTOpacity b64 O 3 pc in
  let x := h_cgs * B2R nu / (k_cgs * B2R temp) in
  let B := FermiDirac_B 3 h_cgs k_cgs c_cgs (B2R temp) (B2R nu) in
  let j := brt_alpha_R (B2R rho) (B2R nu) * B in
  accurate_libm L -> physical rho -> physical temp -> physical nu ->
  returns (nu_Absorption o rho temp Ye NU_ELECTRON nu) 72 (brt_alpha_R (B2R rho) (B2R nu)) /\
  returns (nu_Emissivity o rho temp Ye NU_ELECTRON) 126 (brt_J_R (B2R rho) (B2R temp)) /\
  returns (nu_NumberEmissivity o rho temp Ye NU_ELECTRON) 126 (brt_JN_R (B2R rho) (B2R temp)) /\
  (x <= 680 -> not_tiny B -> not_tiny j ->
   returns (nu_EmissivityPerNuOmega o rho temp Ye NU_ELECTRON nu) (88 + 7 * x) j /\
   returns (nu_EmissivityPerNu o rho temp Ye NU_ELECTRON nu) (91 + 7 * x) (4 * PI * j)).
Proof. exact C56_brt_proof. Qed.
Print Assumptions C56_brt.

(** The tophat emissivity inside its band, for the species it emits (those with a positive
    weight): per frequency to 3 roundings, for all directions to 6, in total to 9. *)
Theorem C56_tophat : forall (L : Libm) (C numin numax rho temp Ye nu : b64) (type : RadiationType),
  let O := B64_ops L in
  let pc := @PhysicalConstantsCGS b64 O in
  let o := @TophatEmissivity b64 O 3 pc C numin numax in
  let w := Ye_weight type (B2R Ye) in
  physical C -> physical numin -> physical numax -> physical nu -> physical Ye -> 0 < w ->
  B2R numin < B2R nu < B2R numax ->
  returns (nu_EmissivityPerNuOmega o rho temp Ye type nu) 3 (B2R C * w) /\
  returns (nu_EmissivityPerNu o rho temp Ye type nu) 6 (4 * PI * (B2R C * w)) /\
  returns (nu_Emissivity o rho temp Ye type) 9 (4 * PI * (B2R C * (B2R numax - B2R numin)) * w).
Proof. exact C56_tophat_proof. Qed.
Print Assumptions C56_tophat.

(** A library that rounds the exact values to the nearest double is accurate. *)
Example C56_library_example_holds : exists L : Libm, accurate_libm L.
Proof. exact C56_library_example. Qed.

(** Both spectra and both derivatives at 10^7 K and 10^18 Hz meet the hypotheses. *)
Example C56_spectrum_example_holds :
  let x := h_cgs * B2R ex_nu / (k_cgs * B2R ex_temp) in
  physical ex_temp /\ physical ex_nu /\ x <= 680 /\
  not_tiny (Planck_B h_cgs k_cgs c_cgs (B2R ex_temp) (B2R ex_nu)) /\
  not_tiny (FermiDirac_B 3 h_cgs k_cgs c_cgs (B2R ex_temp) (B2R ex_nu)) /\
  (exists D, is_derive (fun t => Planck_B h_cgs k_cgs c_cgs t (B2R ex_nu)) (B2R ex_temp) D /\ not_tiny D) /\
  (exists D, is_derive (fun t => FermiDirac_B 3 h_cgs k_cgs c_cgs t (B2R ex_nu)) (B2R ex_temp) D /\ not_tiny D).
Proof. exact C56_spectrum_example. Qed.

(** The gray opacities with kappa = 1 and the nucleon opacity at 1 g/cm^3, 10^7 K and
    10^18 Hz meet the hypotheses. *)
Example C56_gray_example_holds :
  let B := Planck_B h_cgs k_cgs c_cgs (B2R ex_temp) (B2R ex_nu) in
  let F := FermiDirac_B 3 h_cgs k_cgs c_cgs (B2R ex_temp) (B2R ex_nu) in
  physical ex_one /\ not_tiny (B2R ex_one * B2R ex_one * B) /\ not_tiny (B2R ex_one * B2R ex_one * F) /\
  not_tiny (brt_alpha_R (B2R ex_one) (B2R ex_nu) * F).
Proof. exact C56_gray_example. Qed.

(** ... bremsstrahlung there, and ... *)
Example C56_brems_example_holds :
  let B := Planck_B h_cgs k_cgs c_cgs (B2R ex_temp) (B2R ex_nu) in
  let j := brems_R (B2R ex_one) (B2R ex_temp) (B2R ex_nu) in
  not_tiny j /\ / 2 ^ 900 <= B /\ not_tiny (j / B) /\ j / B <= 2 ^ 1000.
Proof. exact C56_brems_example. Qed.

(** ... the power law rho T^(-7/2) with the correction for stimulated emission. *)
Example C56_powerlaw_example_holds :
  exists p : PowerLawParams b64,
  let kappa := powerlaw_R p (B2R ex_one) (B2R ex_temp) (B2R ex_nu) * stimulated p (B2R ex_temp) (B2R ex_nu) in
  let B := Planck_B h_cgs k_cgs c_cgs (B2R ex_temp) (B2R ex_nu) in
  let j := B2R ex_one * kappa * B in
  let J := B2R ex_one * powerlaw_R p (B2R ex_one) (B2R ex_temp) (B2R ex_nu) *
    (c_cgs * a_rad h_cgs k_cgs c_cgs * B2R ex_temp ^ 4) in
  powerlaw_ok p ex_one ex_temp ex_nu /\ B2R (pl_temp_exp p) = - (7 / 2) /\ pl_do_stim_emit p = true /\
  not_tiny j /\ j <= 2 ^ 1000 /\ B2R (pl_nu_exp p) = 0 /\ not_tiny J /\ J <= 2 ^ 1000.
Proof. exact C56_powerlaw_example. Qed.

(** A band from 1 to 10^18 Hz around 10^7 Hz, and an electron fraction of 1/4: the weights
    of electron neutrinos and anti-neutrinos are both 1/2. *)
Example C56_tophat_example_holds :
  exists Ye : b64, physical Ye /\ Ye_weight NU_ELECTRON (B2R Ye) = 1 / 2 /\ Ye_weight NU_ELECTRON_ANTI (B2R Ye) = 1 / 2 /\
  B2R ex_one < B2R ex_temp < B2R ex_nu.
Proof. exact C56_tophat_example. Qed.
