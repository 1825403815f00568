(** C49. Coefficients and emissivities are never negative. *)
From Coq Require Import Reals ZArith Lra Lia Bool.
From Flocq Require Import Core IEEE754.BinarySingleNaN.
From Verif Require Import Proofs.C49 Base.Outcome Base.Ops Inst.ER Inst.ERTac Inst.RConsts Inst.B64 Model.Constants Model.RadTypes
  Model.PhotonApi Model.GrayPhotons Model.PowerLawPhotons Model.EPBremsPhotons Model.ThermalPhotons
  Model.NonCGSPhotons Model.ScatteringPhotons Model.NeutrinoApi Model.OpacNeutrinos Model.NonCGSNeutrinos
  Spec.Opacities Spec.Nonneg Proofs.SignLaws.
Open Scope R_scope.

(** Photons, exact arithmetic: every call at every positive temperature and
    frequency returns a nonnegative real number (the bremsstrahlung number
    emissivity: plus infinity; power-law totals with a frequency exponent: an
    error). Gray and bremsstrahlung at every density including zero, the power law
    at every positive density and all parameters its constructor accepts. The same
    through the unit-conversion wrapper, for all positive units. *)
Theorem C49_photons :
  forall pc : PhysConst R, positive_consts pc ->
  let ok := fun D o => photon_nonneg pos_real nonneg_real D o /\
    forall time mass len tmp, pos_real time -> pos_real mass -> pos_real len -> pos_real tmp ->
    photon_nonneg pos_real nonneg_real D (NonCGSUnits (finpc pc) o (mk_units time mass len tmp)) in
  (forall kappa, nonneg_real kappa -> ok nonneg_real (GrayOpacity (finpc pc) kappa)) /\
  (forall p, powerlaw_domain (PP := pos_real) (NN := nonneg_real) (RR := a_real) p ->
     ok pos_real (PowerLawOpacity (finpc pc) p)) /\
  ok nonneg_real (EPBremsstrahlungOpacity (finpc pc)).
Proof. exact C49_photons_proof. Qed.
Print Assumptions C49_photons.

(** binary64 with the library's constants: for arguments that are not negative
    (zeros, infinities and NaN included) no call ever returns a negative number. The
    library functions are only asked for signs. *)
Theorem C49_photons_binary64 :
  forall L : Libm, sane_libm L ->
  let _ := B64_ops L in
  let pc := PhysicalConstantsCGS in
  let ok := fun o => photon_nonneg not_negative not_negative not_negative o /\
    forall time mass len tmp, not_negative time -> not_negative mass -> not_negative len -> not_negative tmp ->
    photon_nonneg not_negative not_negative not_negative (NonCGSUnits pc o (mk_units time mass len tmp)) in
  (forall kappa, not_negative kappa -> ok (GrayOpacity pc kappa)) /\
  (forall p, powerlaw_domain (PP := not_negative) (NN := not_negative) (RR := fun _ => True) p ->
     ok (PowerLawOpacity pc p)) /\
  ok (EPBremsstrahlungOpacity pc).
Proof. exact C49_photons_binary64_proof. Qed.
Print Assumptions C49_photons_binary64.

(** Neutrinos, exact arithmetic, every species and positive number of species.
    Tophat: electron fraction in [0, 1/2], a band 0 < numin <= numax and positive
    density (see C16 for zero density). *)
Theorem C49_neutrinos :
  forall (pc : PhysConst R) (ns : positive), positive_consts pc ->
  let anyYe := fun (_ : ER) (_ : RadiationType) => True in
  let halfYe := fun (Ye : ER) (_ : RadiationType) => exists r, Ye = Fin r /\ 0 <= r <= 1 / 2 in
  let ok := fun D W o => neutrino_nonneg pos_real nonneg_real D W o /\
    forall time mass len tmp, pos_real time -> pos_real mass -> pos_real len -> pos_real tmp ->
    neutrino_nonneg pos_real nonneg_real D W (NuNonCGSUnits (finpc pc) o (mk_units time mass len tmp)) in
  (forall kappa, nonneg_real kappa -> ok nonneg_real anyYe (NuGrayOpacity (Zpos ns) (finpc pc) kappa)) /\
  ok nonneg_real anyYe (BRTOpacity (Zpos ns) (finpc pc)) /\
  (forall K numin numax : R, 0 <= K -> 0 < numin <= numax ->
     ok pos_real halfYe (TophatEmissivity (Zpos ns) (finpc pc) (Fin K) (Fin numin) (Fin numax))).
Proof. exact C49_neutrinos_proof. Qed.
Print Assumptions C49_neutrinos.

(** Scattering, exact arithmetic and every unit system. *)
Theorem C49_scattering :
  forall pc : PhysConst R, positive_consts pc ->
  let ok := fun D o => scattering_nonneg pos_real nonneg_real D o /\
    forall time mass len tmp, pos_real time -> pos_real mass -> pos_real len -> pos_real tmp ->
    scattering_nonneg pos_real nonneg_real D (NonCGSUnitsS o (mk_units time mass len tmp)) in
  forall apm, pos_real apm ->
  (forall sigma, nonneg_real sigma -> ok nonneg_real (GraySOpacity sigma apm)) /\
  ok nonneg_real (ThomsonSOpacity (finpc pc) apm) /\
  (forall p, powerlaw_domain (PP := pos_real) (NN := nonneg_real) (RR := a_real) p ->
     ok pos_real (PowerLawSOpacity p apm)).
Proof. exact C49_scattering_proof. Qed.
Print Assumptions C49_scattering.

(** The stimulated-emission factor the power law applies lies strictly between 0
    and 1: the coefficient with it is that fraction of the coefficient without. *)
Theorem C49_stimulated_factor :
  forall (pc : PhysConst R) (p q : PowerLawParams ER) (rho temp nu : R),
  positive_hkc pc -> 0 < temp -> 0 < nu ->
  powerlaw_domain (PP := pos_real) (NN := nonneg_real) (RR := a_real) p -> 0 < rho ->
  pl_do_stim_emit p = false ->
  q = {| pl_kappa0 := pl_kappa0 p; pl_rho_exp := pl_rho_exp p; pl_temp_exp := pl_temp_exp p;
         pl_rho_ref := pl_rho_ref p; pl_rho_off := pl_rho_off p; pl_temp_ref := pl_temp_ref p;
         pl_temp_off := pl_temp_off p; pl_nu_exp := pl_nu_exp p; pl_nu_ref := pl_nu_ref p;
         pl_nu_off := pl_nu_off p; pl_do_stim_emit := true |} ->
  exists a f : R, 0 < f < 1 /\ f = 1 - exp (- (pc_h pc * nu / (pc_kb pc * temp))) /\
  ph_Absorption (PowerLawOpacity (finpc pc) p) (Fin rho) (Fin temp) (Fin nu) = Ok (Fin a) /\
  ph_Absorption (PowerLawOpacity (finpc pc) q) (Fin rho) (Fin temp) (Fin nu) = Ok (Fin (f * a)).
Proof. exact C49_stimulated_factor_proof. Qed.
Print Assumptions C49_stimulated_factor.

(** Boundary of the claim: at zero temperature the bremsstrahlung emissivity and the
    derivative of the spectrum are NaN, and so is a power law with a negative density
    exponent at zero density. *)
Theorem C49_zero_temperature_refuted :
  forall (pc : PhysConst R) (rho nu : R), positive_consts pc -> 0 < rho -> 0 < nu ->
  ph_EmissivityPerNuOmega (EPBremsstrahlungOpacity (finpc pc)) (Fin rho) (Fin 0) (Fin nu) = Ok NaN /\
  ph_DThermalDistributionOfTNuDT (EPBremsstrahlungOpacity (finpc pc)) (Fin 0) (Fin nu) = Ok NaN.
Proof. exact C49_zero_temperature_refuted_proof. Qed.
Print Assumptions C49_zero_temperature_refuted.

Theorem C49_zero_density_powerlaw_refuted :
  exists p : PowerLawParams ER, powerlaw_ctor p = Ok p /\
  forall pc, ph_Absorption (PowerLawOpacity pc p) (Fin 0) (Fin 1) (Fin 1) = Ok NaN.
Proof. exact C49_zero_density_powerlaw_refuted_proof. Qed.
Print Assumptions C49_zero_density_powerlaw_refuted.

(** The library's CGS constants and a power law with all kinds of exponents. *)
Example C49_photons_example_holds :
  positive_consts cgsR /\
  powerlaw_domain (PP := pos_real) (NN := nonneg_real) (RR := a_real)
    {| pl_kappa0 := Fin 3; pl_rho_exp := Fin 1; pl_temp_exp := Fin (-7 / 2);
       pl_rho_ref := Fin 1; pl_rho_off := Fin 0; pl_temp_ref := Fin 10; pl_temp_off := Fin 1;
       pl_nu_exp := Fin (-3); pl_nu_ref := Fin 2; pl_nu_off := Fin 0; pl_do_stim_emit := true |}.
Proof. exact C49_photons_example. Qed.

(** a library with the required signs exists (constant functions suffice) *)
Example C49_photons_binary64_example_holds : exists L : Libm, sane_libm L.
Proof. exact C49_photons_binary64_example. Qed.
