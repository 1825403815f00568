(** C08. Kirchhoff's law for the closed-form absorption models. *)
From Coq Require Import Reals ZArith Lra.
From Verif Require Import Proofs.C08 Base.Outcome Base.Ops Inst.ER Inst.ERTac Inst.RConsts
  Model.Constants Model.RadTypes Model.PhotonApi Model.GrayPhotons Model.PowerLawPhotons
  Model.EPBremsPhotons Model.NeutrinoApi Model.OpacNeutrinos Spec.Physics Spec.Integral
  Spec.Opacities Proofs.PlanckFacts Proofs.ModelFacts.
Open Scope R_scope.

(** Photon Gray and PowerLaw, any arithmetic (so bit for bit in doubles), any
    state: the product of the returned absorption coefficient and the returned
    spectrum is the returned emissivity. *)
Theorem C08_kirchhoff_photons :
  forall (T : Type) (O : Ops T) (pc : PhysConst T) (o : PhotonOpac T),
  (exists kappa, o = GrayOpacity pc kappa) \/ (exists p, o = PowerLawOpacity pc p) ->
  forall rho temp nu alpha B j,
  ph_Absorption o rho temp nu = Ok alpha ->
  ph_ThermalDistributionOfTNu o temp nu = Ok B ->
  ph_EmissivityPerNuOmega o rho temp nu = Ok j ->
  j = Omul alpha B.
Proof. exact C08_kirchhoff_photons_proof. Qed.
Print Assumptions C08_kirchhoff_photons.

Theorem C08_kirchhoff_neutrinos :
  forall (T : Type) (O : Ops T) (ns : Z) (pc : PhysConst T) (o : NuOpac T),
  (exists kappa, o = NuGrayOpacity ns pc kappa) \/ o = BRTOpacity ns pc ->
  forall rho temp Ye type nu alpha B j,
  nu_Absorption o rho temp Ye type nu = Ok alpha ->
  nu_ThermalDistributionOfTNu o temp type nu = Ok B ->
  nu_EmissivityPerNuOmega o rho temp Ye type nu = Ok j ->
  j = Omul alpha B.
Proof. exact C08_kirchhoff_neutrinos_proof. Qed.
Print Assumptions C08_kirchhoff_neutrinos.

(** In exact arithmetic the coefficients are the documented ones: rho kappa for
    Gray; for PowerLaw, density times a product of powers of shifted and scaled
    density, temperature and frequency, times 1 - exp(-h nu / k T) if stimulated
    emission is on; and the emissivity is that coefficient times the Planck law. *)
Theorem C08_gray_values :
  forall pc kappa rho T nu, positive_hkc pc -> 0 < T -> 0 < nu ->
  returns (ph_Absorption (GrayOpacity (finpc pc) (Fin kappa)) (Fin rho) (Fin T) (Fin nu))
    (rho * kappa) /\
  returns (ph_EmissivityPerNuOmega (GrayOpacity (finpc pc) (Fin kappa)) (Fin rho) (Fin T) (Fin nu))
    (rho * kappa * Planck_B (pc_h pc) (pc_kb pc) (pc_c pc) T nu).
Proof. exact C08_gray_values_proof. Qed.
Print Assumptions C08_gray_values.

Theorem C08_powerlaw_values :
  forall pc k0 re te rr ro tr to ne nr no stim,
  positive_hkc pc -> 0 < rr -> 0 < tr -> 0 < nr -> 0 <= ro -> 0 <= to -> 0 <= no ->
  forall rho T nu, 0 < rho -> 0 < T -> 0 < nu ->
  let o := PowerLawOpacity (finpc pc)
    {| pl_kappa0 := Fin k0; pl_rho_exp := Fin re; pl_temp_exp := Fin te;
       pl_rho_ref := Fin rr; pl_rho_off := Fin ro; pl_temp_ref := Fin tr;
       pl_temp_off := Fin to; pl_nu_exp := Fin ne; pl_nu_ref := Fin nr;
       pl_nu_off := Fin no; pl_do_stim_emit := stim |} in
  let alpha := rho * (k0 * Rpower ((rho + ro) / rr) re * Rpower ((T + to) / tr) te *
                      Rpower ((nu + no) / nr) ne *
                      (if stim then 1 - exp (- (pc_h pc * nu / (pc_kb pc * T))) else 1)) in
  returns (ph_Absorption o (Fin rho) (Fin T) (Fin nu)) alpha /\
  returns (ph_EmissivityPerNuOmega o (Fin rho) (Fin T) (Fin nu))
    (alpha * Planck_B (pc_h pc) (pc_kb pc) (pc_c pc) T nu).
Proof. exact C08_powerlaw_values_proof. Qed.
Print Assumptions C08_powerlaw_values.

Example C08_example_holds :
  positive_hkc cgsR /\
  (exists alpha B j,
    nu_Absorption (BRTOpacity 3 (finpc cgsR)) (Fin 1) (Fin 1) (Fin 1) NU_ELECTRON (Fin 1) = Ok alpha /\
    nu_ThermalDistributionOfTNu (BRTOpacity 3 (finpc cgsR)) (Fin 1) NU_ELECTRON (Fin 1) = Ok B /\
    nu_EmissivityPerNuOmega (BRTOpacity 3 (finpc cgsR)) (Fin 1) (Fin 1) (Fin 1) NU_ELECTRON (Fin 1)
      = Ok j).
Proof. exact C08_example. Qed.
