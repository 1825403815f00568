(** C13. Power-law total emissivity and the stimulated-emission correction. *)
From Coq Require Import Reals ZArith Lra.
From Coquelicot Require Import Coquelicot.
From Verif Require Import Proofs.C13 Base.Outcome Base.Ops Inst.ER Inst.ERTac Inst.RConsts
  Model.Constants Model.PhotonApi Model.PowerLawPhotons Spec.Physics Spec.Integral
  Spec.Opacities Proofs.PlanckFacts Proofs.BoseIntegral Proofs.Zeta Proofs.ThermalIntegrals
  Proofs.ModelFacts.
Open Scope R_scope.

(** Switching the correction on multiplies the opacity by 1 - exp(-h nu/k T), but
    Emissivity ignores it: with no frequency exponent the integral of
    EmissivityPerNu converges to [w], while Emissivity returns (pi^4/90) w, which
    is larger. *)
Theorem C13_stimulated_total_refuted :
  forall pc k0 re te rr ro tr to nr no,
  positive_hkc pc -> 0 < k0 -> 0 < rr -> 0 < tr -> 0 < nr -> 0 <= ro -> 0 <= to -> 0 <= no ->
  forall rho T, 0 < rho -> 0 < T ->
  let o := PowerLawOpacity (finpc pc)
    {| pl_kappa0 := Fin k0; pl_rho_exp := Fin re; pl_temp_exp := Fin te;
       pl_rho_ref := Fin rr; pl_rho_off := Fin ro; pl_temp_ref := Fin tr;
       pl_temp_off := Fin to; pl_nu_exp := Fin 0; pl_nu_ref := Fin nr;
       pl_nu_off := Fin no; pl_do_stim_emit := true |} in
  exists j v w,
    spectrum (ph_EmissivityPerNu o (Fin rho) (Fin T)) j /\
    returns (ph_Emissivity o (Fin rho) (Fin T)) v /\
    int_0_inf j w /\ v = PI ^ 4 / 90 * w /\ w < v /\ ~ int_0_inf j v.
Proof. exact C13_stimulated_total_refuted_proof. Qed.
Print Assumptions C13_stimulated_total_refuted.

(** With a frequency exponent other than zero (NaN and infinities included) both
    frequency-integrated calls report an error, at every state. *)
Theorem C13_frequency_dependence_is_error :
  forall pc p rho T, pl_nu_exp p <> Fin 0 ->
  let o := PowerLawOpacity pc p in
  ph_Emissivity o rho T = Error /\ ph_NumberEmissivity o rho T = Error.
Proof. exact C13_frequency_dependence_is_error_proof. Qed.
Print Assumptions C13_frequency_dependence_is_error.

Example C13_example_holds : positive_hkc cgsR /\ Fin 2 <> Fin 0 /\ NaN <> Fin 0.
Proof. exact C13_example. Qed.
