(** C12. Total emissivity is the frequency integral of the spectral emissivity. *)
From Coq Require Import Reals ZArith Lra.
From Coquelicot Require Import Coquelicot.
From Verif Require Import Proofs.C12 Base.Outcome Base.Ops Inst.ER Inst.ERTac Inst.RConsts
  Model.Constants Model.RadTypes Model.PhotonApi Model.GrayPhotons Model.PowerLawPhotons
  Model.EPBremsPhotons Model.NeutrinoApi Model.OpacNeutrinos Spec.Physics Spec.Integral
  Spec.Opacities Proofs.PlanckFacts Proofs.BoseIntegral Proofs.ThermalIntegrals
  Proofs.ModelFacts.
Open Scope R_scope.

(** Gray photons, any opacity and density. *)
Theorem C12_gray :
  forall pc kappa, positive_hkc pc -> forall rho T, 0 < T ->
  let o := GrayOpacity (finpc pc) (Fin kappa) in
  exists j v,
    spectrum (ph_EmissivityPerNu o (Fin rho) (Fin T)) j /\
    returns (ph_Emissivity o (Fin rho) (Fin T)) v /\ int_0_inf j v.
Proof. exact C12_gray_proof. Qed.
Print Assumptions C12_gray.

(** Power law without frequency dependence and without the stimulated-emission
    factor: any amplitude, exponents and accepted references and offsets. *)
Theorem C12_powerlaw :
  forall pc k0 re te rr ro tr to nr no,
  positive_hkc pc -> 0 < rr -> 0 < tr -> 0 < nr -> 0 <= ro -> 0 <= to -> 0 <= no ->
  forall rho T, 0 < rho -> 0 < T ->
  let o := PowerLawOpacity (finpc pc)
    {| pl_kappa0 := Fin k0; pl_rho_exp := Fin re; pl_temp_exp := Fin te;
       pl_rho_ref := Fin rr; pl_rho_off := Fin ro; pl_temp_ref := Fin tr;
       pl_temp_off := Fin to; pl_nu_exp := Fin 0; pl_nu_ref := Fin nr;
       pl_nu_off := Fin no; pl_do_stim_emit := false |} in
  exists j v,
    spectrum (ph_EmissivityPerNu o (Fin rho) (Fin T)) j /\
    returns (ph_Emissivity o (Fin rho) (Fin T)) v /\ int_0_inf j v.
Proof. exact C12_powerlaw_proof. Qed.
Print Assumptions C12_powerlaw.

Theorem C12_brems :
  forall pc, positive_consts pc -> forall rho T, 0 < T ->
  let o := EPBremsstrahlungOpacity (finpc pc) in
  exists j v,
    spectrum (ph_EmissivityPerNu o (Fin rho) (Fin T)) j /\
    returns (ph_Emissivity o (Fin rho) (Fin T)) v /\ int_0_inf j v.
Proof. exact C12_brems_proof. Qed.
Print Assumptions C12_brems.

Theorem C12_gray_neutrinos :
  forall ns pc kappa, positive_hkc pc -> forall rho T Ye type, 0 < T ->
  let o := NuGrayOpacity ns (finpc pc) (Fin kappa) in
  exists j v,
    spectrum (nu_EmissivityPerNu o (Fin rho) (Fin T) Ye type) j /\
    returns (nu_Emissivity o (Fin rho) (Fin T) Ye type) v /\ int_0_inf j v.
Proof. exact C12_gray_neutrinos_proof. Qed.
Print Assumptions C12_gray_neutrinos.

Example C12_example_holds : positive_hkc cgsR /\ positive_consts siR.
Proof. exact C12_example. Qed.
