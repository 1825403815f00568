(** C15. Burrows-Reddy-Thompson opacity: species gating and totals. *)
From Coq Require Import Reals ZArith Lra Lia.
From Coquelicot Require Import Coquelicot.
From Verif Require Import Proofs.C15 Base.Outcome Base.Ops Inst.ER Inst.ERTac Inst.RConsts
  Model.Constants Model.RadTypes Model.NeutrinoApi Model.OpacNeutrinos Spec.Physics
  Spec.Integral Spec.Opacities Proofs.PlanckFacts Proofs.BoseIntegral Proofs.ZetaNum
  Proofs.ThermalIntegrals Proofs.ModelFacts.
Open Scope R_scope.

(** Other species: absorption, emissivity per frequency and total emissivity are
    zero at every state. *)
Theorem C15_other_species_zero :
  forall ns pc, positive_consts pc ->
  forall rho T Ye type nu, type <> NU_ELECTRON -> 0 < T -> 
  let o := BRTOpacity ns (finpc pc) in
  returns (nu_Absorption o (Fin rho) (Fin T) (Fin Ye) type (Fin nu)) 0 /\
  returns (nu_AngleAvgAbsorption o (Fin rho) (Fin T) (Fin Ye) type (Fin nu)) 0 /\
  returns (nu_EmissivityPerNuOmega o (Fin rho) (Fin T) (Fin Ye) type (Fin nu)) 0 /\
  returns (nu_EmissivityPerNu o (Fin rho) (Fin T) (Fin Ye) type (Fin nu)) 0 /\
  returns (nu_Emissivity o (Fin rho) (Fin T) (Fin Ye) type) 0.
Proof. exact C15_other_species_zero_proof. Qed.
Print Assumptions C15_other_species_zero.

(** NumberEmissivity lacks the species check: it returns the same positive number
    for every species, also those whose emissivity is zero. *)
Theorem C15_number_species_refuted :
  forall ns pc, positive_consts pc ->
  forall rho T Ye type, 0 < rho -> 0 < T ->
  let o := BRTOpacity ns (finpc pc) in
  exists v, 0 < v /\ returns (nu_NumberEmissivity o (Fin rho) (Fin T) (Fin Ye) type) v.
Proof. exact C15_number_species_refuted_proof. Qed.
Print Assumptions C15_number_species_refuted.

(** Electron neutrinos: the integral of EmissivityPerNu is NSPECIES times what
    Emissivity returns, up to the digits of zeta(5) (relative error 1e-16). For a
    one-species distribution the property holds. *)
Theorem C15_total_is_integral_over_nspecies :
  forall ns pc, (0 < ns)%Z -> positive_consts pc ->
  forall rho T Ye, 0 < rho -> 0 < T ->
  let o := BRTOpacity ns (finpc pc) in
  exists j v w,
    spectrum (nu_EmissivityPerNu o (Fin rho) (Fin T) (Fin Ye) NU_ELECTRON) j /\
    returns (nu_Emissivity o (Fin rho) (Fin T) (Fin Ye) NU_ELECTRON) v /\
    int_0_inf j w /\ 0 < v /\ 0 < w /\
    Rabs (IZR ns * v - w) <= / 10 ^ 16 * w.
Proof. exact C15_total_is_integral_over_nspecies_proof. Qed.
Print Assumptions C15_total_is_integral_over_nspecies.

(** The library's distribution has three species, so its total emissivity is a
    third of the integral of the spectral one. *)
Theorem C15_total_refuted :
  forall pc, positive_consts pc -> forall rho T Ye, 0 < rho -> 0 < T ->
  let o := BRTOpacity 3 (finpc pc) in
  exists j v w,
    spectrum (nu_EmissivityPerNu o (Fin rho) (Fin T) (Fin Ye) NU_ELECTRON) j /\
    returns (nu_Emissivity o (Fin rho) (Fin T) (Fin Ye) NU_ELECTRON) v /\
    int_0_inf j w /\ 0 < w /\ v < 34 / 100 * w.
Proof. exact C15_total_refuted_proof. Qed.
Print Assumptions C15_total_refuted.

(** The number emissivity stands in the same relation to the integral of
    EmissivityPerNu/(h nu). *)
Theorem C15_number_is_integral_over_nspecies :
  forall ns pc, (0 < ns)%Z -> positive_consts pc ->
  forall rho T Ye, 0 < rho -> 0 < T ->
  let o := BRTOpacity ns (finpc pc) in
  exists j v w,
    spectrum (nu_EmissivityPerNu o (Fin rho) (Fin T) (Fin Ye) NU_ELECTRON) j /\
    returns (nu_NumberEmissivity o (Fin rho) (Fin T) (Fin Ye) NU_ELECTRON) v /\
    int_0_inf (fun nu => j nu / (pc_h pc * nu)) w /\ 0 < w /\
    Rabs (IZR ns * v - w) <= / 10 ^ 14 * w.
Proof. exact C15_number_is_integral_over_nspecies_proof. Qed.
Print Assumptions C15_number_is_integral_over_nspecies.

Example C15_example_holds : positive_consts cgsR /\ NU_HEAVY <> NU_ELECTRON /\ (0 < 1)%Z.
Proof. exact C15_example. Qed.
