(** C14. Number emissivity against the integral of the number spectrum. *)
From Coq Require Import Reals ZArith Lra Lia.
From Coquelicot Require Import Coquelicot.
From Verif Require Import Proofs.C14 Base.Outcome Base.Ops Inst.ER Inst.ERTac Inst.RConsts
  Model.Constants Model.RadTypes Model.PhotonApi Model.GrayPhotons Model.PowerLawPhotons
  Model.EPBremsPhotons Model.NeutrinoApi Model.OpacNeutrinos Spec.Physics Spec.Integral
  Spec.Opacities Proofs.PlanckFacts Proofs.BoseIntegral Proofs.ZetaNum
  Proofs.ThermalIntegrals Proofs.ModelFacts.
Open Scope R_scope.

(** Gray photons: the call omits the density. [v] is what it returns and [w] the
    integral of EmissivityPerNu/(h nu): rho v agrees with w (up to the digits of
    zeta(3)), and from rho = 2 on, v is less than 60% of w. *)
Theorem C14_gray_number_refuted :
  forall pc kappa, positive_hkc pc -> 0 < kappa -> forall rho T, 0 < rho -> 0 < T ->
  let o := GrayOpacity (finpc pc) (Fin kappa) in
  exists j v w,
    spectrum (ph_EmissivityPerNu o (Fin rho) (Fin T)) j /\
    returns (ph_NumberEmissivity o (Fin rho) (Fin T)) v /\
    int_0_inf (fun nu => j nu / (pc_h pc * nu)) w /\ 0 < w /\
    Rabs (rho * v - w) <= 3 / 10 ^ 6 * w /\
    (2 <= rho -> v < 6 / 10 * w).
Proof. exact C14_gray_number_refuted_proof. Qed.
Print Assumptions C14_gray_number_refuted.

Theorem C14_powerlaw_number_refuted :
  forall pc k0 re te rr ro tr to nr no,
  positive_hkc pc -> 0 < k0 -> 0 < rr -> 0 < tr -> 0 < nr -> 0 <= ro -> 0 <= to -> 0 <= no ->
  forall rho T, 0 < rho -> 0 < T ->
  let o := PowerLawOpacity (finpc pc)
    {| pl_kappa0 := Fin k0; pl_rho_exp := Fin re; pl_temp_exp := Fin te;
       pl_rho_ref := Fin rr; pl_rho_off := Fin ro; pl_temp_ref := Fin tr;
       pl_temp_off := Fin to; pl_nu_exp := Fin 0; pl_nu_ref := Fin nr;
       pl_nu_off := Fin no; pl_do_stim_emit := false |} in
  exists j v w,
    spectrum (ph_EmissivityPerNu o (Fin rho) (Fin T)) j /\
    returns (ph_NumberEmissivity o (Fin rho) (Fin T)) v /\
    int_0_inf (fun nu => j nu / (pc_h pc * nu)) w /\ 0 < w /\
    Rabs (rho * v - w) <= 3 / 10 ^ 6 * w /\
    (2 <= rho -> v < 6 / 10 * w).
Proof. exact C14_powerlaw_number_refuted_proof. Qed.
Print Assumptions C14_powerlaw_number_refuted.

Theorem C14_gray_neutrino_number_refuted :
  forall ns pc kappa, (0 < ns)%Z -> positive_hkc pc -> 0 < kappa ->
  forall rho T Ye type, 0 < rho -> 0 < T ->
  let o := NuGrayOpacity ns (finpc pc) (Fin kappa) in
  exists j v w,
    spectrum (nu_EmissivityPerNu o (Fin rho) (Fin T) Ye type) j /\
    returns (nu_NumberEmissivity o (Fin rho) (Fin T) Ye type) v /\
    int_0_inf (fun nu => j nu / (pc_h pc * nu)) w /\ 0 < w /\
    Rabs (rho * v - w) <= 3 / 10 ^ 6 * w /\
    (2 <= rho -> v < 6 / 10 * w).
Proof. exact C14_gray_neutrino_number_refuted_proof. Qed.
Print Assumptions C14_gray_neutrino_number_refuted.

(** Bremsstrahlung emits infinitely many soft photons: the integral does not
    converge and the call returns +infinity. *)
Theorem C14_brems_number_diverges :
  forall pc, positive_consts pc -> forall rho T, 0 < rho -> 0 < T ->
  let o := EPBremsstrahlungOpacity (finpc pc) in
  exists j,
    spectrum (ph_EmissivityPerNu o (Fin rho) (Fin T)) j /\
    (forall nu, 0 < nu -> 0 < j nu) /\
    ~ (exists w, int_0_inf (fun nu => j nu / (pc_h pc * nu)) w) /\
    ph_NumberEmissivity o (Fin rho) (Fin T) = Ok PInf.
Proof. exact C14_brems_number_diverges_proof. Qed.
Print Assumptions C14_brems_number_diverges.

Example C14_example_holds : positive_hkc cgsR /\ positive_consts cgsR /\ (0 < 3)%Z.
Proof. exact C14_example. Qed.
