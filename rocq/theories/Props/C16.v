(** C16. Tophat emissivity totals are the band integrals of the spectral emissivity. *)
From Coq Require Import Reals ZArith Lra.
From Coquelicot Require Import Coquelicot.
From Verif Require Import Proofs.C16 Base.Outcome Base.Ops Inst.ER Inst.ERTac Inst.RConsts
  Model.Constants Model.RadTypes Model.NeutrinoApi Model.OpacNeutrinos Spec.Physics
  Spec.Integral Spec.Opacities Proofs.BoseIntegral Proofs.ThermalIntegrals Proofs.ModelFacts.
Open Scope R_scope.

(** The spectral emissivity is C times the species weight strictly inside the
    band, zero outside, at every frequency. *)
Theorem C16_spectrum :
  forall ns pc C numin numax rho T Ye type nu,
  let o := TophatEmissivity ns pc (Fin C) (Fin numin) (Fin numax) in
  returns (nu_EmissivityPerNu o rho T (Fin Ye) type (Fin nu))
    (if Rlt_dec numin nu then if Rlt_dec nu numax then 4 * PI * (C * Ye_weight type Ye) else 0
     else 0).
Proof. exact C16_spectrum_proof. Qed.
Print Assumptions C16_spectrum.

Theorem C16_total :
  forall ns pc C numin numax, 0 <= numin -> numin <= numax ->
  forall rho T Ye type,
  let o := TophatEmissivity ns pc (Fin C) (Fin numin) (Fin numax) in
  exists j v,
    spectrum (nu_EmissivityPerNu o rho T (Fin Ye) type) j /\
    returns (nu_Emissivity o rho T (Fin Ye) type) v /\ int_0_inf j v.
Proof. exact C16_total_proof. Qed.
Print Assumptions C16_total.

Theorem C16_number :
  forall ns pc C numin numax, positive_hkc pc -> 0 < numin -> numin <= numax ->
  forall rho T Ye type, 0 < rho ->
  let o := TophatEmissivity ns (finpc pc) (Fin C) (Fin numin) (Fin numax) in
  exists j v,
    spectrum (nu_EmissivityPerNu o (Fin rho) T (Fin Ye) type) j /\
    returns (nu_NumberEmissivity o (Fin rho) T (Fin Ye) type) v /\
    int_0_inf (fun nu => j nu / (pc_h pc * nu)) v.
Proof. exact C16_number_proof. Qed.
Print Assumptions C16_number.

(** NU_HEAVY (and any species other than the two electron ones) emits nothing. *)
Theorem C16_heavy_emits_nothing :
  forall ns pc C numin numax, positive_hkc pc -> 0 < numin -> 0 < numax ->
  forall rho T Ye nu, 0 < rho ->
  let o := TophatEmissivity ns (finpc pc) (Fin C) (Fin numin) (Fin numax) in
  returns (nu_EmissivityPerNuOmega o (Fin rho) T (Fin Ye) NU_HEAVY (Fin nu)) 0 /\
  returns (nu_EmissivityPerNu o (Fin rho) T (Fin Ye) NU_HEAVY (Fin nu)) 0 /\
  returns (nu_Emissivity o (Fin rho) T (Fin Ye) NU_HEAVY) 0 /\
  returns (nu_NumberEmissivity o (Fin rho) T (Fin Ye) NU_HEAVY) 0.
Proof. exact C16_heavy_emits_nothing_proof. Qed.
Print Assumptions C16_heavy_emits_nothing.

(** At zero density the number emissivity, which divides and multiplies by rho, is
    NaN although the emissivity is finite. *)
Theorem C16_number_zero_density_refuted :
  forall ns pc C numin numax T Ye type, positive_hkc pc -> 0 < numin -> 0 < numax ->
  let o := TophatEmissivity ns (finpc pc) (Fin C) (Fin numin) (Fin numax) in
  nu_NumberEmissivity o (Fin 0) T (Fin Ye) type = Ok NaN.
Proof. exact C16_number_zero_density_refuted_proof. Qed.
Print Assumptions C16_number_zero_density_refuted.

Example C16_example_holds : positive_hkc cgsR /\ 0 < 1 /\ 1 <= 2 /\ 0 < 3.
Proof. exact C16_example. Qed.
