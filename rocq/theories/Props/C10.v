(** C10. Isotropic models: angle-averaged absorption equals absorption; the tophat
    model is the exception. *)
From Coq Require Import Reals ZArith Lra Lia.
From Verif Require Import Proofs.C10 Base.Outcome Base.Ops Inst.ER Inst.ERTac Inst.RConsts
  Model.Constants Model.Robust Model.RadTypes Model.PhotonApi Model.ThermalPhotons
  Model.GrayPhotons Model.PowerLawPhotons Model.EPBremsPhotons Model.NeutrinoApi
  Model.ThermalNeutrinos Model.OpacNeutrinos Spec.Physics Spec.Integral
  Spec.Opacities Proofs.PlanckFacts Proofs.ModelFacts.
Open Scope R_scope.

(** Gray and PowerLaw photons, Gray and BRT neutrinos: any arithmetic, any state,
    scalar and array calls. *)
Theorem C10_angle_average_photons :
  forall (T : Type) (O : Ops T) (pc : PhysConst T) (o : PhotonOpac T),
  (exists kappa, o = GrayOpacity pc kappa) \/ (exists p, o = PowerLawOpacity pc p) ->
  forall rho temp,
  (forall nu, ph_AngleAvgAbsorption o rho temp nu = ph_Absorption o rho temp nu) /\
  (forall nu_bins coeffs n m,
    ph_AngleAvgAbsorption_v o rho temp nu_bins coeffs n m =
    ph_Absorption_v o rho temp nu_bins coeffs n m).
Proof. exact C10_angle_average_photons_proof. Qed.
Print Assumptions C10_angle_average_photons.

Theorem C10_angle_average_neutrinos :
  forall (T : Type) (O : Ops T) (ns : Z) (pc : PhysConst T) (o : NuOpac T),
  (exists kappa, o = NuGrayOpacity ns pc kappa) \/ o = BRTOpacity ns pc ->
  forall rho temp Ye type,
  (forall nu, nu_AngleAvgAbsorption o rho temp Ye type nu = nu_Absorption o rho temp Ye type nu) /\
  (forall nu_bins coeffs n m,
    nu_AngleAvgAbsorption_v o rho temp Ye type nu_bins coeffs n m =
    nu_Absorption_v o rho temp Ye type nu_bins coeffs n m).
Proof. exact C10_angle_average_neutrinos_proof. Qed.
Print Assumptions C10_angle_average_neutrinos.

(** Bremsstrahlung averages over angle by dividing the angle-integrated
    emissivity by 4 pi: equal in exact arithmetic at every state, NaN and
    infinities included. *)
Theorem C10_angle_average_brems :
  forall (pc : PhysConst ER) rho temp nu,
  let o := EPBremsstrahlungOpacity pc in
  ph_AngleAvgAbsorption o rho temp nu = ph_Absorption o rho temp nu.
Proof. exact C10_angle_average_brems_proof. Qed.
Print Assumptions C10_angle_average_brems.

(** The tophat model violates the property: at every state strictly inside the
    band whose emissivity is above the clamp, AbsorptionCoefficient is 4 pi times
    smaller than AngleAveragedAbsorptionCoefficient, and Kirchhoff's law holds for
    the latter (up to the guards) but not for the former. *)
Theorem C10_tophat_angle_average_refuted :
  forall pc ns C n1 n2, positive_hkc pc -> (0 < ns)%Z ->
  forall rho T Ye nu, 0 < T -> 0 < n1 -> n1 < nu -> nu < n2 ->
  10 * powerRZ 2 (-1022) <= C * (2 * Ye) ->
  let o := TophatEmissivity ns (finpc pc) (Fin C) (Fin n1) (Fin n2) in
  exists a avg,
  returns (nu_Absorption o (Fin rho) (Fin T) (Fin Ye) NU_ELECTRON (Fin nu)) a /\
  returns (nu_AngleAvgAbsorption o (Fin rho) (Fin T) (Fin Ye) NU_ELECTRON (Fin nu)) avg /\
  avg = 4 * PI * a /\ a <> avg.
Proof. exact C10_tophat_angle_average_refuted_proof. Qed.
Print Assumptions C10_tophat_angle_average_refuted.

Example C10_example_holds :
  positive_hkc cgsR /\ (0 < 3)%Z /\ 10 * powerRZ 2 (-1022) <= 1 * (2 * (1 / 2)).
Proof. exact C10_example. Qed.
