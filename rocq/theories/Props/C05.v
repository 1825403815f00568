(** C05. Photon number emission is the integral of the number spectrum up to the
    digits of zeta(3). *)
From Coq Require Import Reals ZArith Lra.
From Coquelicot Require Import Coquelicot.
From Verif Require Import Proofs.C05 Base.Outcome Base.Ops Inst.ER Inst.ERTac Inst.RConsts
  Model.Constants Model.PhotonApi Model.GrayPhotons Model.PowerLawPhotons
  Model.EPBremsPhotons Spec.Physics Spec.Integral Spec.Opacities Proofs.PlanckFacts
  Proofs.ZetaNum Proofs.ThermalIntegrals Proofs.C01.
Open Scope R_scope.

(** [v] is what ThermalNumberDistributionOfT returns, [w] the exact integral of
    the number spectrum. *)
Theorem C05_integral_of_number_spectrum :
  forall pc o, positive_hkc pc -> photon_opacity (finpc pc) o ->
  forall T, 0 < T ->
  exists B v w,
    spectrum (ph_ThermalDistributionOfTNu o (Fin T)) B /\
    returns (ph_ThermalNumberDistributionOfT o (Fin T)) v /\
    int_0_inf (fun nu => 4 * PI * B nu / (pc_h pc * nu)) w /\
    0 < w /\ Rabs (v - w) <= 3 / 10 ^ 6 * w.
Proof. exact C05_integral_of_number_spectrum_proof. Qed.
Print Assumptions C05_integral_of_number_spectrum.

Example C05_example_holds :
  positive_hkc unityR /\
  photon_opacity (finpc unityR) (GrayOpacity PhysicalConstantsUnity (Fin 2)).
Proof. exact C05_example. Qed.
