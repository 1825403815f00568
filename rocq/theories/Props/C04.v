(** C04. Photon frequency-integrated thermal emission is the integral of the
    spectrum: the Stefan-Boltzmann law. *)
From Coq Require Import Reals ZArith Lra.
From Coquelicot Require Import Coquelicot.
From Verif Require Import Proofs.C04 Base.Outcome Base.Ops Inst.ER Inst.ERTac Inst.RConsts
  Model.Constants Model.PhotonApi Model.GrayPhotons Model.PowerLawPhotons
  Model.EPBremsPhotons Spec.Physics Spec.Integral Spec.Opacities Proofs.PlanckFacts
  Proofs.ThermalIntegrals Proofs.C01.
Open Scope R_scope.

(** For every photon opacity and temperature there is a spectrum [B], the one
    the spectral call returns at each frequency, and ThermalDistributionOfT is
    4 pi times the integral of [B] over all frequencies; the value is
    4 sigma T^4 with sigma = 2 pi^5 k^4 / (15 h^3 c^2). *)
Theorem C04_integral_of_spectrum :
  forall pc o, positive_hkc pc -> photon_opacity (finpc pc) o ->
  forall T, 0 < T ->
  exists B v,
    spectrum (ph_ThermalDistributionOfTNu o (Fin T)) B /\
    returns (ph_ThermalDistributionOfT o (Fin T)) v /\
    int_0_inf (fun nu => 4 * PI * B nu) v /\
    v = 4 * (2 * PI ^ 5 * pc_kb pc ^ 4 / (15 * pc_h pc ^ 3 * pc_c pc ^ 2)) * T ^ 4.
Proof. exact C04_integral_of_spectrum_proof. Qed.
Print Assumptions C04_integral_of_spectrum.

Example C04_example_holds :
  positive_hkc cgsR /\
  photon_opacity (finpc cgsR) (EPBremsstrahlungOpacity PhysicalConstantsCGS).
Proof. exact C04_example. Qed.
