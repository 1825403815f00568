(** C04. Photon frequency-integrated thermal emission is the integral of the
    spectrum: the Stefan-Boltzmann law. *)
From Coq Require Import Reals ZArith Lra.
From Coquelicot Require Import Coquelicot.
From Verif Require Import Base.Outcome Base.Ops Inst.ER Inst.ERTac Inst.RConsts
  Model.Constants Model.PhotonApi Model.GrayPhotons Model.PowerLawPhotons
  Model.EPBremsPhotons Spec.Physics Spec.Integral Spec.Opacities Proofs.PlanckFacts
  Proofs.ThermalIntegrals Proofs.C01.
Open Scope R_scope.

(** For every photon opacity and temperature there is a spectrum [B], the one
    the spectral call returns at each frequency, and ThermalDistributionOfT is
    4 pi times the integral of [B] over all frequencies; the value is
    4 sigma T^4 with sigma = 2 pi^5 k^4 / (15 h^3 c^2). *)
Lemma C04_integral_of_spectrum_proof :
  forall pc o, positive_hkc pc -> photon_opacity (finpc pc) o ->
  forall T, 0 < T ->
  exists B v,
    spectrum (ph_ThermalDistributionOfTNu o (Fin T)) B /\
    returns (ph_ThermalDistributionOfT o (Fin T)) v /\
    int_0_inf (fun nu => 4 * PI * B nu) v /\
    v = 4 * (2 * PI ^ 5 * pc_kb pc ^ 4 / (15 * pc_h pc ^ 3 * pc_c pc ^ 2)) * T ^ 4.
Proof.
  intros pc o Hp Ho T HT. destruct Hp as (Hh & Hk & Hc).
  exists (Planck_B (pc_h pc) (pc_kb pc) (pc_c pc) T),
    (4 * sigma_SB (pc_h pc) (pc_kb pc) (pc_c pc) * T ^ 4).
  repeat split.
  - intros nu Hn. apply C01_spectrum_is_planck_proof; auto. repeat split; assumption.
  - unfold returns. rewrite <- planck_T_fin by assumption.
    destruct Ho as [[kap ->]|[[p ->]| ->]]; reflexivity.
  - apply Planck_integral; assumption.
Qed.

Lemma C04_example :
  positive_hkc cgsR /\
  photon_opacity (finpc cgsR) (EPBremsstrahlungOpacity PhysicalConstantsCGS).
Proof.
  split; [exact cgs_hkc|]. right; right. rewrite cgs_fin. reflexivity.
Qed.
