(** C05. Photon number emission is the integral of the number spectrum up to the
    digits of zeta(3). *)
From Coq Require Import Reals ZArith Lra.
From Coquelicot Require Import Coquelicot.
From Verif Require Import Base.Outcome Base.Ops Inst.ER Inst.ERTac Inst.RConsts
  Model.Constants Model.PhotonApi Model.GrayPhotons Model.PowerLawPhotons
  Model.EPBremsPhotons Spec.Physics Spec.Integral Spec.Opacities Proofs.PlanckFacts
  Proofs.ZetaNum Proofs.ThermalIntegrals Proofs.C01.
Open Scope R_scope.

(** [v] is what ThermalNumberDistributionOfT returns, [w] the exact integral of
    the number spectrum. *)
Lemma C05_integral_of_number_spectrum_proof :
  forall pc o, positive_hkc pc -> photon_opacity (finpc pc) o ->
  forall T, 0 < T ->
  exists B v w,
    spectrum (ph_ThermalDistributionOfTNu o (Fin T)) B /\
    returns (ph_ThermalNumberDistributionOfT o (Fin T)) v /\
    int_0_inf (fun nu => 4 * PI * B nu / (pc_h pc * nu)) w /\
    0 < w /\ Rabs (v - w) <= 3 / 10 ^ 6 * w.
Proof.
  intros pc o Hp Ho T HT. destruct Hp as (Hh & Hk & Hc).
  destruct zeta3_bounds as [z [Hz [Hz1 Hz2]]].
  set (A := 16 * PI * pc_kb pc ^ 3 * T ^ 3 / (pc_c pc ^ 2 * pc_h pc ^ 3)).
  assert (HA : 0 < A) by (unfold A; pos).
  exists (Planck_B (pc_h pc) (pc_kb pc) (pc_c pc) T), (A * (120206 / 100000)), (A * z).
  repeat split.
  - intros nu Hn. apply C01_spectrum_is_planck_proof; auto. repeat split; assumption.
  - unfold returns.
    replace (A * (120206 / 100000)) with
      (16 * PI * pc_kb pc ^ 3 * T ^ 3 * (120206 / 100000) / (pc_c pc ^ 2 * pc_h pc ^ 3))
      by (unfold A; field; split; nz).
    rewrite <- planck_number_T_fin by assumption.
    destruct Ho as [[kap ->]|[[p ->]| ->]]; reflexivity.
  - replace (A * z) with
      (16 * PI * pc_kb pc ^ 3 * T ^ 3 * z / (pc_c pc ^ 2 * pc_h pc ^ 3))
      by (unfold A; field; split; nz).
    apply Planck_number_integral; assumption.
  - apply Rmult_lt_0_compat; lra.
  - apply zeta3_rel; lra.
Qed.

Lemma C05_example :
  positive_hkc unityR /\
  photon_opacity (finpc unityR) (GrayOpacity PhysicalConstantsUnity (Fin 2)).
Proof.
  split; [exact (positive_consts_hkc _ unity_pos)|]. left. exists (Fin 2).
  rewrite unity_fin. reflexivity.
Qed.
