(** C01. Photon thermal spectrum is the Planck law. *)
From Coq Require Import Reals ZArith Lra.
From Verif Require Import Base.Outcome Base.Ops Inst.ER Inst.ERTac Inst.RConsts
  Model.Constants Model.PhotonApi Model.GrayPhotons Model.PowerLawPhotons
  Model.EPBremsPhotons Spec.Physics Spec.Integral Spec.Opacities Proofs.PlanckFacts.
Open Scope R_scope.

(** Every photon opacity, every positive temperature and frequency: the call
    returns the Planck intensity of the constants, which is positive. *)
Lemma C01_spectrum_is_planck_proof :
  forall pc o, positive_hkc pc -> photon_opacity (finpc pc) o ->
  forall T nu, 0 < T -> 0 < nu ->
    returns (ph_ThermalDistributionOfTNu o (Fin T) (Fin nu))
            (2 * pc_h pc * nu ^ 3 / pc_c pc ^ 2 / (exp (pc_h pc * nu / (pc_kb pc * T)) - 1)) /\
    0 < 2 * pc_h pc * nu ^ 3 / pc_c pc ^ 2 / (exp (pc_h pc * nu / (pc_kb pc * T)) - 1).
Proof.
  intros pc o (Hh & Hk & Hc) Ho T nu HT Hn.
  assert (E : ph_ThermalDistributionOfTNu o (Fin T) (Fin nu) =
    Ok (Fin (Planck_B (pc_h pc) (pc_kb pc) (pc_c pc) T nu))).
  { rewrite <- planck_nu_fin by assumption.
    destruct Ho as [[kap ->]|[[p ->]| ->]]; reflexivity. }
  split; [exact E|]. apply (Planck_B_pos pc Hh Hk Hc); assumption.
Qed.

(** The spectrum strictly increases with temperature at every frequency. *)
Lemma C01_spectrum_increasing_proof :
  forall pc o, positive_hkc pc -> photon_opacity (finpc pc) o ->
  forall T1 T2 nu b1 b2, 0 < T1 -> T1 < T2 -> 0 < nu ->
    returns (ph_ThermalDistributionOfTNu o (Fin T1) (Fin nu)) b1 ->
    returns (ph_ThermalDistributionOfTNu o (Fin T2) (Fin nu)) b2 -> b1 < b2.
Proof.
  intros pc o Hp Ho T1 T2 nu b1 b2 H1 H12 Hn E1 E2.
  destruct (C01_spectrum_is_planck_proof pc o Hp Ho T1 nu H1 Hn) as [F1 _].
  destruct (C01_spectrum_is_planck_proof pc o Hp Ho T2 nu ltac:(lra) Hn) as [F2 _].
  unfold returns in *. rewrite E1 in F1. rewrite E2 in F2.
  injection F1 as ->. injection F2 as ->. destruct Hp as (Hh & Hk & Hc).
  apply (Planck_B_incr pc Hh Hk Hc T1 T2 nu); assumption.
Qed.

(** At zero frequency (a removable singularity of the formula) the call returns
    NaN. *)
Lemma C01_zero_frequency_is_nan_proof :
  forall pc o, positive_hkc pc -> photon_opacity (finpc pc) o ->
  forall T, 0 < T -> ph_ThermalDistributionOfTNu o (Fin T) (Fin 0) = Ok NaN.
Proof.
  intros pc o (Hh & Hk & Hc) Ho T HT.
  rewrite <- (planck_nu_zero pc Hk Hc T HT).
  destruct Ho as [[kap ->]|[[p ->]| ->]]; reflexivity.
Qed.

(** The hypotheses hold of the library's CGS constants and its gray opacity. *)
Lemma C01_example :
  positive_hkc cgsR /\ photon_opacity (finpc cgsR) (GrayOpacity PhysicalConstantsCGS (Fin 1)).
Proof.
  split; [exact cgs_hkc|]. left. exists (Fin 1). rewrite cgs_fin. reflexivity.
Qed.
