(** C01. Photon thermal spectrum is the Planck law. *)
From Coq Require Import Reals ZArith Lra.
From Verif Require Import Proofs.C01 Base.Outcome Base.Ops Inst.ER Inst.ERTac Inst.RConsts
  Model.Constants Model.PhotonApi Model.GrayPhotons Model.PowerLawPhotons
  Model.EPBremsPhotons Spec.Physics Spec.Integral Spec.Opacities Proofs.PlanckFacts.
Open Scope R_scope.

(** Every photon opacity, every positive temperature and frequency: the call
    returns the Planck intensity of the constants, which is positive. *)
Theorem C01_spectrum_is_planck :
  forall pc o, positive_hkc pc -> photon_opacity (finpc pc) o ->
  forall T nu, 0 < T -> 0 < nu ->
    returns (ph_ThermalDistributionOfTNu o (Fin T) (Fin nu))
            (2 * pc_h pc * nu ^ 3 / pc_c pc ^ 2 / (exp (pc_h pc * nu / (pc_kb pc * T)) - 1)) /\
    0 < 2 * pc_h pc * nu ^ 3 / pc_c pc ^ 2 / (exp (pc_h pc * nu / (pc_kb pc * T)) - 1).
Proof. exact C01_spectrum_is_planck_proof. Qed.
Print Assumptions C01_spectrum_is_planck.

(** The spectrum strictly increases with temperature at every frequency. *)
Theorem C01_spectrum_increasing :
  forall pc o, positive_hkc pc -> photon_opacity (finpc pc) o ->
  forall T1 T2 nu b1 b2, 0 < T1 -> T1 < T2 -> 0 < nu ->
    returns (ph_ThermalDistributionOfTNu o (Fin T1) (Fin nu)) b1 ->
    returns (ph_ThermalDistributionOfTNu o (Fin T2) (Fin nu)) b2 -> b1 < b2.
Proof. exact C01_spectrum_increasing_proof. Qed.
Print Assumptions C01_spectrum_increasing.

(** At zero frequency (a removable singularity of the formula) the call returns
    NaN. *)
Theorem C01_zero_frequency_is_nan :
  forall pc o, positive_hkc pc -> photon_opacity (finpc pc) o ->
  forall T, 0 < T -> ph_ThermalDistributionOfTNu o (Fin T) (Fin 0) = Ok NaN.
Proof. exact C01_zero_frequency_is_nan_proof. Qed.
Print Assumptions C01_zero_frequency_is_nan.

(** The hypotheses hold of the library's CGS constants and its gray opacity. *)
Example C01_example_holds :
  positive_hkc cgsR /\ photon_opacity (finpc cgsR) (GrayOpacity PhysicalConstantsCGS (Fin 1)).
Proof. exact C01_example. Qed.
