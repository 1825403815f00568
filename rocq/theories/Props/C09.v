(** C09. Kirchhoff's law for electron-proton bremsstrahlung with the guarded division. *)
From Coq Require Import Reals ZArith Lra.
From Verif Require Import Proofs.C09 Base.Outcome Base.Ops Inst.ER Inst.ERTac Inst.RConsts
  Model.Constants Model.Robust Model.PhotonApi Model.EPBremsPhotons Spec.Physics Spec.Integral
  Spec.Opacities Proofs.PlanckFacts Proofs.ModelFacts.
Open Scope R_scope.

(** [a], [B], [j]: what AbsorptionCoefficient, ThermalDistributionOfTNu and
    EmissivityPerNuOmega return. SMALL is 10 DBL_MIN. *)
Theorem C09_kirchhoff_brems :
  forall pc, positive_consts pc ->
  forall rho T nu, 0 < rho -> 0 < T -> 0 < nu ->
  let o := EPBremsstrahlungOpacity (finpc pc) in
  exists a B j,
    returns (ph_Absorption o (Fin rho) (Fin T) (Fin nu)) a /\
    returns (ph_ThermalDistributionOfTNu o (Fin T) (Fin nu)) B /\
    returns (ph_EmissivityPerNuOmega o (Fin rho) (Fin T) (Fin nu)) j /\
    0 < B /\ 0 < a /\ a <= j / B /\
    a * B = j - a * (10 * powerRZ 2 (-1022)).
Proof. exact C09_kirchhoff_brems_proof. Qed.
Print Assumptions C09_kirchhoff_brems.

Example C09_example_holds : positive_consts cgsR.
Proof. exact C09_example. Qed.
