(** C02. Photon DThermalDistributionOfTNuDT is the temperature derivative. *)
From Coq Require Import Reals ZArith Lra.
From Coquelicot Require Import Coquelicot.
From Verif Require Import Proofs.C02 Base.Outcome Base.Ops Inst.ER Inst.ERTac Inst.RConsts
  Model.Constants Model.ThermalPhotons Model.PhotonApi Model.GrayPhotons Model.PowerLawPhotons
  Model.EPBremsPhotons Spec.Physics Spec.Integral Spec.Opacities Proofs.PlanckFacts.
Open Scope R_scope.

(** Whatever real function [B] of temperature the spectrum call computes at a
    frequency, the derivative call returns the derivative of [B]. *)
Theorem C02_dT_is_derivative :
  forall pc o, positive_hkc pc -> photon_opacity (finpc pc) o ->
  forall nu, 0 < nu ->
  forall B, (forall T, 0 < T ->
    returns (ph_ThermalDistributionOfTNu o (Fin T) (Fin nu)) (B T)) ->
  forall T, 0 < T ->
    exists d, returns (ph_DThermalDistributionOfTNuDT o (Fin T) (Fin nu)) d /\
              is_derive B T d.
Proof. exact C02_dT_is_derivative_proof. Qed.
Print Assumptions C02_dT_is_derivative.

(** such a function exists for the library's CGS bremsstrahlung opacity *)
Example C02_example_holds :
  positive_hkc cgsR /\
  photon_opacity (finpc cgsR) (EPBremsstrahlungOpacity PhysicalConstantsCGS) /\
  exists B, forall T, 0 < T ->
    returns (ph_ThermalDistributionOfTNu (EPBremsstrahlungOpacity PhysicalConstantsCGS)
               (Fin T) (Fin 1)) (B T).
Proof. exact C02_example. Qed.
