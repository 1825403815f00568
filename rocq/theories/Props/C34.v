(** C34. The Wien-tail weights are the exact ones to better than 1e-34. *)
From Coq Require Import Reals ZArith List Lia Lra Bool.
From Coquelicot Require Import Coquelicot.
From Verif Require Import Proofs.C34 Base.Outcome Base.Ops Inst.ER Inst.ERTac Model.Constants Model.ThermalPhotons Model.MeanUtils
  Spec.Physics Spec.Opacities Spec.Means Inst.RConsts Proofs.BoseIntegral Proofs.PlanckFacts Proofs.MeanExact.
Open Scope R_scope.

(** From h nu = 80 kT on the two weights are positive and differ from the Planck spectrum
    and from its temperature derivative by less than one part in 10^34. *)
Theorem C34_weights :
  forall pc : PhysConst R, positive_hkc pc ->
  forall T nu : R, 0 < T -> 0 < nu -> 80 <= pc_h pc * nu / (pc_kb pc * T) ->
  let exact := fun t : R => Planck_B (pc_h pc) (pc_kb pc) (pc_c pc) t nu in
  exists B dB : R,
    ThermalWeightsAtNu (finpc pc) (Fin T) (Fin nu) = (Fin B, Fin dB) /\ 0 < B /\ 0 < dB /\
    Rabs (B - exact T) < / 10 ^ 34 * exact T /\
    Rabs (dB - Derive exact T) < / 10 ^ 34 * Derive exact T.
Proof. exact C34_weights_proof. Qed.
Print Assumptions C34_weights.

(** At 100 kT / h in CGS units the Wien form is used. *)
Example C34_weights_example_holds :
  positive_hkc cgsR /\ 0 < 1 /\ 0 < 100 * pc_kb cgsR / pc_h cgsR /\
  80 <= pc_h cgsR * (100 * pc_kb cgsR / pc_h cgsR) / (pc_kb cgsR * 1).
Proof. exact C34_weights_example. Qed.

(** Below h nu = 80 kT the weights are the Planck spectrum and its temperature derivative
    themselves. *)
Theorem C34_below :
  forall pc : PhysConst R, positive_hkc pc ->
  forall T nu : R, 0 < T -> 0 < nu -> pc_h pc * nu / (pc_kb pc * T) < 80 ->
  let exact := fun t : R => Planck_B (pc_h pc) (pc_kb pc) (pc_c pc) t nu in
  ThermalWeightsAtNu (finpc pc) (Fin T) (Fin nu) = (Fin (exact T), Fin (Derive exact T)).
Proof. exact C34_below_proof. Qed.
Print Assumptions C34_below.
