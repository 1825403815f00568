(** C02. Photon DThermalDistributionOfTNuDT is the temperature derivative. *)
From Coq Require Import Reals ZArith Lra.
From Coquelicot Require Import Coquelicot.
From Verif Require Import Base.Outcome Base.Ops Inst.ER Inst.ERTac Inst.RConsts
  Model.Constants Model.ThermalPhotons Model.PhotonApi Model.GrayPhotons Model.PowerLawPhotons
  Model.EPBremsPhotons Spec.Physics Spec.Integral Spec.Opacities Proofs.PlanckFacts.
Open Scope R_scope.

(** Whatever real function [B] of temperature the spectrum call computes at a
    frequency, the derivative call returns the derivative of [B]. *)
Lemma C02_dT_is_derivative_proof :
  forall pc o, positive_hkc pc -> photon_opacity (finpc pc) o ->
  forall nu, 0 < nu ->
  forall B, (forall T, 0 < T ->
    returns (ph_ThermalDistributionOfTNu o (Fin T) (Fin nu)) (B T)) ->
  forall T, 0 < T ->
    exists d, returns (ph_DThermalDistributionOfTNuDT o (Fin T) (Fin nu)) d /\
              is_derive B T d.
Proof.
  intros pc o (Hh & Hk & Hc) Ho nu Hn B HB T HT.
  destruct (planck_dT_fin pc Hh Hk Hc T nu HT Hn) as [d [E Hd]].
  exists d. split.
  - unfold returns. rewrite <- E. destruct Ho as [[kap ->]|[[p ->]| ->]]; reflexivity.
  - apply (is_derive_ext_loc (fun t => Planck_B (pc_h pc) (pc_kb pc) (pc_c pc) t nu));
      [|exact Hd].
    exists (mkposreal T HT). intros t Ht.
    assert (Ht0 : 0 < t).
    { change (Rabs (t - T) < T) in Ht. apply Rabs_def2 in Ht. lra. }
    specialize (HB t Ht0). pose proof (planck_nu_fin pc Hh Hk Hc t nu Ht0 Hn) as E'.
    assert (E2 : ph_ThermalDistributionOfTNu o (Fin t) (Fin nu) =
                 Ok (Fin (Planck_B (pc_h pc) (pc_kb pc) (pc_c pc) t nu))).
    { rewrite <- E'. destruct Ho as [[kap ->]|[[p ->]| ->]]; reflexivity. }
    unfold returns in HB. rewrite HB in E2. injection E2 as E2. symmetry. exact E2.
Qed.

(** such a function exists for the library's CGS bremsstrahlung opacity *)
Lemma C02_example :
  positive_hkc cgsR /\
  photon_opacity (finpc cgsR) (EPBremsstrahlungOpacity PhysicalConstantsCGS) /\
  exists B, forall T, 0 < T ->
    returns (ph_ThermalDistributionOfTNu (EPBremsstrahlungOpacity PhysicalConstantsCGS)
               (Fin T) (Fin 1)) (B T).
Proof.
  destruct cgs_hkc as (Hh & Hk & Hc).
  split; [exact cgs_hkc|]. split; [right; right; rewrite cgs_fin; reflexivity|].
  exists (fun T => Planck_B (pc_h cgsR) (pc_kb cgsR) (pc_c cgsR) T 1).
  intros T HT. unfold returns. rewrite cgs_fin.
  change (Ok (ThermalPhotons.planck_nu (finpc cgsR) (Fin T) (Fin 1)) =
          Ok (Fin (Planck_B (pc_h cgsR) (pc_kb cgsR) (pc_c cgsR) T 1))).
  rewrite (planck_nu_fin cgsR Hh Hk Hc T 1) by lra. reflexivity.
Qed.
