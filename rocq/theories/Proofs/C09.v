(** C09. Kirchhoff's law for electron-proton bremsstrahlung with the guarded division. *)
From Coq Require Import Reals ZArith Lra.
From Verif Require Import Base.Outcome Base.Ops Inst.ER Inst.ERTac Inst.RConsts
  Model.Constants Model.Robust Model.PhotonApi Model.EPBremsPhotons Spec.Physics Spec.Integral
  Spec.Opacities Proofs.PlanckFacts Proofs.ModelFacts.
Open Scope R_scope.

(** [a], [B], [j]: what AbsorptionCoefficient, ThermalDistributionOfTNu and
    EmissivityPerNuOmega return. SMALL is 10 DBL_MIN. *)
Lemma C09_kirchhoff_brems_proof :
  forall pc, positive_consts pc ->
  forall rho T nu, 0 < rho -> 0 < T -> 0 < nu ->
  let o := EPBremsstrahlungOpacity (finpc pc) in
  exists a B j,
    returns (ph_Absorption o (Fin rho) (Fin T) (Fin nu)) a /\
    returns (ph_ThermalDistributionOfTNu o (Fin T) (Fin nu)) B /\
    returns (ph_EmissivityPerNuOmega o (Fin rho) (Fin T) (Fin nu)) j /\
    0 < B /\ 0 < a /\ a <= j / B /\
    a * B = j - a * (10 * powerRZ 2 (-1022)).
Proof.
  intros pc Hp rho T nu Hr HT Hn o.
  destruct (pc_all pc Hp) as (Hh & Hk & Hc & _).
  pose proof (Planck_B_pos pc Hh Hk Hc T nu HT Hn) as HB.
  pose proof R_SMALL_pos as Hs.
  set (B := Planck_B (pc_h pc) (pc_kb pc) (pc_c pc) T nu) in *.
  set (j := ep_A pc rho T * exp (- (pc_h pc * nu / (pc_kb pc * T)))).
  assert (Hj : 0 < j) by (unfold j; pose proof (ep_A_pos pc Hp rho T Hr HT); pos).
  exists (j / (B + 10 * R_num_min)), B, j.
  split; [|split; [|split; [|split; [|split; [|split]]]]].
  - unfold returns, o. cbn [ph_Absorption EPBremsstrahlungOpacity].
    rewrite (ep_alpha_fin pc Hp) by assumption. reflexivity.
  - unfold returns, o. cbn [ph_ThermalDistributionOfTNu EPBremsstrahlungOpacity].
    rewrite planck_nu_fin by assumption. reflexivity.
  - unfold returns, o. cbn [ph_EmissivityPerNuOmega EPBremsstrahlungOpacity].
    rewrite (ep_jnu_fin pc Hp) by assumption. reflexivity.
  - exact HB.
  - apply Rdiv_lt_0_compat; lra.
  - apply Rmult_le_compat_l; [lra|]. apply Rinv_le_contravar; lra.
  - change (powerRZ 2 (-1022)) with R_num_min. field. lra.
Qed.

Lemma C09_example : positive_consts cgsR.
Proof. exact cgs_pos. Qed.
