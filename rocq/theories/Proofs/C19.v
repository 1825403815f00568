(** C19. The photon unit-conversion wrapper is covariant. *)
From Coq Require Import Reals ZArith Lra.
From Verif Require Import Base.Outcome Base.Ops Inst.ER Inst.ERTac Model.Constants Model.PhotonApi
  Model.GrayPhotons Model.NonCGSPhotons Inst.RConsts Spec.Units Spec.Opacities Spec.Covariance
  Proofs.PlanckFacts Proofs.UnitFacts Proofs.C20.
Open Scope R_scope.

(** Every unit system, every wrapped opacity whatsoever, all arguments (also
    infinite or NaN), errors included: every scalar method of the wrapper except
    the temperature derivative (C20). *)
Lemma C19_covariant_proof :
  forall s, positive_system s -> forall pc o,
  photon_covariant s o
    (NonCGSUnits pc o (mk_units (Fin (us_time s)) (Fin (us_mass s)) (Fin (us_length s))
                                (Fin (us_temp s)))).
Proof.
  intros s Hs pc o. change (mk_units _ _ _ _) with (sys_units s).
  unfold photon_covariant.
  repeat match goal with |- _ /\ _ => split end; intros; unfold NonCGSUnits;
    cbn [ph_Absorption ph_AngleAvgAbsorption ph_EmissivityPerNuOmega ph_EmissivityPerNu
      ph_Emissivity ph_NumberEmissivity ph_ThermalDistributionOfTNu ph_ThermalDistributionOfT
      ph_ThermalNumberDistributionOfT ph_EnergyDensityFromTemperature
      ph_TemperatureFromEnergyDensity ph_NumberDensityFromTemperature];
    cov s Hs; covr s Hs.
Qed.

Lemma rescale_inj q x y : 0 < q -> rescale q x = rescale q y -> x = y.
Proof.
  intros Hq. destruct x, y; cbn; intros H; try discriminate; try reflexivity.
  injection H as H. f_equal. apply (Rmult_eq_reg_r q); [exact H|lra].
Qed.

Lemma in_code_inj s d x y : positive_system s -> in_code s d x = in_code s d y -> x = y.
Proof.
  intros Hs. destruct x, y; cbn; intros H; try discriminate; try reflexivity.
  injection H as H. f_equal. revert H. apply rescale_inj, Rinv_0_lt_compat, (unit_of_pos s Hs).
Qed.

Lemma dT_call s pc o T nu : positive_system s ->
  ph_DThermalDistributionOfTNuDT (NonCGSUnits pc o (sys_units s)) T nu =
  in_code s d_intensity_nu_per_temp (ph_DThermalDistributionOfTNuDT o T nu).
Proof.
  intros Hs. unfold NonCGSUnits; cbn [ph_DThermalDistributionOfTNuDT].
  cov s Hs. covr s Hs.
Qed.

(** The remaining scalar method, the temperature derivative of the spectrum, for
    every wrapped opacity: it is covariant exactly when the wrapped derivative does
    not notice the conversion of its two arguments. *)
Lemma C19_derivative_iff_proof :
  forall s, positive_system s -> forall pc o,
  photon_dT_covariant s o
    (NonCGSUnits pc o (mk_units (Fin (us_time s)) (Fin (us_mass s)) (Fin (us_length s))
                                (Fin (us_temp s)))) <->
  forall T nu,
    ph_DThermalDistributionOfTNuDT o (in_cgs s d_temperature T) (in_cgs s d_frequency nu) =
    ph_DThermalDistributionOfTNuDT o T nu.
Proof.
  intros s Hs pc o. change (mk_units _ _ _ _) with (sys_units s).
  unfold photon_dT_covariant. split; intros H T nu.
  - apply (in_code_inj s d_intensity_nu_per_temp _ _ Hs). rewrite <- H. now apply dT_call.
  - rewrite dT_call by exact Hs. now rewrite H.
Qed.

(** For the library's opacities that happens only when the time and temperature
    units are both 1. *)
Lemma C19_derivative_units_proof :
  forall pc o s, positive_hkc pc -> photon_opacity (finpc pc) o -> positive_system s ->
  photon_dT_covariant s o
    (NonCGSUnits (finpc pc) o (mk_units (Fin (us_time s)) (Fin (us_mass s)) (Fin (us_length s))
                                        (Fin (us_temp s)))) <->
  us_time s = 1 /\ us_temp s = 1.
Proof.
  intros pc o s Hp Ho Hs. pose proof Hs as (A & B & C & D). split.
  - intros H. pose proof (proj1 (C19_derivative_iff_proof s Hs (finpc pc) o) H) as H'.
    pose proof Hp as (Hh & Hk & Hc).
    destruct (gB_scaling (us_time s) (us_time s * us_temp s) A ltac:(pos)) as [T1 T2].
    2:{ split; [exact T1|]. rewrite T1 in T2. lra. }
    assert (V : forall T nu, 0 < T -> 0 < nu -> ph_DThermalDistributionOfTNuDT o (Fin T) (Fin nu) =
      Ok (Fin (2 * pc_kb pc * nu ^ 2 / pc_c pc ^ 2 * gB (pc_h pc * nu / (pc_kb pc * T))))).
    { intros T nu HT Hn. destruct (planck_dT_fin pc Hh Hk Hc T nu HT Hn) as [d [E Hd]].
      assert (E' : ph_DThermalDistributionOfTNuDT o (Fin T) (Fin nu) = Ok (Fin d))
        by (rewrite <- E; destruct Ho as [[kap ->]|[[p ->]| ->]]; reflexivity).
      rewrite E'. do 2 f_equal.
      exact (is_derive_eq _ _ _ _ Hd (Planck_dT_value _ _ _ _ _ Hh Hk Hc HT Hn)). }
    intros x Hx. set (T := pc_h pc / (pc_kb pc * x)).
    assert (HT : 0 < T) by (unfold T; pos).
    pose proof (H' (Fin T) (Fin 1)) as E.
    unfold in_cgs, rescale in E.
    assert (U1 : unit_of s d_temperature = us_temp s) by (dims; field; nz).
    assert (U2 : unit_of s d_frequency = / us_time s) by (dims; field; nz).
    rewrite U1, U2, !V in E by pos. injection E as E.
    replace (pc_h pc * (1 * / us_time s) / (pc_kb pc * (T * us_temp s)))
      with (x / (us_time s * us_temp s)) in E by (unfold T; field; repeat split; nz).
    replace (pc_h pc * 1 / (pc_kb pc * T)) with x in E by (unfold T; field; repeat split; nz).
    set (q := 2 * pc_kb pc / pc_c pc ^ 2).
    assert (Hq : q <> 0) by (unfold q; nz).
    apply (Rmult_eq_reg_l q); [|exact Hq].
    symmetry. etransitivity; [|etransitivity; [exact E|]]; unfold q; field; repeat split; nz.
  - intros [T1 T2]. apply C19_derivative_iff_proof; [exact Hs|]. intros T nu.
    unfold in_cgs.
    replace (unit_of s d_temperature) with 1 by (dims; rewrite T2; field; nz).
    replace (unit_of s d_frequency) with 1 by (dims; rewrite T1; field; nz).
    now rewrite !rescale_1.
Qed.

(** So "each scalar method is covariant" is false of the code. *)
Lemma C19_derivative_refuted_proof :
  ~ (forall pc o s, positive_hkc pc -> photon_opacity (finpc pc) o -> positive_system s ->
     photon_dT_covariant s o
       (NonCGSUnits (finpc pc) o (mk_units (Fin (us_time s)) (Fin (us_mass s)) (Fin (us_length s))
                                           (Fin (us_temp s))))).
Proof.
  intros H.
  pose (s := {| us_time := 1; us_mass := 1; us_length := 1; us_temp := 2 |}).
  assert (Hs : positive_system s) by (unfold positive_system; cbn; lra).
  assert (Ho : photon_opacity (finpc cgsR) (GrayOpacity (finpc cgsR) (Fin 1))) by (left; eauto).
  pose proof (proj1 (C19_derivative_units_proof _ _ _ cgs_hkc Ho Hs) (H _ _ _ cgs_hkc Ho Hs)) as [_ E].
  cbn in E. lra.
Qed.

(** Kilograms, metres, minutes and electronvolt-like temperatures. *)
Lemma C19_example :
  positive_system {| us_time := 60; us_mass := 1000; us_length := 100; us_temp := 11604 |}.
Proof. unfold positive_system; cbn; lra. Qed.
