(** C13. Power-law total emissivity and the stimulated-emission correction. *)
From Coq Require Import Reals ZArith Lra.
From Coquelicot Require Import Coquelicot.
From Verif Require Import Base.Outcome Base.Ops Inst.ER Inst.ERTac Inst.RConsts
  Model.Constants Model.PhotonApi Model.PowerLawPhotons Spec.Physics Spec.Integral
  Spec.Opacities Proofs.PlanckFacts Proofs.BoseIntegral Proofs.Zeta Proofs.ThermalIntegrals
  Proofs.ModelFacts.
Open Scope R_scope.

(** Switching the correction on multiplies the opacity by 1 - exp(-h nu/k T), but
    Emissivity ignores it: with no frequency exponent the integral of
    EmissivityPerNu converges to [w], while Emissivity returns (pi^4/90) w, which
    is larger. *)
Lemma C13_stimulated_total_refuted_proof :
  forall pc k0 re te rr ro tr to nr no,
  positive_hkc pc -> 0 < k0 -> 0 < rr -> 0 < tr -> 0 < nr -> 0 <= ro -> 0 <= to -> 0 <= no ->
  forall rho T, 0 < rho -> 0 < T ->
  let o := PowerLawOpacity (finpc pc)
    {| pl_kappa0 := Fin k0; pl_rho_exp := Fin re; pl_temp_exp := Fin te;
       pl_rho_ref := Fin rr; pl_rho_off := Fin ro; pl_temp_ref := Fin tr;
       pl_temp_off := Fin to; pl_nu_exp := Fin 0; pl_nu_ref := Fin nr;
       pl_nu_off := Fin no; pl_do_stim_emit := true |} in
  exists j v w,
    spectrum (ph_EmissivityPerNu o (Fin rho) (Fin T)) j /\
    returns (ph_Emissivity o (Fin rho) (Fin T)) v /\
    int_0_inf j w /\ v = PI ^ 4 / 90 * w /\ w < v /\ ~ int_0_inf j v.
Proof.
  intros pc k0 re te rr ro tr to nr no (Hh & Hk & Hc) Hk0 Hrr Htr Hnr Hro Hto Hno rho T Hr HT o.
  set (p := {| pl_kappa0 := k0; pl_rho_exp := re; pl_temp_exp := te;
       pl_rho_ref := rr; pl_rho_off := ro; pl_temp_ref := tr;
       pl_temp_off := to; pl_nu_exp := 0; pl_nu_ref := nr;
       pl_nu_off := no; pl_do_stim_emit := true |}).
  assert (Hrefs : pl_refs p) by (unfold pl_refs, p; cbn; auto).
  change o with (PowerLawOpacity (finpc pc) (finpl p)). clear o.
  assert (HP : 0 < pl_prefactor p rho T).
  { unfold pl_prefactor. apply Rmult_lt_0_compat; [apply Rmult_lt_0_compat; [assumption|]|]; apply exp_pos. }
  set (P := pl_prefactor p rho T) in *.
  set (w := rho * P * (48 * PI * pc_kb pc ^ 4 * T ^ 4 / (pc_c pc ^ 2 * pc_h pc ^ 3))).
  assert (Hw : 0 < w) by (unfold w; pos).
  set (j := fun nu => 4 * PI * (rho * P * (2 * pc_h pc * nu ^ 3 / pc_c pc ^ 2 *
                                            exp (- (pc_h pc * nu / (pc_kb pc * T)))))).
  assert (Hj : int_0_inf j w).
  { assert (Hq : 0 < pc_h pc / (pc_kb pc * T)) by pos.
    pose proof (int_0_inf_scal _ (4 * PI * (rho * P) * (2 * pc_h pc / pc_c pc ^ 2)) _
                  (gamma_scaled _ 3 Hq)) as H.
    eapply int_0_inf_eq; [|eapply int_0_inf_ext; [|exact H]].
    - unfold w. simpl. field. repeat split; nz.
    - intros x Hx. cbn beta. unfold j.
      replace (pc_h pc / (pc_kb pc * T) * x) with (pc_h pc * x / (pc_kb pc * T)) by (field; split; nz).
      field. nz. }
  assert (Hv : PI ^ 4 / 90 * w = rho * P * (4 * sigma_SB (pc_h pc) (pc_kb pc) (pc_c pc) * T ^ 4)).
  { unfold w, sigma_SB. field. repeat split; nz. }
  assert (Hlt : w < PI ^ 4 / 90 * w).
  { pose proof PI4_gt_90. nra. }
  exists j, (PI ^ 4 / 90 * w), w.
  split; [|split; [|split; [|split; [|split]]]]; auto.
  - intros nu Hn. unfold returns. cbn [ph_EmissivityPerNu PowerLawOpacity]. unfold powerlaw_Jnu.
    rewrite powerlaw_jnu_fin by (cbn; first [assumption|lra]). er. do 2 f_equal.
    unfold pl_kappa. cbn [pl_nu_exp pl_do_stim_emit p]. rewrite Rpower_O by (apply Rdiv_lt_0_compat; cbn; lra).
    fold P. unfold j, Planck_B. rewrite exp_Ropp.
    pose proof (one_lt_exp _ (x_pos pc Hh Hk T nu HT Hn)).
    field. repeat split; try lra.
  - unfold returns. cbn [ph_Emissivity PowerLawOpacity]. unfold powerlaw_J.
    change (pl_nu_exp (finpl p)) with (Fin 0). unfold Oneqb. rewrite fin_ofZ, fin_eqb.
    assert (E : Reqb 0 0 = true) by (apply Reqb_iff; reflexivity). rewrite E. cbn [negb].
    rewrite powerlaw_prefactor_fin by (cbn; first [assumption|lra]).
    rewrite planck_T_fin by assumption. er. fold P. rewrite Hv. reflexivity.
  - intros Hbad. pose proof (int_0_inf_unique _ _ _ Hj Hbad). lra.
Qed.

(** With a frequency exponent other than zero (NaN and infinities included) both
    frequency-integrated calls report an error, at every state. *)
Lemma C13_frequency_dependence_is_error_proof :
  forall pc p rho T, pl_nu_exp p <> Fin 0 ->
  let o := PowerLawOpacity pc p in
  ph_Emissivity o rho T = Error /\ ph_NumberEmissivity o rho T = Error.
Proof.
  intros pc p rho T Hne o.
  assert (E : Oneqb (pl_nu_exp p) (OofZ 0) = true).
  { unfold Oneqb. destruct (pl_nu_exp p) as [r| | |]; try reflexivity.
    rewrite fin_ofZ, fin_eqb. unfold Reqb. destruct (Req_EM_T r 0) as [->|]; [|reflexivity].
    contradiction. }
  unfold o. cbn [ph_Emissivity ph_NumberEmissivity PowerLawOpacity].
  unfold powerlaw_J, powerlaw_JN. rewrite E. split; reflexivity.
Qed.

Lemma C13_example : positive_hkc cgsR /\ Fin 2 <> Fin 0 /\ NaN <> Fin 0.
Proof. split; [exact cgs_hkc|]. split; [|discriminate]. intros [= E]. lra. Qed.
