(** C12. Total emissivity is the frequency integral of the spectral emissivity. *)
From Coq Require Import Reals ZArith Lra.
From Coquelicot Require Import Coquelicot.
From Verif Require Import Base.Outcome Base.Ops Inst.ER Inst.ERTac Inst.RConsts
  Model.Constants Model.RadTypes Model.PhotonApi Model.GrayPhotons Model.PowerLawPhotons
  Model.EPBremsPhotons Model.NeutrinoApi Model.OpacNeutrinos Spec.Physics Spec.Integral
  Spec.Opacities Proofs.PlanckFacts Proofs.BoseIntegral Proofs.ThermalIntegrals
  Proofs.ModelFacts.
Open Scope R_scope.

(** Gray photons, any opacity and density. *)
Lemma C12_gray_proof :
  forall pc kappa, positive_hkc pc -> forall rho T, 0 < T ->
  let o := GrayOpacity (finpc pc) (Fin kappa) in
  exists j v,
    spectrum (ph_EmissivityPerNu o (Fin rho) (Fin T)) j /\
    returns (ph_Emissivity o (Fin rho) (Fin T)) v /\ int_0_inf j v.
Proof.
  intros pc kap (Hh & Hk & Hc) rho T HT o.
  exists (fun nu => 4 * PI * (rho * kap * Planck_B (pc_h pc) (pc_kb pc) (pc_c pc) T nu)),
    (rho * kap * (4 * sigma_SB (pc_h pc) (pc_kb pc) (pc_c pc) * T ^ 4)).
  split; [|split].
  - intros nu Hn. unfold returns, o. cbn [ph_EmissivityPerNu GrayOpacity]. unfold gray_Jnu.
    rewrite gray_jnu_fin by assumption. er. reflexivity.
  - unfold returns, o. cbn [ph_Emissivity GrayOpacity]. unfold gray_J.
    rewrite planck_T_fin by assumption. er. reflexivity.
  - eapply int_0_inf_ext; [|apply int_0_inf_scal, (Planck_integral pc Hh Hk Hc T HT)].
    intros x Hx. cbn beta. ring.
Qed.

(** Power law without frequency dependence and without the stimulated-emission
    factor: any amplitude, exponents and accepted references and offsets. *)
Lemma C12_powerlaw_proof :
  forall pc k0 re te rr ro tr to nr no,
  positive_hkc pc -> 0 < rr -> 0 < tr -> 0 < nr -> 0 <= ro -> 0 <= to -> 0 <= no ->
  forall rho T, 0 < rho -> 0 < T ->
  let o := PowerLawOpacity (finpc pc)
    {| pl_kappa0 := Fin k0; pl_rho_exp := Fin re; pl_temp_exp := Fin te;
       pl_rho_ref := Fin rr; pl_rho_off := Fin ro; pl_temp_ref := Fin tr;
       pl_temp_off := Fin to; pl_nu_exp := Fin 0; pl_nu_ref := Fin nr;
       pl_nu_off := Fin no; pl_do_stim_emit := false |} in
  exists j v,
    spectrum (ph_EmissivityPerNu o (Fin rho) (Fin T)) j /\
    returns (ph_Emissivity o (Fin rho) (Fin T)) v /\ int_0_inf j v.
Proof.
  intros pc k0 re te rr ro tr to nr no (Hh & Hk & Hc) Hrr Htr Hnr Hro Hto Hno rho T Hr HT o.
  set (p := {| pl_kappa0 := k0; pl_rho_exp := re; pl_temp_exp := te;
       pl_rho_ref := rr; pl_rho_off := ro; pl_temp_ref := tr;
       pl_temp_off := to; pl_nu_exp := 0; pl_nu_ref := nr;
       pl_nu_off := no; pl_do_stim_emit := false |}).
  assert (Hrefs : pl_refs p) by (unfold pl_refs, p; cbn; auto).
  change o with (PowerLawOpacity (finpc pc) (finpl p)). clear o.
  exists (fun nu => 4 * PI * (rho * pl_prefactor p rho T *
                              Planck_B (pc_h pc) (pc_kb pc) (pc_c pc) T nu)),
    (rho * pl_prefactor p rho T * (4 * sigma_SB (pc_h pc) (pc_kb pc) (pc_c pc) * T ^ 4)).
  split; [|split].
  - intros nu Hn. unfold returns. cbn [ph_EmissivityPerNu PowerLawOpacity]. unfold powerlaw_Jnu.
    rewrite powerlaw_jnu_fin by (cbn; first [assumption|lra]). er. do 2 f_equal.
    unfold pl_kappa. cbn [pl_nu_exp pl_do_stim_emit p]. rewrite Rpower_O by (apply Rdiv_lt_0_compat; cbn; lra).
    ring.
  - unfold returns. cbn [ph_Emissivity PowerLawOpacity]. unfold powerlaw_J.
    change (pl_nu_exp (finpl p)) with (Fin 0). unfold Oneqb. rewrite fin_ofZ, fin_eqb.
    assert (E : Reqb 0 0 = true) by (apply Reqb_iff; reflexivity). rewrite E. cbn [negb].
    rewrite powerlaw_prefactor_fin by (cbn; first [assumption|lra]).
    rewrite planck_T_fin by assumption. er. reflexivity.
  - eapply int_0_inf_ext; [|apply int_0_inf_scal, (Planck_integral pc Hh Hk Hc T HT)].
    intros x Hx. cbn beta. ring.
Qed.

Lemma C12_brems_proof :
  forall pc, positive_consts pc -> forall rho T, 0 < T ->
  let o := EPBremsstrahlungOpacity (finpc pc) in
  exists j v,
    spectrum (ph_EmissivityPerNu o (Fin rho) (Fin T)) j /\
    returns (ph_Emissivity o (Fin rho) (Fin T)) v /\ int_0_inf j v.
Proof.
  intros pc Hp rho T HT o. destruct (pc_all pc Hp) as (Hh & Hk & Hc & _).
  exists (fun nu => 4 * PI * (ep_A pc rho T * exp (- (pc_h pc * nu / (pc_kb pc * T))))),
    (4 * PI * pc_kb pc * T / pc_h pc * ep_A pc rho T).
  split; [|split].
  - intros nu Hn. unfold returns, o. cbn [ph_EmissivityPerNu EPBremsstrahlungOpacity].
    rewrite (ep_Jnu_fin pc Hp) by assumption. reflexivity.
  - unfold returns, o. cbn [ph_Emissivity EPBremsstrahlungOpacity].
    rewrite (ep_J_fin pc Hp) by assumption. reflexivity.
  - assert (Hq : 0 < pc_h pc / (pc_kb pc * T)) by pos.
    pose proof (int_0_inf_scal _ (4 * PI * ep_A pc rho T) _ (gamma_scaled _ 0 Hq)) as H.
    eapply int_0_inf_eq; [|eapply int_0_inf_ext; [|exact H]].
    + simpl. field. repeat split; nz.
    + intros x Hx. cbn beta. rewrite pow_O.
      replace (pc_h pc / (pc_kb pc * T) * x) with (pc_h pc * x / (pc_kb pc * T)) by (field; split; nz).
      ring.
Qed.

Lemma C12_gray_neutrinos_proof :
  forall ns pc kappa, positive_hkc pc -> forall rho T Ye type, 0 < T ->
  let o := NuGrayOpacity ns (finpc pc) (Fin kappa) in
  exists j v,
    spectrum (nu_EmissivityPerNu o (Fin rho) (Fin T) Ye type) j /\
    returns (nu_Emissivity o (Fin rho) (Fin T) Ye type) v /\ int_0_inf j v.
Proof.
  intros ns pc kap (Hh & Hk & Hc) rho T Ye ty HT o.
  exists (fun nu => 4 * PI * (rho * kap * FermiDirac_B (IZR ns) (pc_h pc) (pc_kb pc) (pc_c pc) T nu)),
    (rho * kap * (7 / 8 * IZR ns * (4 * sigma_SB (pc_h pc) (pc_kb pc) (pc_c pc) * T ^ 4))).
  split; [|split].
  - intros nu Hn. unfold returns, o. cbn [nu_EmissivityPerNu NuGrayOpacity nu_opacity].
    unfold nugray_Jnu. rewrite nugray_jnu_fin by assumption. er. reflexivity.
  - unfold returns, o. cbn [nu_Emissivity NuGrayOpacity nu_opacity]. unfold nugray_J.
    rewrite fd_T_fin by assumption. er. reflexivity.
  - eapply int_0_inf_ext; [|apply int_0_inf_scal, (FD_integral pc Hh Hk Hc (IZR ns) T HT)].
    intros x Hx. cbn beta. ring.
Qed.

Lemma C12_example : positive_hkc cgsR /\ positive_consts siR.
Proof. split; [exact cgs_hkc|exact si_pos]. Qed.
