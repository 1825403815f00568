(** C14. Number emissivity against the integral of the number spectrum. *)
From Coq Require Import Reals ZArith Lra Lia.
From Coquelicot Require Import Coquelicot.
From Verif Require Import Base.Outcome Base.Ops Inst.ER Inst.ERTac Inst.RConsts
  Model.Constants Model.RadTypes Model.PhotonApi Model.GrayPhotons Model.PowerLawPhotons
  Model.EPBremsPhotons Model.NeutrinoApi Model.OpacNeutrinos Spec.Physics Spec.Integral
  Spec.Opacities Proofs.PlanckFacts Proofs.BoseIntegral Proofs.ZetaNum
  Proofs.ThermalIntegrals Proofs.ModelFacts.
Open Scope R_scope.

(** a relation used three times: [v] misses the factor rho of the exact value [w] *)
Lemma number_facts A z rho : 0 < A -> 0 < rho ->
  12020569031595935 / 10 ^ 16 <= z -> z <= 12020569031595955 / 10 ^ 16 ->
  0 < rho * (A * z) /\
  Rabs (rho * (A * (120206 / 100000)) - rho * (A * z)) <= 3 / 10 ^ 6 * (rho * (A * z)) /\
  (2 <= rho -> A * (120206 / 100000) < 6 / 10 * (rho * (A * z))).
Proof.
  intros HA Hr H1 H2. split; [|split].
  - apply Rmult_lt_0_compat; [lra|]. apply Rmult_lt_0_compat; lra.
  - rewrite <- (Rmult_assoc rho A), <- (Rmult_assoc rho A). apply zeta3_rel; try lra.
    apply Rmult_le_pos; lra.
  - intros H. assert (2 * (A * z) <= rho * (A * z)).
    { apply Rmult_le_compat_r; [|lra]. apply Rmult_le_pos; lra. }
    assert (A * (120206 / 100000) < 12 / 10 * (A * z)) by nra. lra.
Qed.

(** Gray photons: the call omits the density. [v] is what it returns and [w] the
    integral of EmissivityPerNu/(h nu): rho v agrees with w (up to the digits of
    zeta(3)), and from rho = 2 on, v is less than 60% of w. *)
Lemma C14_gray_number_refuted_proof :
  forall pc kappa, positive_hkc pc -> 0 < kappa -> forall rho T, 0 < rho -> 0 < T ->
  let o := GrayOpacity (finpc pc) (Fin kappa) in
  exists j v w,
    spectrum (ph_EmissivityPerNu o (Fin rho) (Fin T)) j /\
    returns (ph_NumberEmissivity o (Fin rho) (Fin T)) v /\
    int_0_inf (fun nu => j nu / (pc_h pc * nu)) w /\ 0 < w /\
    Rabs (rho * v - w) <= 3 / 10 ^ 6 * w /\
    (2 <= rho -> v < 6 / 10 * w).
Proof.
  intros pc kap (Hh & Hk & Hc) Hkap rho T Hr HT o.
  destruct zeta3_bounds as [z [Hz [Hz1 Hz2]]].
  set (A := kap * (16 * PI * pc_kb pc ^ 3 * T ^ 3 / (pc_c pc ^ 2 * pc_h pc ^ 3))).
  assert (HA : 0 < A) by (unfold A; pos).
  exists (fun nu => 4 * PI * (rho * kap * Planck_B (pc_h pc) (pc_kb pc) (pc_c pc) T nu)),
    (A * (120206 / 100000)), (rho * (A * z)).
  split; [|split; [|split; [|exact (number_facts A z rho HA Hr Hz1 Hz2)]]].
  - intros nu Hn. unfold returns, o. cbn [ph_EmissivityPerNu GrayOpacity]. unfold gray_Jnu.
    rewrite gray_jnu_fin by assumption. er. reflexivity.
  - unfold returns, o. cbn [ph_NumberEmissivity GrayOpacity]. unfold gray_JN.
    rewrite planck_number_T_fin by assumption. er. do 2 f_equal. unfold A. field. split; nz.
  - eapply int_0_inf_eq; [|eapply int_0_inf_ext;
      [|exact (int_0_inf_scal _ (rho * kap) _ (Planck_number_integral pc Hh Hk Hc T z HT Hz))]].
    + unfold A. field. split; nz.
    + intros x Hx. cbn beta. field. split; nz.
Qed.

Lemma C14_powerlaw_number_refuted_proof :
  forall pc k0 re te rr ro tr to nr no,
  positive_hkc pc -> 0 < k0 -> 0 < rr -> 0 < tr -> 0 < nr -> 0 <= ro -> 0 <= to -> 0 <= no ->
  forall rho T, 0 < rho -> 0 < T ->
  let o := PowerLawOpacity (finpc pc)
    {| pl_kappa0 := Fin k0; pl_rho_exp := Fin re; pl_temp_exp := Fin te;
       pl_rho_ref := Fin rr; pl_rho_off := Fin ro; pl_temp_ref := Fin tr;
       pl_temp_off := Fin to; pl_nu_exp := Fin 0; pl_nu_ref := Fin nr;
       pl_nu_off := Fin no; pl_do_stim_emit := false |} in
  exists j v w,
    spectrum (ph_EmissivityPerNu o (Fin rho) (Fin T)) j /\
    returns (ph_NumberEmissivity o (Fin rho) (Fin T)) v /\
    int_0_inf (fun nu => j nu / (pc_h pc * nu)) w /\ 0 < w /\
    Rabs (rho * v - w) <= 3 / 10 ^ 6 * w /\
    (2 <= rho -> v < 6 / 10 * w).
Proof.
  intros pc k0 re te rr ro tr to nr no (Hh & Hk & Hc) Hk0 Hrr Htr Hnr Hro Hto Hno rho T Hr HT o.
  set (p := {| pl_kappa0 := k0; pl_rho_exp := re; pl_temp_exp := te;
       pl_rho_ref := rr; pl_rho_off := ro; pl_temp_ref := tr;
       pl_temp_off := to; pl_nu_exp := 0; pl_nu_ref := nr;
       pl_nu_off := no; pl_do_stim_emit := false |}).
  assert (Hrefs : pl_refs p) by (unfold pl_refs, p; cbn; auto).
  change o with (PowerLawOpacity (finpc pc) (finpl p)). clear o.
  destruct zeta3_bounds as [z [Hz [Hz1 Hz2]]].
  assert (HP : 0 < pl_prefactor p rho T).
  { unfold pl_prefactor. apply Rmult_lt_0_compat; [apply Rmult_lt_0_compat; [assumption|]|]; apply exp_pos. }
  set (A := pl_prefactor p rho T * (16 * PI * pc_kb pc ^ 3 * T ^ 3 / (pc_c pc ^ 2 * pc_h pc ^ 3))).
  assert (HA : 0 < A) by (unfold A; pos).
  exists (fun nu => 4 * PI * (rho * pl_prefactor p rho T *
                              Planck_B (pc_h pc) (pc_kb pc) (pc_c pc) T nu)),
    (A * (120206 / 100000)), (rho * (A * z)).
  split; [|split; [|split; [|exact (number_facts A z rho HA Hr Hz1 Hz2)]]].
  - intros nu Hn. unfold returns. cbn [ph_EmissivityPerNu PowerLawOpacity]. unfold powerlaw_Jnu.
    rewrite powerlaw_jnu_fin by (cbn; first [assumption|lra]). er. do 2 f_equal.
    unfold pl_kappa. cbn [pl_nu_exp pl_do_stim_emit p]. rewrite Rpower_O by (apply Rdiv_lt_0_compat; cbn; lra).
    ring.
  - unfold returns. cbn [ph_NumberEmissivity PowerLawOpacity]. unfold powerlaw_JN.
    change (pl_nu_exp (finpl p)) with (Fin 0). unfold Oneqb. rewrite fin_ofZ, fin_eqb.
    assert (E : Reqb 0 0 = true) by (apply Reqb_iff; reflexivity). rewrite E. cbn [negb].
    rewrite powerlaw_prefactor_fin by (cbn; first [assumption|lra]).
    rewrite planck_number_T_fin by assumption. er. do 2 f_equal. unfold A. field. split; nz.
  - eapply int_0_inf_eq; [|eapply int_0_inf_ext;
      [|exact (int_0_inf_scal _ (rho * pl_prefactor p rho T) _ (Planck_number_integral pc Hh Hk Hc T z HT Hz))]].
    + unfold A. field. split; nz.
    + intros x Hx. cbn beta. field. split; nz.
Qed.

Lemma C14_gray_neutrino_number_refuted_proof :
  forall ns pc kappa, (0 < ns)%Z -> positive_hkc pc -> 0 < kappa ->
  forall rho T Ye type, 0 < rho -> 0 < T ->
  let o := NuGrayOpacity ns (finpc pc) (Fin kappa) in
  exists j v w,
    spectrum (nu_EmissivityPerNu o (Fin rho) (Fin T) Ye type) j /\
    returns (nu_NumberEmissivity o (Fin rho) (Fin T) Ye type) v /\
    int_0_inf (fun nu => j nu / (pc_h pc * nu)) w /\ 0 < w /\
    Rabs (rho * v - w) <= 3 / 10 ^ 6 * w /\
    (2 <= rho -> v < 6 / 10 * w).
Proof.
  intros ns pc kap Hns (Hh & Hk & Hc) Hkap rho T Ye ty Hr HT o.
  assert (Hn0 : 0 < IZR ns) by (apply (IZR_lt 0); lia).
  destruct zeta3_bounds as [z [Hz [Hz1 Hz2]]].
  set (A := kap * (12 * IZR ns * PI * pc_kb pc ^ 3 * T ^ 3 / (pc_c pc ^ 2 * pc_h pc ^ 3))).
  assert (HA : 0 < A) by (unfold A; pos).
  exists (fun nu => 4 * PI * (rho * kap * FermiDirac_B (IZR ns) (pc_h pc) (pc_kb pc) (pc_c pc) T nu)),
    (A * (120206 / 100000)), (rho * (A * z)).
  split; [|split; [|split; [|exact (number_facts A z rho HA Hr Hz1 Hz2)]]].
  - intros nu Hn. unfold returns, o. cbn [nu_EmissivityPerNu NuGrayOpacity nu_opacity].
    unfold nugray_Jnu. rewrite nugray_jnu_fin by assumption. er. reflexivity.
  - unfold returns, o. cbn [nu_NumberEmissivity NuGrayOpacity nu_opacity]. unfold nugray_JN.
    rewrite fd_number_T_fin by assumption. er. do 2 f_equal. unfold A. field. split; nz.
  - eapply int_0_inf_eq; [|eapply int_0_inf_ext;
      [|exact (int_0_inf_scal _ (rho * kap) _ (FD_number_integral pc Hh Hk Hc (IZR ns) T z HT Hz))]].
    + unfold A. field. split; nz.
    + intros x Hx. cbn beta. field. split; nz.
Qed.

(** Bremsstrahlung emits infinitely many soft photons: the integral does not
    converge and the call returns +infinity. *)
Lemma C14_brems_number_diverges_proof :
  forall pc, positive_consts pc -> forall rho T, 0 < rho -> 0 < T ->
  let o := EPBremsstrahlungOpacity (finpc pc) in
  exists j,
    spectrum (ph_EmissivityPerNu o (Fin rho) (Fin T)) j /\
    (forall nu, 0 < nu -> 0 < j nu) /\
    ~ (exists w, int_0_inf (fun nu => j nu / (pc_h pc * nu)) w) /\
    ph_NumberEmissivity o (Fin rho) (Fin T) = Ok PInf.
Proof.
  intros pc Hp rho T Hr HT o. destruct (pc_all pc Hp) as (Hh & Hk & Hc & _).
  pose proof (ep_A_pos pc Hp rho T Hr HT) as HA.
  exists (fun nu => 4 * PI * (ep_A pc rho T * exp (- (pc_h pc * nu / (pc_kb pc * T))))).
  split; [|split; [|split]].
  - intros nu Hn. unfold returns, o. cbn [ph_EmissivityPerNu EPBremsstrahlungOpacity].
    rewrite (ep_Jnu_fin pc Hp) by assumption. reflexivity.
  - intros nu Hn. pos.
  - intros [w Hw].
    assert (Hq : 0 < pc_h pc / (pc_kb pc * T)) by pos.
    assert (HB : 0 < 4 * PI * ep_A pc rho T / pc_h pc) by pos.
    apply (exp_over_x_diverges _ _ HB Hq). exists w.
    eapply int_0_inf_ext; [|exact Hw]. intros x Hx. cbn beta.
    replace (pc_h pc / (pc_kb pc * T) * x) with (pc_h pc * x / (pc_kb pc * T)) by (field; split; nz).
    field. split; nz.
  - reflexivity.
Qed.

Lemma C14_example : positive_hkc cgsR /\ positive_consts cgsR /\ (0 < 3)%Z.
Proof. split; [exact cgs_hkc|]. split; [exact cgs_pos|lia]. Qed.
