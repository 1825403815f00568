(** C49. Coefficients and emissivities are never negative. *)
From Coq Require Import Reals ZArith Lra Lia Bool.
From Flocq Require Import Core IEEE754.BinarySingleNaN.
From Verif Require Import Base.Outcome Base.Ops Inst.ER Inst.ERTac Inst.RConsts Inst.B64 Model.Constants Model.RadTypes
  Model.PhotonApi Model.GrayPhotons Model.PowerLawPhotons Model.EPBremsPhotons Model.ThermalPhotons
  Model.NonCGSPhotons Model.ScatteringPhotons Model.NeutrinoApi Model.OpacNeutrinos Model.NonCGSNeutrinos
  Spec.Opacities Spec.Nonneg Proofs.SignLaws.
Open Scope R_scope.

Lemma finpc_pos pc : positive_consts pc -> pos_consts pos_real a_real (finpc pc).
Proof.
  intros P. unfold positive_consts in P. unfold pos_consts, pos_real, a_real.
  cbn [finpc pc_map pc_h pc_kb pc_c pc_alpha pc_hbar pc_me pc_mp pc_qe pc_nu_sigma0 pc_gA].
  repeat split; eexists; try (split; [reflexivity|tauto]). reflexivity.
Qed.

(** Photons, exact arithmetic: every call at every positive temperature and
    frequency returns a nonnegative real number (the bremsstrahlung number
    emissivity: plus infinity; power-law totals with a frequency exponent: an
    error). Gray and bremsstrahlung at every density including zero, the power law
    at every positive density and all parameters its constructor accepts. The same
    through the unit-conversion wrapper, for all positive units. *)
Lemma C49_photons_proof :
  forall pc : PhysConst R, positive_consts pc ->
  let ok := fun D o => photon_nonneg pos_real nonneg_real D o /\
    forall time mass len tmp, pos_real time -> pos_real mass -> pos_real len -> pos_real tmp ->
    photon_nonneg pos_real nonneg_real D (NonCGSUnits (finpc pc) o (mk_units time mass len tmp)) in
  (forall kappa, nonneg_real kappa -> ok nonneg_real (GrayOpacity (finpc pc) kappa)) /\
  (forall p, powerlaw_domain (PP := pos_real) (NN := nonneg_real) (RR := a_real) p ->
     ok pos_real (PowerLawOpacity (finpc pc) p)) /\
  ok nonneg_real (EPBremsstrahlungOpacity (finpc pc)).
Proof.
  intros pc P. cbv zeta. pose proof (finpc_pos pc P) as C.
  split; [|split].
  - intros kappa Hk. pose proof (gray_nonneg er_laws (finpc pc) C kappa Hk) as G.
    split; [exact G|]. intros. apply (wrapped_nonneg er_laws); auto. apply (NN_closed er_laws).
  - intros p Hp. pose proof (powerlaw_nonneg er_laws (finpc pc) C p Hp) as G.
    split; [exact G|]. intros. apply (wrapped_nonneg er_laws); auto. apply (PP_closed er_laws).
  - pose proof (brems_nonneg er_laws (finpc pc) C) as G.
    split; [exact G|]. intros. apply (wrapped_nonneg er_laws); auto. apply (NN_closed er_laws).
Qed.

(** binary64 with the library's constants: for arguments that are not negative
    (zeros, infinities and NaN included) no call ever returns a negative number. The
    library functions are only asked for signs. *)
Lemma C49_photons_binary64_proof :
  forall L : Libm, sane_libm L ->
  let _ := B64_ops L in
  let pc := PhysicalConstantsCGS in
  let ok := fun o => photon_nonneg not_negative not_negative not_negative o /\
    forall time mass len tmp, not_negative time -> not_negative mass -> not_negative len -> not_negative tmp ->
    photon_nonneg not_negative not_negative not_negative (NonCGSUnits pc o (mk_units time mass len tmp)) in
  (forall kappa, not_negative kappa -> ok (GrayOpacity pc kappa)) /\
  (forall p, powerlaw_domain (PP := not_negative) (NN := not_negative) (RR := fun _ => True) p ->
     ok (PowerLawOpacity pc p)) /\
  ok (EPBremsstrahlungOpacity pc).
Proof.
  intros L HL. cbv zeta. pose proof (b64_laws L HL) as S.
  pose proof (library_consts S I) as C.
  split; [|split].
  - intros kappa Hk. pose proof (gray_nonneg S _ C kappa Hk) as G.
    split; [exact G|]. intros. apply (wrapped_nonneg S); auto. apply (NN_closed S).
  - intros p Hp. pose proof (powerlaw_nonneg S _ C p Hp) as G.
    split; [exact G|]. intros. apply (wrapped_nonneg S); auto. apply (PP_closed S).
  - pose proof (brems_nonneg S _ C) as G.
    split; [exact G|]. intros. apply (wrapped_nonneg S); auto. apply (NN_closed S).
Qed.

Lemma YeF_real Ye type : 0 <= Ye <= 1 / 2 -> nonneg_real (tophat_YeF type (Fin Ye)).
Proof.
  intros H. unfold tophat_YeF, nonneg_real. rewrite !fin_ofZ, fin_mul, fin_sub.
  destruct (RadType_eqb type NU_ELECTRON); [eexists; split; [reflexivity|lra]|].
  destruct (RadType_eqb type NU_ELECTRON_ANTI); eexists; split; try reflexivity; lra.
Qed.

(** Neutrinos, exact arithmetic, every species and positive number of species.
    Tophat: electron fraction in [0, 1/2], a band 0 < numin <= numax and positive
    density (see C16 for zero density). *)
Lemma C49_neutrinos_proof :
  forall (pc : PhysConst R) (ns : positive), positive_consts pc ->
  let anyYe := fun (_ : ER) (_ : RadiationType) => True in
  let halfYe := fun (Ye : ER) (_ : RadiationType) => exists r, Ye = Fin r /\ 0 <= r <= 1 / 2 in
  let ok := fun D W o => neutrino_nonneg pos_real nonneg_real D W o /\
    forall time mass len tmp, pos_real time -> pos_real mass -> pos_real len -> pos_real tmp ->
    neutrino_nonneg pos_real nonneg_real D W (NuNonCGSUnits (finpc pc) o (mk_units time mass len tmp)) in
  (forall kappa, nonneg_real kappa -> ok nonneg_real anyYe (NuGrayOpacity (Zpos ns) (finpc pc) kappa)) /\
  ok nonneg_real anyYe (BRTOpacity (Zpos ns) (finpc pc)) /\
  (forall K numin numax : R, 0 <= K -> 0 < numin <= numax ->
     ok pos_real halfYe (TophatEmissivity (Zpos ns) (finpc pc) (Fin K) (Fin numin) (Fin numax))).
Proof.
  intros pc ns P. cbv zeta. pose proof (finpc_pos pc P) as C.
  split; [|split].
  - intros kappa Hk. pose proof (nugray_nonneg er_laws (finpc pc) C ns kappa Hk) as G.
    split; [exact G|]. intros. apply (nu_wrapped_nonneg er_laws); auto. apply (NN_closed er_laws).
  - pose proof (brt_nonneg er_laws (finpc pc) C ns) as G.
    split; [exact G|]. intros. apply (nu_wrapped_nonneg er_laws); auto. apply (NN_closed er_laws).
  - intros K numin numax HK Hn.
    assert (G : neutrino_nonneg pos_real nonneg_real pos_real
      (fun (Ye : ER) (_ : RadiationType) => exists r, Ye = Fin r /\ 0 <= r <= 1 / 2)
      (TophatEmissivity (Zpos ns) (finpc pc) (Fin K) (Fin numin) (Fin numax))).
    { intros rho temp Ye type nu Hr Ht Hnu (r & -> & Hy).
      apply (tophat_nonneg er_laws (finpc pc) C ns (Fin K) (Fin numin) (Fin numax)); auto.
      - now exists K.
      - eexists. split; [reflexivity|]. lra.
      - rewrite fin_div by lra. assert (1 <= numax / numin).
        { apply (Rmult_le_reg_r numin); [lra|]. unfold Rdiv. rewrite Rmult_assoc, Rinv_l by lra. lra. }
        rewrite fin_ln by lra. eexists. split; [reflexivity|].
        rewrite <- ln_1. destruct (Req_dec 1 (numax / numin)) as [<-|]; [lra|].
        left. apply ln_increasing; lra.
      - now apply YeF_real. }
    split; [exact G|]. intros. apply (nu_wrapped_nonneg er_laws); auto. apply (PP_closed er_laws).
Qed.

(** Scattering, exact arithmetic and every unit system. *)
Lemma C49_scattering_proof :
  forall pc : PhysConst R, positive_consts pc ->
  let ok := fun D o => scattering_nonneg pos_real nonneg_real D o /\
    forall time mass len tmp, pos_real time -> pos_real mass -> pos_real len -> pos_real tmp ->
    scattering_nonneg pos_real nonneg_real D (NonCGSUnitsS o (mk_units time mass len tmp)) in
  forall apm, pos_real apm ->
  (forall sigma, nonneg_real sigma -> ok nonneg_real (GraySOpacity sigma apm)) /\
  ok nonneg_real (ThomsonSOpacity (finpc pc) apm) /\
  (forall p, powerlaw_domain (PP := pos_real) (NN := nonneg_real) (RR := a_real) p ->
     ok pos_real (PowerLawSOpacity p apm)).
Proof.
  intros pc P. cbv zeta. intros apm Ha. pose proof (finpc_pos pc P) as C.
  split; [|split].
  - intros sigma Hs. pose proof (grays_nonneg er_laws sigma apm Hs Ha) as G.
    split; [exact G|]. intros. apply (s_wrapped_nonneg er_laws); auto. apply (NN_closed er_laws).
  - pose proof (thomson_nonneg er_laws (finpc pc) C apm Ha) as G.
    split; [exact G|]. intros. apply (s_wrapped_nonneg er_laws); auto. apply (NN_closed er_laws).
  - intros p Hp. pose proof (powerlaws_nonneg er_laws p apm Hp Ha) as G.
    split; [exact G|]. intros. apply (s_wrapped_nonneg er_laws); auto. apply (PP_closed er_laws).
Qed.

(** The stimulated-emission factor the power law applies lies strictly between 0
    and 1: the coefficient with it is that fraction of the coefficient without. *)
Lemma C49_stimulated_factor_proof :
  forall (pc : PhysConst R) (p q : PowerLawParams ER) (rho temp nu : R),
  positive_hkc pc -> 0 < temp -> 0 < nu ->
  powerlaw_domain (PP := pos_real) (NN := nonneg_real) (RR := a_real) p -> 0 < rho ->
  pl_do_stim_emit p = false ->
  q = {| pl_kappa0 := pl_kappa0 p; pl_rho_exp := pl_rho_exp p; pl_temp_exp := pl_temp_exp p;
         pl_rho_ref := pl_rho_ref p; pl_rho_off := pl_rho_off p; pl_temp_ref := pl_temp_ref p;
         pl_temp_off := pl_temp_off p; pl_nu_exp := pl_nu_exp p; pl_nu_ref := pl_nu_ref p;
         pl_nu_off := pl_nu_off p; pl_do_stim_emit := true |} ->
  exists a f : R, 0 < f < 1 /\ f = 1 - exp (- (pc_h pc * nu / (pc_kb pc * temp))) /\
  ph_Absorption (PowerLawOpacity (finpc pc) p) (Fin rho) (Fin temp) (Fin nu) = Ok (Fin a) /\
  ph_Absorption (PowerLawOpacity (finpc pc) q) (Fin rho) (Fin temp) (Fin nu) = Ok (Fin (f * a)).
Proof.
  intros pc p q rho temp nu (Hh & Hk & Hc) Ht Hn D Hr St ->.
  set (x := pc_h pc * nu / (pc_kb pc * temp)). assert (Hx : 0 < x) by (unfold x; pos).
  pose proof (prefactor_N er_laws p (Fin rho) (Fin temp) D ltac:(now exists rho) ltac:(now exists temp)) as (a0 & Ea & Ha).
  assert (F : exists g, Opow ((Fin nu + pl_nu_off p) / pl_nu_ref p)%o (pl_nu_exp p) = Fin g).
  { destruct D as (_ & _ & _ & (ne & En) & _ & _ & (nr & Enr & Hnr) & _ & _ & (no & Eno & Hno)).
    rewrite En, Enr, Eno, fin_add, fin_div, fin_pow by (try apply Rdiv_lt_0_compat; lra). eexists; reflexivity. }
  destruct F as [g Eg].
  exists (rho * (a0 * g * 1)), (1 - exp (- x)). split; [pose proof (exp_neg_lt_1 x Hx); pose proof (exp_pos (- x)); lra|].
  split; [reflexivity|].
  cbn [PowerLawOpacity ph_Absorption]. unfold powerlaw_alpha, powerlaw_scale.
  cbn [pl_do_stim_emit pl_nu_off pl_nu_ref pl_nu_exp]. rewrite St. rewrite Eg.
  change (powerlaw_prefactor _ (Fin rho) (Fin temp)) with (powerlaw_prefactor p (Fin rho) (Fin temp)) at 2.
  rewrite Ea. split; [er; reflexivity|].
  cbn [finpc pc_map pc_h pc_kb]. rewrite !fin_mul, fin_div by nz. fold x.
  rewrite !fin_opp, fin_expm1, !fin_opp, !fin_mul. do 2 f_equal. ring.
Qed.

(** Boundary of the claim: at zero temperature the bremsstrahlung emissivity and the
    derivative of the spectrum are NaN, and so is a power law with a negative density
    exponent at zero density. *)
Lemma C49_zero_temperature_refuted_proof :
  forall (pc : PhysConst R) (rho nu : R), positive_consts pc -> 0 < rho -> 0 < nu ->
  ph_EmissivityPerNuOmega (EPBremsstrahlungOpacity (finpc pc)) (Fin rho) (Fin 0) (Fin nu) = Ok NaN /\
  ph_DThermalDistributionOfTNuDT (EPBremsstrahlungOpacity (finpc pc)) (Fin 0) (Fin nu) = Ok NaN.
Proof.
  intros pc rho nu P Hr Hn. unfold positive_consts in P.
  assert (Hc : 0 < pc_c pc) by tauto. assert (Hk : 0 < pc_kb pc) by tauto. assert (Hh : 0 < pc_h pc) by tauto.
  assert (Hme : 0 < pc_me pc) by tauto. assert (Hmp : 0 < pc_mp pc) by tauto. assert (Hq : 0 < pc_qe pc) by tauto.
  assert (X : (Fin (pc_h pc) * Fin nu / (Fin (pc_kb pc) * Fin 0))%o = PInf).
  { rewrite !fin_mul, Rmult_0_r. cbn. destruct (Req_EM_T 0 0); [|lra]. unfold inf_of_sign.
    destruct (Rlt_dec 0 (pc_h pc * nu)) as [|N]; [reflexivity|]. exfalso. apply N. pos. }
  cbn [EPBremsstrahlungOpacity ph_EmissivityPerNuOmega ph_DThermalDistributionOfTNuDT]. split; f_equal.
  - pose proof er_laws as S.
    assert (Fp : pos_real (ep_prefac (finpc pc))).
    { unfold ep_prefac. cbn [finpc pc_map pc_qe pc_me pc_c]. er.
      eexists; split; [reflexivity|]. pose proof PI_RGT_0. pos. }
    destruct Fp as (f & Ef & Hf).
    unfold ep_jnu. cbv zeta. rewrite Ef. cbn [finpc pc_map pc_kb pc_me pc_c pc_h]. rewrite X.
    rewrite !fin_mul, Rmult_0_r, fin_div by nz.
    replace (0 / (pc_me pc * pc_c pc * pc_c pc)) with 0 by (field; nz).
    rewrite fin_sqrt, sqrt_0 by lra.
    assert (M : ep_mmw (finpc pc) = Fin ((pc_mp pc + pc_me pc) / 2)).
    { unfold ep_mmw. cbn [finpc pc_map pc_mp pc_me]. er. reflexivity. }
    set (ne := rho / ((pc_mp pc + pc_me pc) / 2) / 2). assert (Hne : 0 < ne) by (unfold ne; pos; lra).
    assert (En : (Fin rho / ep_mmw (finpc pc) / # 2)%o = Fin ne).
    { rewrite M, fin_ofZ, !fin_div by (apply Rgt_not_eq; lra). reflexivity. }
    rewrite En.
    cbn -[Rdiv Rmult IZR powerRZ]. destruct (Req_EM_T 0 0); [|lra]. unfold inf_of_sign.
    destruct (Rlt_dec 0 f); [|lra]. cbn -[Rdiv Rmult IZR powerRZ]. unfold inf_of_sign.
    destruct (Rlt_dec 0 ne); [|lra]. cbn -[Rdiv Rmult IZR powerRZ]. unfold inf_of_sign.
    destruct (Rlt_dec 0 ne); [|lra]. cbn -[Rdiv Rmult IZR powerRZ]. unfold inf_of_sign.
    destruct (Rlt_dec 0 0); [lra|]. reflexivity.
  - unfold planck_dT. cbv zeta. cbn [finpc pc_map pc_kb pc_c pc_h]. rewrite X.
    rewrite !fin_ofZ, !fin_mul. rewrite !Rmult_0_l.
    cbn -[Rdiv Rmult IZR powerRZ]. destruct (Req_EM_T 0 0); [|lra]. unfold inf_of_sign.
    match goal with |- context [Rlt_dec 0 ?z] => destruct (Rlt_dec 0 z) as [|N]; [|exfalso; apply N; pos] end.
    cbn -[Rdiv Rmult IZR powerRZ]. unfold inf_of_sign.
    destruct (Rlt_dec 0 0); [lra|]. reflexivity.
Qed.

Lemma C49_zero_density_powerlaw_refuted_proof :
  exists p : PowerLawParams ER, powerlaw_ctor p = Ok p /\
  forall pc, ph_Absorption (PowerLawOpacity pc p) (Fin 0) (Fin 1) (Fin 1) = Ok NaN.
Proof.
  exists {| pl_kappa0 := Fin 1; pl_rho_exp := Fin (-1); pl_temp_exp := Fin 0;
     pl_rho_ref := Fin 1; pl_rho_off := Fin 0; pl_temp_ref := Fin 1; pl_temp_off := Fin 0;
     pl_nu_exp := Fin 0; pl_nu_ref := Fin 1; pl_nu_off := Fin 0; pl_do_stim_emit := false |}.
  split.
  - unfold powerlaw_ctor, Ogtb. cbn [pl_rho_ref pl_temp_ref pl_nu_ref pl_rho_off pl_temp_off pl_nu_off].
    rewrite !fin_ofZ, !fin_ltb. rewrite Rltb_true, Rltb_false by lra. reflexivity.
  - intros pc. cbn [PowerLawOpacity ph_Absorption]. unfold powerlaw_alpha, powerlaw_scale, powerlaw_prefactor.
    cbn [pl_kappa0 pl_rho_exp pl_temp_exp pl_nu_exp pl_do_stim_emit pl_rho_ref pl_temp_ref pl_nu_ref pl_rho_off pl_temp_off pl_nu_off].
    rewrite !fin_add, !fin_div by lra. rewrite !(fin_pow ((1 + 0) / 1)) by lra.
    replace ((0 + 0) / 1) with 0 by field. rewrite !Rpower_O by lra.
    assert (E : Opow (Fin 0) (Fin (-1)) = PInf).
    { cbn. destruct (Req_EM_T (-1) 0); [lra|]. destruct (Rlt_dec 0 0); [lra|].
      destruct (Req_EM_T 0 0); [|lra]. destruct (Rlt_dec 0 (-1)); [lra|reflexivity]. }
    rewrite E. f_equal. cbn -[Rdiv Rmult IZR powerRZ]. unfold inf_of_sign.
    destruct (Rlt_dec 0 1); [|lra]. cbn -[Rdiv Rmult IZR powerRZ]. unfold inf_of_sign.
    destruct (Rlt_dec 0 1); [|lra]. cbn -[Rdiv Rmult IZR powerRZ]. unfold inf_of_sign.
    destruct (Rlt_dec 0 1); [|lra]. cbn -[Rdiv Rmult IZR powerRZ]. unfold inf_of_sign.
    destruct (Rlt_dec 0 1); [|lra]. cbn -[Rdiv Rmult IZR powerRZ]. unfold inf_of_sign.
    destruct (Rlt_dec 0 0); [lra|reflexivity].
Qed.

(** The library's CGS constants and a power law with all kinds of exponents. *)
Lemma C49_photons_example :
  positive_consts cgsR /\
  powerlaw_domain (PP := pos_real) (NN := nonneg_real) (RR := a_real)
    {| pl_kappa0 := Fin 3; pl_rho_exp := Fin 1; pl_temp_exp := Fin (-7 / 2);
       pl_rho_ref := Fin 1; pl_rho_off := Fin 0; pl_temp_ref := Fin 10; pl_temp_off := Fin 1;
       pl_nu_exp := Fin (-3); pl_nu_ref := Fin 2; pl_nu_off := Fin 0; pl_do_stim_emit := true |}.
Proof.
  split; [apply cgs_pos|]. unfold powerlaw_domain, pos_real, nonneg_real, a_real.
  cbn [pl_kappa0 pl_rho_exp pl_temp_exp pl_nu_exp pl_rho_ref pl_temp_ref pl_nu_ref pl_rho_off pl_temp_off pl_nu_off].
  repeat split; eexists; try reflexivity; split; try reflexivity; lra.
Qed.

(** a library with the required signs exists (constant functions suffice) *)
Lemma C49_photons_binary64_example : exists L : Libm, sane_libm L.
Proof.
  exists {| lm_exp := fun _ => b64_of_Z 1; lm_expm1 := fun x => x; lm_log10 := fun x => x; lm_log := fun x => x;
            lm_logf := fun x => x; lm_cos := fun x => x; lm_pow := fun x _ => x |}.
  split; cbn; auto. intros _. right. reflexivity.
Qed.
