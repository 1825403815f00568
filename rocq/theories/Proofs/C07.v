(** C07. Temperature and radiation energy density are mutually inverse. *)
From Coq Require Import Reals ZArith Lra Lia.
From Verif Require Import Base.Outcome Base.Ops Inst.ER Inst.ERTac Inst.RConsts
  Model.Constants Model.RadTypes Model.ThermalPhotons Model.ThermalNeutrinos
  Model.PhotonApi Model.GrayPhotons Model.PowerLawPhotons
  Model.EPBremsPhotons Model.NeutrinoApi Model.OpacNeutrinos
  Spec.Physics Spec.Integral Spec.Opacities Proofs.PlanckFacts
  Proofs.ThermalIntegrals.
Open Scope R_scope.

(** fourth root as computed by std::pow(x, 1. / 4.) *)
Lemma pow_quarter_pow4 T : 0 <= T -> Opow (Fin (T ^ 4)) (Odiv (OofZ 1) (OofZ 4)) = Fin T.
Proof.
  intros HT. rewrite !fin_ofZ, fin_div by lra.
  destruct (Req_dec T 0) as [->|Hne].
  - replace (0 ^ 4) with 0 by ring. cbn. unfold er_pow.
    destruct (Req_EM_T (1 / 4) 0); [lra|]. destruct (Rlt_dec 0 0); [lra|].
    destruct (Req_EM_T 0 0); [|lra]. destruct (Rlt_dec 0 (1 / 4)); [reflexivity|lra].
  - assert (0 < T) by lra. rewrite fin_pow by pos. f_equal.
    rewrite <- (Rpower_pow 4) by assumption. rewrite Rpower_mult.
    replace (INR 4 * (1 / 4)) with 1 by (simpl; field). apply Rpower_1. assumption.
Qed.

Lemma quarter_not_int : is_int (1 / 4) = false.
Proof.
  unfold is_int, Zfl. destruct (archimed (1 / 4)) as [H1 H2].
  assert (Hu : up (1 / 4) = 1%Z).
  { assert (0 < IZR (up (1 / 4)) < 2) as [Ha Hb] by lra.
    apply (lt_IZR 0) in Ha. apply (lt_IZR _ 2) in Hb. lia. }
  rewrite Hu. unfold Reqb. destruct (Req_EM_T (IZR (1 - 1)) (1 / 4)) as [e|]; [|reflexivity].
  simpl in e. lra.
Qed.

Lemma pow_quarter_neg x : x < 0 -> Opow (Fin x) (Odiv (OofZ 1) (OofZ 4)) = NaN.
Proof.
  intros Hx. rewrite !fin_ofZ, fin_div by lra. cbn. unfold er_pow.
  destruct (Req_EM_T (1 / 4) 0); [lra|]. destruct (Rlt_dec 0 x); [lra|].
  destruct (Req_EM_T x 0); [lra|]. rewrite quarter_not_int. reflexivity.
Qed.

Lemma pow4_root x : 0 <= x -> exists t, 0 <= t /\ t ^ 4 = x.
Proof.
  intros Hx. exists (sqrt (sqrt x)). split; [apply sqrt_pos|].
  replace (sqrt (sqrt x) ^ 4) with ((sqrt (sqrt x) * sqrt (sqrt x)) * (sqrt (sqrt x) * sqrt (sqrt x))) by ring.
  rewrite sqrt_sqrt by apply sqrt_pos. apply sqrt_sqrt. exact Hx.
Qed.

Section Fin.
  Context (pc : PhysConst R) (Hh : 0 < pc_h pc) (Hk : 0 < pc_kb pc) (Hc : 0 < pc_c pc).
  Local Notation a := (a_rad (pc_h pc) (pc_kb pc) (pc_c pc)).

  Lemma a_rad_pos : 0 < a.
  Proof. unfold a_rad, sigma_SB. pos. Qed.

  Lemma planck_energy_density_fin T :
    planck_energy_density (finpc pc) (Fin T) = Fin (a * T ^ 4).
  Proof.
    unfold planck_energy_density. rewrite planck_T_fin by assumption. er. f_equal.
    unfold a_rad. field. nz.
  Qed.

  Lemma planck_temperature_fin T : 0 <= T ->
    planck_temperature (finpc pc) (Fin (a * T ^ 4)) = Fin T.
  Proof.
    intros HT. rewrite <- (pow_quarter_pow4 T HT). unfold planck_temperature.
    f_equal. er. f_equal. unfold a_rad, sigma_SB. field. repeat split; nz.
  Qed.

  Lemma planck_temperature_neg E : E < 0 -> planck_temperature (finpc pc) (Fin E) = NaN.
  Proof.
    intros HE. unfold planck_temperature.
    match goal with |- Opow ?x _ = _ => assert (X : exists r, x = Fin r /\ r < 0) end.
    { eexists. split; [er; reflexivity|].
      assert (HP : 0 < 15 * pc_c pc ^ 3 * pc_h pc ^ 3 / (8 * PI ^ 5 * pc_kb pc ^ 4)) by pos.
      replace (15 * pc_c pc ^ 3 * pc_h pc ^ 3 * E / (8 * PI ^ 5 * pc_kb pc ^ 4)) with
        (15 * pc_c pc ^ 3 * pc_h pc ^ 3 / (8 * PI ^ 5 * pc_kb pc ^ 4) * E)
        by (field; split; nz). nra. }
    destruct X as [r [-> Hr]]. apply pow_quarter_neg. exact Hr.
  Qed.

  Context (ns : Z) (Hns : (0 < ns)%Z) (ty : RadiationType).

  Lemma ns_pos : 0 < IZR ns.
  Proof. apply (IZR_lt 0); lia. Qed.

  Lemma fd_energy_density_fin T :
    fd_energy_density ns (finpc pc) (Fin T) ty = Fin (7 / 8 * IZR ns * a * T ^ 4).
  Proof.
    unfold fd_energy_density. rewrite fd_T_fin by assumption. er. f_equal.
    unfold a_rad. field. nz.
  Qed.

  Lemma fd_temperature_fin T : 0 <= T ->
    fd_temperature ns (finpc pc) (Fin (7 / 8 * IZR ns * a * T ^ 4)) ty = Fin T.
  Proof.
    intros HT. pose proof ns_pos. rewrite <- (pow_quarter_pow4 T HT). unfold fd_temperature.
    f_equal. er. f_equal. unfold a_rad, sigma_SB. field. repeat split; nz.
  Qed.

  Lemma fd_temperature_neg E : E < 0 -> fd_temperature ns (finpc pc) (Fin E) ty = NaN.
  Proof.
    intros HE. unfold fd_temperature. pose proof ns_pos.
    match goal with |- Opow ?x _ = _ => assert (X : exists r, x = Fin r /\ r < 0) end.
    { eexists. split; [er; reflexivity|].
      assert (HP : 0 < 15 * pc_c pc ^ 3 * pc_h pc ^ 3 / (7 * PI ^ 5 * pc_kb pc ^ 4 * IZR ns)) by pos.
      replace (15 * pc_c pc ^ 3 * pc_h pc ^ 3 * E / (7 * PI ^ 5 * pc_kb pc ^ 4 * IZR ns)) with
        (15 * pc_c pc ^ 3 * pc_h pc ^ 3 / (7 * PI ^ 5 * pc_kb pc ^ 4 * IZR ns) * E)
        by (field; repeat split; nz). nra. }
    destruct X as [r [-> Hr]]. apply pow_quarter_neg. exact Hr.
  Qed.
End Fin.

(** Photon energy density is a T^4, and the two calls invert each other on
    nonnegative arguments; a negative energy density gives NaN. *)
Lemma C07_photon_inverse_proof :
  forall pc o, positive_hkc pc -> photon_opacity (finpc pc) o ->
  (forall T, 0 <= T -> exists E,
     returns (ph_EnergyDensityFromTemperature o (Fin T)) E /\
     E = 4 * (2 * PI ^ 5 * pc_kb pc ^ 4 / (15 * pc_h pc ^ 3 * pc_c pc ^ 2)) / pc_c pc * T ^ 4 /\
     returns (ph_TemperatureFromEnergyDensity o (Fin E)) T) /\
  (forall E, 0 <= E -> exists T, 0 <= T /\
     returns (ph_TemperatureFromEnergyDensity o (Fin E)) T /\
     returns (ph_EnergyDensityFromTemperature o (Fin T)) E) /\
  (forall E, E < 0 -> ph_TemperatureFromEnergyDensity o (Fin E) = Ok NaN).
Proof.
  intros pc o (Hh & Hk & Hc) Ho.
  assert (HE : forall x, ph_EnergyDensityFromTemperature o x = Ok (planck_energy_density (finpc pc) x))
    by (intros; destruct Ho as [[kap ->]|[[p ->]| ->]]; reflexivity).
  assert (HT : forall x, ph_TemperatureFromEnergyDensity o x = Ok (planck_temperature (finpc pc) x))
    by (intros; destruct Ho as [[kap ->]|[[p ->]| ->]]; reflexivity).
  unfold returns. split; [|split].
  - intros T H0. eexists. rewrite HE, HT, planck_energy_density_fin by assumption.
    split; [reflexivity|]. split; [reflexivity|].
    f_equal. apply planck_temperature_fin; assumption.
  - intros E H0. pose proof (a_rad_pos pc Hh Hk Hc) as Ha.
    set (a := a_rad (pc_h pc) (pc_kb pc) (pc_c pc)) in *.
    destruct (pow4_root (E / a)) as [T [HT0 HT4]].
    { apply Rmult_le_pos; [lra|]. apply Rlt_le, Rinv_0_lt_compat; lra. }
    assert (HEa : E = a * T ^ 4) by (rewrite HT4; field; lra).
    exists T. rewrite HE, HT, planck_energy_density_fin by assumption. split; [exact HT0|].
    split; [|fold a; rewrite <- HEa; reflexivity].
    rewrite HEa. f_equal. apply planck_temperature_fin; assumption.
  - intros E H0. rewrite HT. f_equal. apply planck_temperature_neg; assumption.
Qed.

Lemma C07_neutrino_inverse_proof :
  forall ns pc o, (0 < ns)%Z -> positive_hkc pc -> neutrino_opacity ns (finpc pc) o ->
  forall type,
  (forall T, 0 <= T -> exists E,
     returns (nu_EnergyDensityFromTemperature o (Fin T) type) E /\
     returns (nu_TemperatureFromEnergyDensity o (Fin E) type) T) /\
  (forall E, 0 <= E -> exists T, 0 <= T /\
     returns (nu_TemperatureFromEnergyDensity o (Fin E) type) T /\
     returns (nu_EnergyDensityFromTemperature o (Fin T) type) E) /\
  (forall E, E < 0 -> nu_TemperatureFromEnergyDensity o (Fin E) type = Ok NaN).
Proof.
  intros ns pc o Hns (Hh & Hk & Hc) Ho ty.
  assert (HE : forall x, nu_EnergyDensityFromTemperature o x ty = Ok (fd_energy_density ns (finpc pc) x ty))
    by (intros; destruct Ho as [[kap ->]|[->|[C [n1 [n2 ->]]]]]; reflexivity).
  assert (HT : forall x, nu_TemperatureFromEnergyDensity o x ty = Ok (fd_temperature ns (finpc pc) x ty))
    by (intros; destruct Ho as [[kap ->]|[->|[C [n1 [n2 ->]]]]]; reflexivity).
  unfold returns. split; [|split].
  - intros T H0. eexists. rewrite HE, HT, fd_energy_density_fin by assumption.
    split; [reflexivity|].
    f_equal. apply fd_temperature_fin; assumption.
  - intros E H0. pose proof (a_rad_pos pc Hh Hk Hc) as Ha.
    pose proof (ns_pos ns Hns) as Hn.
    set (a := a_rad (pc_h pc) (pc_kb pc) (pc_c pc)) in *.
    assert (Hb : 0 < 7 / 8 * IZR ns * a) by pos.
    destruct (pow4_root (E / (7 / 8 * IZR ns * a))) as [T [HT0 HT4]].
    { apply Rmult_le_pos; [lra|]. apply Rlt_le, Rinv_0_lt_compat; lra. }
    assert (HEa : E = 7 / 8 * IZR ns * a * T ^ 4) by (rewrite HT4; field; lra).
    exists T. rewrite HE, HT, fd_energy_density_fin by assumption. split; [exact HT0|].
    split; [|fold a; rewrite <- HEa; reflexivity].
    rewrite HEa. f_equal. apply fd_temperature_fin; assumption.
  - intros E H0. rewrite HT. f_equal. apply fd_temperature_neg; assumption.
Qed.

Lemma C07_example :
  positive_hkc cgsR /\
  photon_opacity (finpc cgsR) (GrayOpacity PhysicalConstantsCGS (Fin 1)) /\
  neutrino_opacity 3 (finpc cgsR) (TophatEmissivity 3 PhysicalConstantsCGS (Fin 1) (Fin 1) (Fin 2)).
Proof.
  rewrite cgs_fin. split; [exact cgs_hkc|]. split; [left; eauto|right; right; eauto].
Qed.
