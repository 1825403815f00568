(** C21. The neutrino and scattering unit-conversion wrappers are covariant. *)
From Coq Require Import Reals ZArith Lra.
From Verif Require Import Base.Outcome Base.Ops Inst.ER Inst.ERTac Model.Constants Model.RadTypes Model.PhotonApi
  Model.NeutrinoApi Model.OpacNeutrinos Model.ScatteringPhotons Model.NonCGSPhotons
  Model.NonCGSNeutrinos Model.MeanUtils Model.MeanPhotons Model.MeanVariants Inst.RConsts Spec.Units
  Spec.Opacities Spec.Covariance Proofs.PlanckFacts Proofs.UnitFacts Proofs.C19 Proofs.C20.
Open Scope R_scope.

(** Every unit system, every wrapped neutrino opacity, all arguments and errors:
    every scalar method except the temperature derivative (C20). *)
Lemma C21_neutrino_covariant_proof :
  forall s, positive_system s -> forall pc o,
  neutrino_covariant s o
    (NuNonCGSUnits pc o (mk_units (Fin (us_time s)) (Fin (us_mass s)) (Fin (us_length s))
                                  (Fin (us_temp s)))).
Proof.
  intros s Hs pc o. change (mk_units _ _ _ _) with (sys_units s).
  unfold neutrino_covariant.
  repeat match goal with |- _ /\ _ => split end; intros; unfold NuNonCGSUnits;
    cbn [nu_Absorption nu_AngleAvgAbsorption nu_EmissivityPerNuOmega nu_EmissivityPerNu
      nu_Emissivity nu_NumberEmissivity nu_ThermalDistributionOfTNu nu_ThermalDistributionOfT
      nu_ThermalNumberDistributionOfT nu_EnergyDensityFromTemperature
      nu_TemperatureFromEnergyDensity nu_NumberDensityFromTemperature];
    cov s Hs; covr s Hs.
Qed.

(** Photon scattering wrapper. *)
Lemma C21_scattering_covariant_proof :
  forall s, positive_system s -> forall o,
  scattering_covariant s o
    (NonCGSUnitsS o (mk_units (Fin (us_time s)) (Fin (us_mass s)) (Fin (us_length s))
                              (Fin (us_temp s)))).
Proof.
  intros s Hs o. change (mk_units _ _ _ _) with (sys_units s).
  unfold scattering_covariant.
  repeat match goal with |- _ /\ _ => split end; intros; unfold NonCGSUnitsS;
    cbn [s_TotalCrossSection s_DifferentialCrossSection s_TotalScatteringCoefficient];
    rewrite ?(f_length s Hs), ?fin_mul; cov s Hs; covr s Hs.
Qed.

(** Neutrino scattering wrapper. *)
Lemma C21_neutrino_scattering_covariant_proof :
  forall s, positive_system s -> forall o,
  neutrino_scattering_covariant s o
    (NuNonCGSUnitsS o (mk_units (Fin (us_time s)) (Fin (us_mass s)) (Fin (us_length s))
                                (Fin (us_temp s)))).
Proof.
  intros s Hs o. change (mk_units _ _ _ _) with (sys_units s).
  unfold neutrino_scattering_covariant.
  repeat match goal with |- _ /\ _ => split end; intros; unfold NuNonCGSUnitsS;
    cbn [nus_TotalCrossSection nus_DifferentialCrossSection nus_TotalScatteringCoefficient];
    rewrite ?(f_length s Hs), ?fin_mul; cov s Hs; covr s Hs.
Qed.

(** Photon mean-opacity wrapper around every object with the mean-opacity members:
    coefficient by group and by frequency, group lookup, group count. *)
Lemma C21_mean_covariant_proof :
  forall s, positive_system s -> forall o,
  mean_covariant s o
    (MeanNonCGSUnits o (mk_units (Fin (us_time s)) (Fin (us_mass s)) (Fin (us_length s))
                                 (Fin (us_temp s)))).
Proof.
  intros s Hs o. change (mk_units _ _ _ _) with (sys_units s).
  unfold mean_covariant.
  split; [|split; [|split; [|split; reflexivity]]]; intros; unfold MeanNonCGSUnits;
    cbn [ma_Coefficient ma_GroupOfNu ma_FromNu]; cov s Hs; try reflexivity; covr s Hs.
Qed.

(** The calls that name the Planck or the Rosseland mean, around every mean-opacity
    table (the wrapped calls are then the wrapped object's own named calls). *)
Lemma C21_mean_named_covariant_proof :
  forall s, positive_system s -> forall pc m,
  mean_named_covariant s (mean_api pc m)
    (MeanNonCGSUnits (mean_api pc m)
       (mk_units (Fin (us_time s)) (Fin (us_mass s)) (Fin (us_length s)) (Fin (us_temp s)))).
Proof.
  intros s Hs pc m.
  destruct (C21_mean_covariant_proof s Hs (mean_api pc m)) as (H1 & _ & H3 & _).
  unfold mean_named_covariant. split; [|split; [|split]]; intros.
  - exact (H1 rho T g Planck).
  - exact (H1 rho T g Rosseland).
  - exact (H3 rho T nu Planck).
  - exact (H3 rho T nu Rosseland).
Qed.

(** Photon mean-scattering wrapper, around every object with its two members. *)
Lemma C21_mean_scattering_covariant_proof :
  forall s, positive_system s -> forall o,
  mean_s_covariant s o
    (MeanNonCGSUnitsS o (mk_units (Fin (us_time s)) (Fin (us_mass s)) (Fin (us_length s))
                                  (Fin (us_temp s)))).
Proof.
  intros s Hs o. change (mk_units _ _ _ _) with (sys_units s).
  split; intros; unfold MeanNonCGSUnitsS; cbn [msa_Planck msa_Rosseland]; cov s Hs; covr s Hs.
Qed.

(** Neutrino mean-opacity and mean-scattering wrappers. *)
Lemma C21_neutrino_mean_covariant_proof :
  forall s, positive_system s -> forall o,
  nu_mean_covariant s o
    (NuMeanNonCGSUnits o (mk_units (Fin (us_time s)) (Fin (us_mass s)) (Fin (us_length s))
                                   (Fin (us_temp s)))).
Proof.
  intros s Hs o. change (mk_units _ _ _ _) with (sys_units s).
  split; intros; unfold NuMeanNonCGSUnits; cbn [na_Planck na_Rosseland]; cov s Hs; covr s Hs.
Qed.

(** The speed of light a photon mean-opacity wrapper reports is the CGS one, so it is
    the code-unit value only when the length and time units agree; the neutrino
    wrapper's report is the code-unit value always. *)
Lemma C21_mean_constants_iff_proof :
  forall s, positive_system s -> forall pc, positive_hkc pc -> forall m,
  let u := mk_units (Fin (us_time s)) (Fin (us_mass s)) (Fin (us_length s)) (Fin (us_temp s)) in
  (Ok (r_c (ma_RPC (MeanNonCGSUnits (mean_api (finpc pc) m) u))) =
     in_code s d_velocity (Ok (r_c (ma_RPC (mean_api (finpc pc) m)))) <->
   us_length s = us_time s) /\
  forall o, Ok (r_c (na_RPC (NuMeanNonCGSUnits o u))) =
     in_code s d_velocity (Ok (pc_c PhysicalConstantsCGS)).
Proof.
  intros s Hs pc (Hh & Hk & Hc) m u. pose proof Hs as (A & B & C & D). split.
  - unfold u, MeanNonCGSUnits, mean_api, mt_RPC, RuntimePC_of, RuntimePC_units; cbn [ma_RPC r_c].
    match goal with |- context [Ok ?x = _] => change x with (Fin (pc_c pc)) end.
    unfold in_code, rescale. replace (unit_of s d_velocity) with (us_length s / us_time s) by (dims; field; nz).
    split.
    + intros H. injection H as H.
      assert (E : pc_c pc * (us_length s - us_time s) = 0).
      { replace (pc_c pc * (us_length s - us_time s)) with
          ((pc_c pc - pc_c pc * / (us_length s / us_time s)) * us_length s) by (field; repeat split; nz).
        rewrite <- H. ring. }
      apply Rmult_integral in E. destruct E; lra.
    + intros H. do 2 f_equal. rewrite H. field. nz.
  - intros o. unfold u, NuMeanNonCGSUnits, RuntimePC_units; cbn [na_RPC r_c].
    change (un_time _) with (Fin (us_time s)). change (un_length _) with (Fin (us_length s)).
    unfold in_code. f_equal. rewrite mul_rescale, div_rescale, rescale_rescale by assumption.
    f_equal. dims. field. repeat split; nz.
Qed.

Lemma nu_dT_call s pc o T t nu : positive_system s ->
  nu_DThermalDistributionOfTNuDT (NuNonCGSUnits pc o (sys_units s)) T t nu =
  in_code s d_intensity_nu_per_temp (nu_DThermalDistributionOfTNuDT o T t nu).
Proof.
  intros Hs. unfold NuNonCGSUnits; cbn [nu_DThermalDistributionOfTNuDT].
  cov s Hs. covr s Hs.
Qed.

(** The temperature derivative through the neutrino wrapper, every wrapped opacity:
    covariant exactly when the wrapped derivative does not notice the conversion of
    its arguments. *)
Lemma C21_derivative_iff_proof :
  forall s, positive_system s -> forall pc o,
  neutrino_dT_covariant s o
    (NuNonCGSUnits pc o (mk_units (Fin (us_time s)) (Fin (us_mass s)) (Fin (us_length s))
                                  (Fin (us_temp s)))) <->
  forall T t nu,
    nu_DThermalDistributionOfTNuDT o (in_cgs s d_temperature T) t (in_cgs s d_frequency nu) =
    nu_DThermalDistributionOfTNuDT o T t nu.
Proof.
  intros s Hs pc o. change (mk_units _ _ _ _) with (sys_units s).
  unfold neutrino_dT_covariant. split; intros H T t nu.
  - apply (in_code_inj s d_intensity_nu_per_temp _ _ Hs). rewrite <- H. now apply nu_dT_call.
  - rewrite nu_dT_call by exact Hs. now rewrite H.
Qed.

(** For the library's closed-form opacities: only when the time and temperature units
    are both 1. *)
Lemma C21_derivative_units_proof :
  forall ns pc o s, (0 < ns)%Z -> positive_hkc pc -> neutrino_opacity ns (finpc pc) o ->
  positive_system s ->
  neutrino_dT_covariant s o
    (NuNonCGSUnits (finpc pc) o (mk_units (Fin (us_time s)) (Fin (us_mass s)) (Fin (us_length s))
                                          (Fin (us_temp s)))) <->
  us_time s = 1 /\ us_temp s = 1.
Proof.
  intros ns pc o s Hns Hp Ho Hs. pose proof Hs as (A & B & C & D).
  apply (IZR_lt 0) in Hns. split.
  - intros H. pose proof (proj1 (C21_derivative_iff_proof s Hs (finpc pc) o) H) as H'.
    pose proof Hp as (Hh & Hk & Hc).
    set (a := us_time s * us_temp s). assert (Ha : 0 < a) by (unfold a; pos).
    destruct (gF_scaling (/ (us_time s ^ 2 * a ^ 2)) a ltac:(pos) Ha) as [T1 T2].
    2:{ assert (T3 : us_time s ^ 2 = 1).
        { rewrite T2 in T1. apply (f_equal Rinv) in T1. rewrite Rinv_inv, Rinv_1 in T1. lra. }
        assert (E1 : us_time s = 1) by nra. split; [exact E1|]. unfold a in T2. rewrite E1 in T2. lra. }
    assert (V : forall T nu, 0 < T -> 0 < nu ->
      nu_DThermalDistributionOfTNuDT o (Fin T) NU_ELECTRON (Fin nu) =
      Ok (Fin (IZR ns * (2 * pc_h pc ^ 2 * nu ^ 4 / (pc_c pc ^ 2 * pc_kb pc * T ^ 2)) *
               gF (pc_h pc * nu / (pc_kb pc * T))))).
    { intros T nu HT Hn. destruct (fd_dT_fin pc Hk Hc ns NU_ELECTRON T nu HT) as [d [E Hd]].
      assert (E' : nu_DThermalDistributionOfTNuDT o (Fin T) NU_ELECTRON (Fin nu) = Ok (Fin d))
        by (rewrite <- E; destruct Ho as [[kap ->]|[->|[C0 [n1 [n2 ->]]]]]; reflexivity).
      rewrite E'. do 2 f_equal.
      exact (is_derive_eq _ _ _ _ Hd (FD_dT_value (IZR ns) _ _ _ _ _ Hh Hk Hc HT Hn)). }
    intros x Hx. set (T := pc_h pc / (pc_kb pc * x)).
    assert (HT : 0 < T) by (unfold T; pos).
    pose proof (H' (Fin T) NU_ELECTRON (Fin 1)) as E.
    unfold in_cgs, rescale in E.
    assert (U1 : unit_of s d_temperature = us_temp s) by (dims; field; nz).
    assert (U2 : unit_of s d_frequency = / us_time s) by (dims; field; nz).
    rewrite U1, U2, !V in E by pos. injection E as E.
    replace (pc_h pc * (1 * / us_time s) / (pc_kb pc * (T * us_temp s)))
      with (x / a) in E by (unfold T, a; field; repeat split; nz).
    replace (pc_h pc * 1 / (pc_kb pc * T)) with x in E by (unfold T; field; repeat split; nz).
    set (q := IZR ns * (2 * pc_h pc ^ 2 / (pc_c pc ^ 2 * pc_kb pc * T ^ 2))).
    assert (Hq : q <> 0) by (unfold q; nz).
    apply (Rmult_eq_reg_l q); [|exact Hq].
    symmetry. etransitivity; [|etransitivity; [exact E|]]; unfold q, a; field; repeat split; nz.
  - intros [T1 T2]. apply C21_derivative_iff_proof; [exact Hs|]. intros T t nu.
    unfold in_cgs.
    replace (unit_of s d_temperature) with 1 by (dims; rewrite T2; field; nz).
    replace (unit_of s d_frequency) with 1 by (dims; rewrite T1; field; nz).
    now rewrite !rescale_1.
Qed.

(** So "method by method" is false of the code, through this one method. *)
Lemma C21_derivative_refuted_proof :
  ~ (forall ns pc o s, (0 < ns)%Z -> positive_hkc pc -> neutrino_opacity ns (finpc pc) o ->
     positive_system s ->
     neutrino_dT_covariant s o
       (NuNonCGSUnits (finpc pc) o (mk_units (Fin (us_time s)) (Fin (us_mass s)) (Fin (us_length s))
                                             (Fin (us_temp s))))).
Proof.
  intros H.
  pose (s := {| us_time := 1; us_mass := 1; us_length := 1; us_temp := 2 |}).
  assert (Hs : positive_system s) by (unfold positive_system; cbn; lra).
  assert (Ho : neutrino_opacity 3 (finpc cgsR) (NuGrayOpacity 3 (finpc cgsR) (Fin 1))) by (left; eauto).
  assert (H3 : (0 < 3)%Z) by reflexivity.
  pose proof (proj1 (C21_derivative_units_proof _ _ _ _ H3 cgs_hkc Ho Hs) (H _ _ _ _ H3 cgs_hkc Ho Hs)) as [_ E].
  cbn in E. lra.
Qed.

(** A unit system with all four units different from one. *)
Lemma C21_example :
  positive_system {| us_time := 60; us_mass := 1000; us_length := 100; us_temp := 11604 |}.
Proof. unfold positive_system; cbn; lra. Qed.
