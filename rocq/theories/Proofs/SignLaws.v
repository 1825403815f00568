(** Signs propagate: laws shared by exact arithmetic and binary64, and what they
    imply for every model. *)
From Coq Require Import Reals ZArith Lra Lia Bool.
From Flocq Require Import Core IEEE754.BinarySingleNaN.
From Verif Require Import Base.Outcome Base.Ops Inst.ER Inst.ERTac Inst.B64 Model.Constants Model.Robust
  Model.RadTypes Model.PhotonApi Model.ThermalPhotons Model.GrayPhotons Model.PowerLawPhotons Model.EPBremsPhotons
  Model.NonCGSPhotons Model.ScatteringPhotons Model.NeutrinoApi Model.ThermalNeutrinos Model.OpacNeutrinos
  Model.NonCGSNeutrinos Spec.Nonneg.
Open Scope ops_scope.

(** [PP] positive, [NN] nonnegative, [RR] a number *)
Record SignLaws {T} (O : Ops T) (PP NN RR : T -> Prop) : Prop := {
  sl_pn : forall x, PP x -> NN x;
  sl_pr : forall x, PP x -> RR x;
  sl_nr : forall x, NN x -> RR x;
  sl_mulP : forall x y, PP x -> PP y -> PP (x * y);
  sl_mulN : forall x y, NN x -> NN y -> NN (x * y);
  sl_divP : forall x y, PP x -> PP y -> PP (x / y);
  sl_divN : forall x y, NN x -> PP y -> NN (x / y);
  sl_addPN : forall x y, PP x -> NN y -> PP (x + y);
  sl_addN : forall x y, NN x -> NN y -> NN (x + y);
  sl_lit : forall p, PP (OofZ (Zpos p));
  sl_zero : NN (OofZ 0);
  sl_dec : forall p e, PP (Odec (Zpos p) e);
  sl_pi : PP Opi;
  sl_min : PP Onum_min;
  sl_pow : forall x y, PP x -> RR y -> PP (Opow x y);
  sl_exp : forall x, RR x -> PP (Oexp x);
  sl_opp : forall x, RR x -> RR (- x);
  sl_expm1 : forall x, PP x -> PP (Oexpm1 x);
  sl_expm1n : forall x, PP x -> PP (- Oexpm1 (- x));
  sl_sqrt : forall x, PP x -> PP (Osqrt x);
  sl_sq : forall c x, PP c -> RR x -> NN (c * x * x);
  sl_max : forall x y, NN x -> PP y -> PP (Omax x y);
  sl_ratio : forall x y, NN x -> PP y -> NN (ratio x y);
  sl_inf : forall y, PP y -> NN (Oinf * y) \/ Oinf * y = Oinf;
}.

Section Closure.
  Context {T : Type} {O : Ops T} {PP NN RR : T -> Prop} (S : SignLaws O PP NN RR).

  Ltac sg :=
    solve [ repeat first
      [ assumption
      | match goal with
        | |- RR (OofZ (Zpos _)) => apply (sl_pr _ _ _ _ S), (sl_lit _ _ _ _ S)
        | |- RR (OofZ 0) => apply (sl_nr _ _ _ _ S), (sl_zero _ _ _ _ S)
        | |- RR (- _) => apply (sl_opp _ _ _ _ S)
        | |- RR _ => apply (sl_pr _ _ _ _ S)
        | |- PP (OofZ (Zpos _)) => apply (sl_lit _ _ _ _ S)
        | |- PP (Odec (Zpos _) _) => apply (sl_dec _ _ _ _ S)
        | |- PP Opi => apply (sl_pi _ _ _ _ S)
        | |- PP Onum_min => apply (sl_min _ _ _ _ S)
        | |- PP (Opow _ _) => apply (sl_pow _ _ _ _ S)
        | |- PP (Oexp _) => apply (sl_exp _ _ _ _ S)
        | |- PP (Oexpm1 _) => apply (sl_expm1 _ _ _ _ S)
        | |- PP (- Oexpm1 (- _)) => apply (sl_expm1n _ _ _ _ S)
        | |- PP (Osqrt _) => apply (sl_sqrt _ _ _ _ S)
        | |- PP (Omax _ _) => apply (sl_max _ _ _ _ S)
        | |- PP (_ * _) => apply (sl_mulP _ _ _ _ S)
        | |- PP (_ / _) => apply (sl_divP _ _ _ _ S)
        | |- PP (_ + _) => apply (sl_addPN _ _ _ _ S)
        | |- NN (OofZ 0) => apply (sl_zero _ _ _ _ S)
        | |- NN (_ * _) => apply (sl_mulN _ _ _ _ S)
        | |- NN (_ / _) => apply (sl_divN _ _ _ _ S)
        | |- NN (_ + _) => apply (sl_addN _ _ _ _ S)
        | |- NN (ratio _ _) => apply (sl_ratio _ _ _ _ S)
        | |- NN _ => apply (sl_pn _ _ _ _ S)
        end ] ].

  Section Consts.
  Context (pc : PhysConst T) (C : pos_consts PP RR pc).
  Ltac consts := destruct C as (Ch & Ck & Cc & Ca & Chb & Cme & Cmp & Cqe & Cs & CgA).

  Lemma planck_nu_P temp nu : PP temp -> PP nu -> PP (planck_nu pc temp nu).
  Proof. intros. consts. unfold planck_nu. cbv zeta. sg. Qed.
  Lemma planck_dT_P temp nu : PP temp -> PP nu -> PP (planck_dT pc temp nu).
  Proof. intros. consts. unfold planck_dT. cbv zeta. sg. Qed.
  Lemma planck_T_P temp : PP temp -> PP (planck_T pc temp).
  Proof. intros. consts. unfold planck_T. sg. Qed.
  Lemma planck_number_T_P temp : PP temp -> PP (planck_number_T pc temp).
  Proof. intros. consts. unfold planck_number_T. cbv zeta. sg. Qed.
  Lemma planck_energy_P temp : PP temp -> PP (planck_energy_density pc temp).
  Proof. intros. pose proof (planck_T_P temp H). consts. unfold planck_energy_density. sg. Qed.
  Lemma planck_numden_P temp : PP temp -> PP (planck_number_density pc temp).
  Proof. intros. pose proof (planck_number_T_P temp H). consts. unfold planck_number_density. sg. Qed.

  Ltac ret := eexists; split; [reflexivity|].

  Ltac photon :=
    intros rho temp nu Hr Ht Hn;
    pose proof (planck_nu_P temp nu Ht Hn) as B1; pose proof (planck_dT_P temp nu Ht Hn) as B2;
    pose proof (planck_T_P temp Ht) as B3; pose proof (planck_number_T_P temp Ht) as B4;
    pose proof (planck_energy_P temp Ht) as B5; pose proof (planck_numden_P temp Ht) as B6.

  Lemma gray_nonneg kappa : NN kappa -> photon_nonneg PP NN NN (GrayOpacity pc kappa).
  Proof.
    intros Hk. photon. cbn [GrayOpacity ph_Absorption ph_AngleAvgAbsorption ph_EmissivityPerNuOmega
      ph_EmissivityPerNu ph_Emissivity ph_NumberEmissivity ph_ThermalDistributionOfTNu
      ph_DThermalDistributionOfTNuDT ph_ThermalDistributionOfT ph_ThermalNumberDistributionOfT
      ph_EnergyDensityFromTemperature ph_NumberDensityFromTemperature].
    repeat split; [ret|ret|ret|ret|right; ret|right; ret; left|ret|ret|ret|ret|ret|ret];
      unfold gray_alpha_avg, gray_alpha, gray_Jnu, gray_jnu, gray_J, gray_JN; cbv zeta; sg.
  Qed.

  Definition powerlaw_domain (p : PowerLawParams T) : Prop :=
    NN (pl_kappa0 p) /\ RR (pl_rho_exp p) /\ RR (pl_temp_exp p) /\ RR (pl_nu_exp p) /\
    PP (pl_rho_ref p) /\ PP (pl_temp_ref p) /\ PP (pl_nu_ref p) /\
    NN (pl_rho_off p) /\ NN (pl_temp_off p) /\ NN (pl_nu_off p).

  Lemma prefactor_N p rho temp : powerlaw_domain p -> PP rho -> PP temp -> NN (powerlaw_prefactor p rho temp).
  Proof. intros (?&?&?&?&?&?&?&?&?&?) ? ?. unfold powerlaw_prefactor. cbv zeta. sg. Qed.

  Lemma stim_P temp nu : PP temp -> PP nu -> PP (- Oexpm1 (- (pc_h pc * nu / (pc_kb pc * temp)))).
  Proof. intros. consts. sg. Qed.

  Lemma powerlaw_nonneg p : powerlaw_domain p -> photon_nonneg PP NN PP (PowerLawOpacity pc p).
  Proof.
    intros D. photon. pose proof (prefactor_N p rho temp D Hr Ht) as F.
    assert (Sc : NN (powerlaw_scale pc p rho temp nu)).
    { unfold powerlaw_scale. cbv zeta. pose proof (stim_P temp nu Ht Hn). destruct D as (?&?&?&?&?&?&?&?&?&?).
      destruct (pl_do_stim_emit p); sg. }
    cbn [PowerLawOpacity ph_Absorption ph_AngleAvgAbsorption ph_EmissivityPerNuOmega
      ph_EmissivityPerNu ph_Emissivity ph_NumberEmissivity ph_ThermalDistributionOfTNu
      ph_DThermalDistributionOfTNuDT ph_ThermalDistributionOfT ph_ThermalNumberDistributionOfT
      ph_EnergyDensityFromTemperature ph_NumberDensityFromTemperature].
    unfold powerlaw_J, powerlaw_JN.
    repeat split; [ret|ret|ret|ret|destruct (Oneqb _ _); [now left|right; ret]
      |destruct (Oneqb _ _); [now left|right; ret; left]|ret|ret|ret|ret|ret|ret];
      unfold powerlaw_alpha_avg, powerlaw_alpha, powerlaw_Jnu, powerlaw_jnu; cbv zeta; sg.
  Qed.

  Lemma brems_nonneg : photon_nonneg PP NN NN (EPBremsstrahlungOpacity pc).
  Proof.
    photon. pose proof C as CC.
    assert (J : NN (ep_jnu pc rho temp nu)).
    { consts. unfold ep_jnu, ep_prefac, ep_mmw, ep_gff. cbv zeta. sg. }
    cbn [EPBremsstrahlungOpacity ph_Absorption ph_AngleAvgAbsorption ph_EmissivityPerNuOmega
      ph_EmissivityPerNu ph_Emissivity ph_NumberEmissivity ph_ThermalDistributionOfTNu
      ph_DThermalDistributionOfTNuDT ph_ThermalDistributionOfT ph_ThermalNumberDistributionOfT
      ph_EnergyDensityFromTemperature ph_NumberDensityFromTemperature].
    assert (JJ : NN (ep_Jnu pc rho temp nu)) by (unfold ep_Jnu; sg).
    assert (E : NN (ep_J pc rho temp)).
    { consts. unfold ep_J, ep_prefac, ep_mmw, ep_gff. cbv zeta. sg. }
    repeat split; [ret|ret|ret|ret|right; ret|right; ret; right; reflexivity|ret|ret|ret|ret|ret|ret];
      unfold ep_alpha, ep_alpha_avg, kirchhoff, kirchhoff_avg; sg.
  Qed.

  (** ** neutrinos *)
  Context (ns : positive).
  Notation NS := (Zpos ns).
  Lemma fd_nu_P temp type nu : PP temp -> PP nu -> PP (fd_nu NS pc temp type nu).
  Proof. intros. consts. unfold fd_nu. cbv zeta. sg. Qed.
  Lemma fd_dT_P temp type nu : PP temp -> PP nu -> PP (fd_dT NS pc temp type nu).
  Proof. intros. consts. unfold fd_dT. cbv zeta. sg. Qed.
  Lemma fd_T_P temp type : PP temp -> PP (fd_T NS pc temp type).
  Proof. intros. consts. unfold fd_T. sg. Qed.
  Lemma fd_number_T_P temp type : PP temp -> PP (fd_number_T NS pc temp type).
  Proof. intros. consts. unfold fd_number_T. cbv zeta. sg. Qed.
  Lemma fd_energy_P temp type : PP temp -> PP (fd_energy_density NS pc temp type).
  Proof. intros. pose proof (fd_T_P temp type H). consts. unfold fd_energy_density. sg. Qed.
  Lemma fd_numden_P temp type : PP temp -> PP (fd_number_density NS pc temp type).
  Proof. intros. pose proof (fd_number_T_P temp type H). consts. unfold fd_number_density. sg. Qed.

  Ltac neutrino :=
    intros rho temp Ye type nu Hr Ht Hn HW;
    pose proof (fd_nu_P temp type nu Ht Hn) as B1; pose proof (fd_dT_P temp type nu Ht Hn) as B2;
    pose proof (fd_T_P temp type Ht) as B3; pose proof (fd_number_T_P temp type Ht) as B4;
    pose proof (fd_energy_P temp type Ht) as B5; pose proof (fd_numden_P temp type Ht) as B6.
  Ltac nuret := unfold NuGrayOpacity, BRTOpacity, TophatEmissivity, nu_opacity;
    cbn [nu_Absorption nu_AngleAvgAbsorption nu_EmissivityPerNuOmega
      nu_EmissivityPerNu nu_Emissivity nu_NumberEmissivity nu_ThermalDistributionOfTNu
      nu_DThermalDistributionOfTNuDT nu_ThermalDistributionOfT nu_ThermalNumberDistributionOfT
      nu_EnergyDensityFromTemperature nu_NumberDensityFromTemperature];
    repeat split; ret.

  Lemma nugray_nonneg kappa : NN kappa -> neutrino_nonneg PP NN NN (fun _ _ => True) (NuGrayOpacity NS pc kappa).
  Proof.
    intros Hk. neutrino. nuret; unfold nugray_alpha_avg, nugray_alpha, nugray_Jnu, nugray_jnu, nugray_J, nugray_JN;
      cbv zeta; sg.
  Qed.

  Lemma brt_nonneg : neutrino_nonneg PP NN NN (fun _ _ => True) (BRTOpacity NS pc).
  Proof.
    neutrino. pose proof C as CC.
    assert (G : PP (#1 + #3 * pc_gA pc * pc_gA pc)).
    { consts. apply (sl_addPN _ _ _ _ S); [sg|]. apply (sl_sq _ _ _ _ S); sg. }
    assert (A : NN (brt_sigmac pc type nu)).
    { consts. unfold brt_sigmac. destruct (negb _); [sg|]. unfold brt_Deltanp.
      revert G. generalize (#1 + #3 * pc_gA pc * pc_gA pc). intros g G. sg. }
    assert (A2 : NN (brt_alphac pc rho temp type)).
    { consts. unfold brt_alphac. destruct (negb _); [sg|]. cbv zeta. unfold brt_Deltanp, brt_zeta5, brt_mu.
      revert G. generalize (#1 + #3 * pc_gA pc * pc_gA pc). intros g G.
      apply (sl_divN _ _ _ _ S); [|sg]. apply (sl_mulN _ _ _ _ S); [sg|]. sg. }
    assert (A3 : NN (brt_nalphac pc rho temp type)).
    { consts. unfold brt_nalphac. cbv zeta. unfold brt_Deltanp, brt_zeta5, brt_zeta3, brt_mu.
      revert G. generalize (#1 + #3 * pc_gA pc * pc_gA pc). intros g G.
      apply (sl_divN _ _ _ _ S); [|sg]. apply (sl_mulN _ _ _ _ S); [sg|]. sg. }
    consts.
    nuret; unfold brt_alpha_avg, brt_Jnu, brt_jnu, brt_alpha, brt_J, brt_JN, brt_mu; cbv zeta; sg.
  Qed.

  (** in the tophat model: the species weight and the band must be nonnegative *)
  Lemma tophat_nonneg K numin numax : NN K -> NN (numax - numin) -> NN (Olog (numax / numin)) ->
    neutrino_nonneg PP NN PP (fun Ye type => NN (tophat_YeF type Ye)) (TophatEmissivity NS pc K numin numax).
  Proof.
    intros HK Hd Hl. neutrino. pose proof C as CC.
    assert (J : NN (tophat_jnu K numin numax rho temp Ye type nu)).
    { unfold tophat_jnu. destruct (_ && _)%bool; sg. }
    assert (JJ : NN (tophat_Jnu K numin numax rho temp Ye type nu)) by (unfold tophat_Jnu; sg).
    consts.
    nuret; unfold tophat_alpha, tophat_alpha_avg, tophat_J, tophat_JN, fd_kirchhoff, fd_kirchhoff_avg, fd_EPS;
      cbv zeta; sg.
  Qed.

  Lemma thomson_nonneg apm : PP apm -> scattering_nonneg PP NN NN (ThomsonSOpacity pc apm).
  Proof.
    intros Ha rho temp nu mu Hr Ht Hn.
    assert (PP (thomson_sigmaT pc)) by (consts; unfold thomson_sigmaT; sg).
    cbn [ThomsonSOpacity s_TotalCrossSection s_DifferentialCrossSection s_TotalScatteringCoefficient].
    repeat split; ret; cbv zeta; sg.
  Qed.
  End Consts.

  Ltac ret := eexists; split; [reflexivity|].
  Lemma grays_nonneg sigma apm : NN sigma -> PP apm -> scattering_nonneg PP NN NN (GraySOpacity sigma apm).
  Proof.
    intros Hs Ha rho temp nu mu Hr Ht Hn.
    cbn [GraySOpacity s_TotalCrossSection s_DifferentialCrossSection s_TotalScatteringCoefficient].
    repeat split; ret; sg.
  Qed.
  Lemma powerlaws_nonneg p apm : powerlaw_domain p -> PP apm ->
    scattering_nonneg PP NN PP (PowerLawSOpacity p apm).
  Proof.
    intros D Ha rho temp nu mu Hr Ht Hn. pose proof (prefactor_N p rho temp D Hr Ht).
    assert (NN (powerlaw_s_scale p rho temp nu)).
    { unfold powerlaw_s_scale. destruct D as (?&?&?&?&?&?&?&?&?&?). sg. }
    cbn [PowerLawSOpacity s_TotalCrossSection s_DifferentialCrossSection s_TotalScatteringCoefficient].
    repeat split; ret; sg.
  Qed.

  (** ** unit-converting wrappers *)
  Context (time mass len tmp : T) (Ut : PP time) (Um : PP mass) (Ul : PP len) (UT : PP tmp).
  Notation u := (mk_units time mass len tmp).

  Definition scale_closed (D : T -> Prop) : Prop :=
    forall x y, D x -> PP y -> D (x * y) /\ D (y * x).
  Lemma NN_closed : scale_closed NN.
  Proof. intros x y Hx Hy. split; sg. Qed.
  Lemma PP_closed : scale_closed PP.
  Proof. intros x y Hx Hy. split; sg. Qed.

  Lemma ret_bind (P Q : T -> Prop) (r : result T) (f : T -> result T) : returns_in P r -> (forall v, P v -> returns_in Q (f v)) -> returns_in Q (bind r f).
  Proof. intros (v & -> & Hv) H. exact (H v Hv). Qed.
  Lemma err_bind (P Q : T -> Prop) (r : result T) (f : T -> result T) : error_or P r -> (forall v, P v -> error_or Q (f v)) -> error_or Q (bind r f).
  Proof. intros [->|(v & -> & Hv)] H; [now left|exact (H v Hv)]. Qed.

  Lemma units_P : PP (un_rho u) /\ PP (un_freq u) /\ PP (un_inv_emiss u) /\ PP (un_inv_num_emiss u) /\
    PP (un_inv_intensity u) /\ PP (un_inv_energy_dens u) /\ PP (un_time u) /\ PP (un_mass u) /\ PP (un_length u) /\
    PP (un_temp u).
  Proof. cbn [mk_units un_rho un_freq un_inv_emiss un_inv_num_emiss un_inv_intensity un_inv_energy_dens un_time
    un_mass un_length un_temp]. repeat split; sg. Qed.

  Ltac rb H := eapply ret_bind; [apply H|]; intros ? ?; ret; sg.

  Lemma wrapped_nonneg D pc o : scale_closed D -> photon_nonneg PP NN D o ->
    photon_nonneg PP NN D (NonCGSUnits pc o u).
  Proof.
    intros Dc Ho rho temp nu Hr Ht Hn. destruct units_P as (U1&U2&U3&U4&U5&U6&U7&U8&U9&U10).
    set (uu := u) in *. clearbody uu.
    destruct (Dc rho _ Hr U1) as [R1 R2].
    assert (T1 : PP (temp * un_temp uu)) by sg. assert (T2 : PP (un_temp uu * temp)) by sg.
    assert (N1 : PP (nu * un_freq uu)) by sg.
    destruct (Ho _ _ _ R2 T2 N1) as (A1 & _).
    destruct (Ho _ _ _ R1 T1 N1) as (_ & A2 & A3 & A4 & A5 & A6 & A7 & _ & A9 & A10 & A11 & A12).
    destruct (Ho _ _ _ R1 Ht Hn) as (_ & _ & _ & _ & _ & _ & _ & A8 & _).
    cbn [NonCGSUnits ph_Absorption ph_AngleAvgAbsorption ph_EmissivityPerNuOmega
      ph_EmissivityPerNu ph_Emissivity ph_NumberEmissivity ph_ThermalDistributionOfTNu
      ph_DThermalDistributionOfTNuDT ph_ThermalDistributionOfT ph_ThermalNumberDistributionOfT
      ph_EnergyDensityFromTemperature ph_NumberDensityFromTemperature].
    repeat split; [rb A1|rb A2|rb A3|rb A4| | |rb A7|rb A8|rb A9|rb A10|rb A11|rb A12].
    - eapply err_bind; [apply A5|]. intros v Hv. right. ret. sg.
    - eapply err_bind; [apply A6|]. intros v [Hv|Hv]; right; ret; [left; sg|].
      rewrite Hv. apply (sl_inf _ _ _ _ S). exact U4.
  Qed.

  Lemma nu_wrapped_nonneg D W pc o : scale_closed D -> neutrino_nonneg PP NN D W o ->
    neutrino_nonneg PP NN D W (NuNonCGSUnits pc o u).
  Proof.
    intros Dc Ho rho temp Ye type nu Hr Ht Hn HW. destruct units_P as (U1&U2&U3&U4&U5&U6&U7&U8&U9&U10).
    set (uu := u) in *. clearbody uu.
    destruct (Dc rho _ Hr U1) as [R1 R2].
    assert (T1 : PP (temp * un_temp uu)) by sg. assert (T2 : PP (un_temp uu * temp)) by sg.
    assert (N1 : PP (nu * un_freq uu)) by sg.
    destruct (Ho _ _ Ye type _ R2 T2 N1 HW) as (A1 & _).
    destruct (Ho _ _ Ye type _ R1 T1 N1 HW) as (_ & A2 & A3 & A4 & A5 & A6 & A7 & _ & A9 & A10 & A11 & A12).
    destruct (Ho _ _ Ye type _ R1 Ht Hn HW) as (_ & _ & _ & _ & _ & _ & _ & A8 & _).
    cbn [NuNonCGSUnits nu_Absorption nu_AngleAvgAbsorption nu_EmissivityPerNuOmega
      nu_EmissivityPerNu nu_Emissivity nu_NumberEmissivity nu_ThermalDistributionOfTNu
      nu_DThermalDistributionOfTNuDT nu_ThermalDistributionOfT nu_ThermalNumberDistributionOfT
      nu_EnergyDensityFromTemperature nu_NumberDensityFromTemperature].
    repeat split; [rb A1|rb A2|rb A3|rb A4|rb A5|rb A6|rb A7|rb A8|rb A9|rb A10|rb A11|rb A12].
  Qed.

  Lemma s_wrapped_nonneg D o : scale_closed D -> scattering_nonneg PP NN D o ->
    scattering_nonneg PP NN D (NonCGSUnitsS o u).
  Proof.
    intros Dc Ho rho temp nu mu Hr Ht Hn. destruct units_P as (U1&U2&U3&U4&U5&U6&U7&U8&U9&U10).
    set (uu := u) in *. clearbody uu.
    destruct (Dc rho _ Hr U1) as [R1 R2].
    assert (T2 : PP (un_temp uu * temp)) by sg. assert (N1 : PP (nu * un_freq uu)) by sg.
    destruct (Ho _ _ _ mu R2 T2 N1) as (A1 & A2 & A3).
    cbn [NonCGSUnitsS s_TotalCrossSection s_DifferentialCrossSection s_TotalScatteringCoefficient].
    repeat split; [rb A1|rb A2|rb A3].
  Qed.
End Closure.

(** the library's constants *)
Lemma library_consts {T} {O : Ops T} {PP NN RR} (S : SignLaws O PP NN RR) :
  RR (Odec (-123) (-2)) -> pos_consts PP RR PhysicalConstantsCGS.
Proof.
  intros Hg. unfold pos_consts, PhysicalConstantsCGS, PhysicalConstants, BaseSICODATA2010, UnitConversionSIToCGS.
  cbn [pc_h pc_kb pc_c pc_alpha pc_hbar pc_me pc_mp pc_qe pc_nu_sigma0 pc_gA b_avogadro b_fine_structure b_planck
    b_boltzmann b_elementary_charge b_speed_of_light b_gravitational_constant b_electron_mass b_proton_mass
    b_neutron_mass b_atomic_mass_unit b_fermi_coupling_constant u_length u_mass u_time u_temperature u_charge].
  repeat split; try exact Hg;
  repeat first [ apply (sl_dec _ _ _ _ S) | apply (sl_lit _ _ _ _ S) | apply (sl_pi _ _ _ _ S)
               | apply (sl_mulP _ _ _ _ S) | apply (sl_divP _ _ _ _ S) ].
Qed.

(** ** Exact arithmetic *)
Local Open Scope R_scope.
Lemma er_laws : SignLaws ER_ops pos_real nonneg_real a_real.
Proof.
  assert (M : 0 < R_num_min) by apply R_num_min_pos.
  split; unfold pos_real, nonneg_real, a_real.
  - intros x (r & -> & H). exists r. split; [reflexivity|lra].
  - intros x (r & -> & H). now exists r.
  - intros x (r & -> & H). now exists r.
  - intros x y (r & -> & H) (q & -> & K). exists (r * q). split; [reflexivity|]. now apply Rmult_lt_0_compat.
  - intros x y (r & -> & H) (q & -> & K). exists (r * q). split; [reflexivity|]. now apply Rmult_le_pos.
  - intros x y (r & -> & H) (q & -> & K). exists (r / q). split; [apply fin_div; lra|]. now apply Rdiv_lt_0_compat.
  - intros x y (r & -> & H) (q & -> & K). exists (r / q). split; [apply fin_div; lra|].
    apply Rmult_le_pos; [lra|]. left. now apply Rinv_0_lt_compat.
  - intros x y (r & -> & H) (q & -> & K). exists (r + q). split; [reflexivity|lra].
  - intros x y (r & -> & H) (q & -> & K). exists (r + q). split; [reflexivity|lra].
  - intros p. exists (IZR (Zpos p)). split; [reflexivity|]. now apply IZR_lt.
  - exists 0. split; [reflexivity|lra].
  - intros p e. eexists. split; [reflexivity|]. apply Rmult_lt_0_compat; [now apply IZR_lt|]. apply powerRZ_lt. lra.
  - exists PI. split; [reflexivity|apply PI_RGT_0].
  - exists R_num_min. split; [reflexivity|exact M].
  - intros x y (r & -> & H) (q & ->). rewrite fin_pow by exact H. eexists. split; [reflexivity|]. apply exp_pos.
  - intros x (r & ->). eexists. split; [reflexivity|]. apply exp_pos.
  - intros x (r & ->). now exists (- r).
  - intros x (r & -> & H). eexists. split; [reflexivity|]. now apply expm1_pos.
  - intros x (r & -> & H). eexists. split; [reflexivity|]. pose proof (exp_neg_lt_1 r H). lra.
  - intros x (r & -> & H). rewrite fin_sqrt by lra. eexists. split; [reflexivity|]. now apply sqrt_lt_R0.
  - intros c x (r & -> & H) (q & ->). eexists. split; [reflexivity|].
    replace (r * q * q) with (r * (q * q)) by ring. apply Rmult_le_pos; [lra|]. apply Rle_0_sqr.
  - intros x y (r & -> & H) (q & -> & K). unfold Omax. destruct (Oltb _ _) eqn:E.
    + now exists q. + exists r. split; [reflexivity|]. rewrite fin_ltb in E. unfold Rltb in E.
      destruct (Rlt_dec r q); [discriminate|lra].
  - intros x y (r & -> & H) (q & -> & K). unfold ratio, sgn. rewrite !fin_ofZ, fin_leb, fin_ltb.
    rewrite Rleb_true, Rltb_false by lra. change (Z.b2z true - Z.b2z false)%Z with 1%Z.
    unfold SMALL. rewrite !fin_ofZ, fin_min, !fin_mul, fin_add, fin_div by lra.
    eexists. split; [reflexivity|]. apply Rmult_le_pos; [lra|]. left. apply Rinv_0_lt_compat. lra.
  - intros y (r & -> & H). right. cbn. unfold inf_of_sign. destruct (Rlt_dec 0 r); [reflexivity|lra].
Qed.

(** ** binary64 *)
(** What is asked of the mathematical library: nothing but signs. *)
Record sane_libm (L : Libm) : Prop := {
  sane_exp : forall x, not_negative (lm_exp L x);
  sane_expm1 : forall x, not_negative x -> not_negative (lm_expm1 L x);
  sane_expm1_neg : forall x, is_nan x = true \/ Bsign x = true ->
    is_nan (lm_expm1 L x) = true \/ Bsign (lm_expm1 L x) = true;
  sane_pow : forall x y, not_negative x -> not_negative (lm_pow L x y);
}.

Lemma nn_mul m (x y : b64) : not_negative x -> not_negative y -> not_negative (Bmult m x y).
Proof.
  intros Hx Hy. unfold not_negative in *. destruct (is_nan (Bmult m x y)) eqn:N; [now left|right].
  assert (Nx : is_nan x = false) by (destruct x; try reflexivity; discriminate N).
  assert (Ny : is_nan y = false) by (destruct x, y; try reflexivity; discriminate N).
  rewrite Nx in Hx. rewrite Ny in Hy. destruct Hx as [|Hx]; [discriminate|]. destruct Hy as [|Hy]; [discriminate|].
  pose proof (Bmult_correct 53 1024 _ _ m x y) as Cx. destruct (Rlt_bool _ _).
  - destruct Cx as (_ & _ & Cx). rewrite Cx by exact N. now rewrite Hx, Hy.
  - rewrite Hx, Hy in Cx. cbn [xorb] in Cx. unfold binary_overflow in Cx.
    destruct (Bmult m x y) as [s|s| |s mm e H]; cbn in Cx |- *; try discriminate;
      destruct (overflow_to_inf m false); try discriminate; inversion Cx; reflexivity.
Qed.

Lemma nn_div m (x y : b64) : not_negative x -> not_negative y -> not_negative (Bdiv m x y).
Proof.
  unfold not_negative. intros Hx Hy.
  destruct x as [sx|sx| |sx mx ex Ex], y as [sy|sy| |sy my ey Ey]; cbn [is_nan Bsign] in Hx, Hy;
    destruct Hx as [Hx|Hx]; try discriminate Hx; destruct Hy as [Hy|Hy]; try discriminate Hy;
    try (left; reflexivity); try (right; cbn; rewrite Hx, Hy; reflexivity).
  set (x := B754_finite sx mx ex Ex). set (y := B754_finite sy my ey Ey).
  destruct (is_nan (Bdiv m x y)) eqn:N; [now left|right].
  assert (Vy : B2R y <> 0).
  { unfold y. cbn. intros E. apply eq_0_F2R in E. cbn in E. destruct sy; discriminate. }
  pose proof (Bdiv_correct 53 1024 _ _ m x y Vy) as Cx. destruct (Rlt_bool _ _).
  - destruct Cx as (_ & _ & Cx). rewrite Cx by exact N. unfold x, y; cbn. now rewrite Hx, Hy.
  - change (Bsign x) with sx in Cx. change (Bsign y) with sy in Cx.
    rewrite Hx, Hy in Cx. cbn [xorb] in Cx. unfold binary_overflow in Cx.
    destruct (Bdiv m x y) as [s|s| |s mm e H]; cbn in Cx |- *; try discriminate;
      destruct (overflow_to_inf m false); try discriminate; inversion Cx; reflexivity.
Qed.

Lemma nn_ge0 (x : b64) : is_finite x = true -> Bsign x = false -> 0 <= B2R x.
Proof.
  intros F H. destruct x as [s|s| |s m e E]; try discriminate F; cbn in H |- *; [lra|].
  subst s. apply F2R_ge_0. cbn. lia.
Qed.

Lemma nn_add (x y : b64) : not_negative x -> not_negative y -> not_negative (Bplus mode_NE x y).
Proof.
  unfold not_negative. intros Hx Hy.
  destruct (is_nan x) eqn:Nx; [left; destruct x; try discriminate; reflexivity|].
  destruct (is_nan y) eqn:Ny; [left; destruct x, y; try discriminate; reflexivity|].
  destruct Hx as [|Hx]; [discriminate|]. destruct Hy as [|Hy]; [discriminate|].
  destruct (is_finite x) eqn:Fx.
  2:{ destruct x as [sx|sx| |sx mx ex Ex]; try discriminate. cbn in Hx. subst sx.
      destruct y as [sy|sy| |sy my ey Ey]; try discriminate; cbn in Hy; subst sy; right; reflexivity. }
  destruct (is_finite y) eqn:Fy.
  2:{ destruct y as [sy|sy| |sy my ey Ey]; try discriminate. cbn in Hy. subst sy.
      destruct x as [sx|sx| |sx mx ex Ex]; try discriminate; cbn in Hx; subst sx; right; reflexivity. }
  right. pose proof (Bplus_correct 53 1024 _ _ mode_NE x y Fx Fy) as Cx. destruct (Rlt_bool _ _).
  - destruct Cx as (_ & _ & Cx). rewrite Cx.
    pose proof (nn_ge0 x Fx Hx). pose proof (nn_ge0 y Fy Hy).
    destruct (Rcompare_spec (B2R x + B2R y) 0); [lra|rewrite Hx, Hy; reflexivity|reflexivity].
  - destruct Cx as [Cx _]. rewrite Hx in Cx. unfold binary_overflow in Cx.
    destruct (Bplus mode_NE x y) as [s|s| |s mm e H]; cbn in Cx |- *; try discriminate; inversion Cx; reflexivity.
Qed.

Lemma nn_opp (x : b64) : is_nan x = true \/ Bsign x = true -> not_negative (Bopp x).
Proof. unfold not_negative. destruct x as [s|s| |s m e E]; cbn; intros [H|H]; try discriminate; auto; right; now rewrite H. Qed.
Lemma opp_nn (x : b64) : not_negative x -> is_nan (Bopp x) = true \/ Bsign (Bopp x) = true.
Proof. unfold not_negative. destruct x as [s|s| |s m e E]; cbn; intros [H|H]; try discriminate; auto; right; now rewrite H. Qed.

Lemma nn_sqrt (x : b64) : not_negative x -> not_negative (Bsqrt mode_NE x).
Proof.
  unfold not_negative. intros Hx. destruct (is_nan (Bsqrt mode_NE x)) eqn:N; [now left|right].
  pose proof (Bsqrt_correct 53 1024 _ _ mode_NE x) as (_ & _ & Cx). rewrite Cx by exact N.
  destruct x as [s|s| |s m e E]; cbn in Hx |- *; destruct Hx; try discriminate; auto.
Qed.

Lemma nn_ofZ p : not_negative (b64_of_Z (Zpos p)).
Proof.
  unfold not_negative. destruct (is_nan (b64_of_Z (Zpos p))) eqn:N; [now left|right].
  pose proof (binary_normalize_correct 53 1024 _ _ mode_NE (Zpos p) 0 false) as Cx. cbv zeta in Cx.
  fold (b64_of_Z (Zpos p)) in Cx. destruct (Rlt_bool _ _).
  - destruct Cx as (_ & _ & Cx). rewrite Cx. rewrite Rcompare_Gt; [reflexivity|].
    apply F2R_gt_0. cbn. lia.
  - assert (Q : Rlt_bool (F2R (Float radix2 (Zpos p) 0)) 0 = false).
    { apply Rlt_bool_false. apply F2R_ge_0. cbn. lia. }
    rewrite Q in Cx. unfold binary_overflow in Cx.
    destruct (b64_of_Z (Zpos p)) as [s|s| |s mm e H]; cbn in Cx |- *; try discriminate; inversion Cx; reflexivity.
Qed.

Lemma nn_norm z e : (0 <= z)%Z -> not_negative (binary_normalize 53 1024 _ _ mode_NE z e false).
Proof.
  intros Hz. set (x := binary_normalize _ _ _ _ _ _ _ _).
  unfold not_negative. destruct (is_nan x) eqn:N; [now left|right].
  pose proof (binary_normalize_correct 53 1024 _ _ mode_NE z e false) as Cx. cbv zeta in Cx.
  fold x in Cx. assert (P : 0 <= F2R (Float radix2 z e)) by (apply F2R_ge_0; exact Hz).
  destruct (Rlt_bool _ _).
  - destruct Cx as (_ & _ & Cx). rewrite Cx. destruct (Rcompare_spec (F2R (Float radix2 z e)) 0); [lra|reflexivity|reflexivity].
  - rewrite (Rlt_bool_false _ _ P) in Cx. unfold binary_overflow in Cx.
    destruct x as [s|s| |s mm ee H]; cbn in Cx |- *; try discriminate; inversion Cx; reflexivity.
Qed.

Lemma b64_laws L : sane_libm L -> SignLaws (B64_ops L) not_negative not_negative (fun _ => True).
Proof.
  intros [Le Lm Lmn Lp]. split; try (intros; exact I); try (intros; assumption).
  - intros. now apply nn_mul.
  - intros. now apply nn_mul.
  - intros. now apply nn_div.
  - intros. now apply nn_div.
  - intros. now apply nn_add.
  - intros. now apply nn_add.
  - intros p. apply nn_norm. lia.
  - right. reflexivity.
  - intros p e. cbn [Odec B64_ops]. unfold b64_dec. destruct (0 <=? e)%Z eqn:E.
    + apply nn_norm. apply Z.leb_le in E. assert (0 <= 10 ^ e)%Z by (apply Z.pow_nonneg; lia). nia.
    + apply nn_norm. cbn [Z.sgn]. rewrite Z.mul_1_l.
      apply Z.leb_gt in E. assert (0 < 10 ^ (- e))%Z by (apply Z.pow_pos_nonneg; lia).
      set (n := (Z.abs (Z.pos p) * _)%Z).
      assert (0 <= n)%Z by (unfold n; apply Z.mul_nonneg_nonneg; [lia|apply Z.pow_nonneg; lia]).
      assert (0 <= n / 10 ^ (- e))%Z by (apply Z.div_pos; lia).
      destruct (_ =? 0)%Z; lia.
  - right. reflexivity.
  - right. reflexivity.
  - intros x y Hx _. now apply Lp.
  - intros x _. apply Le.
  - intros x Hx. now apply Lm.
  - intros x Hx. apply nn_opp, Lmn, opp_nn, Hx.
  - intros x Hx. now apply nn_sqrt.
  - intros c x Hc _. cbn [Omul B64_ops].
    unfold not_negative in *. destruct (is_nan (Bmult mode_NE (Bmult mode_NE c x) x)) eqn:N; [now left|right].
    assert (SG : forall a b : b64, is_nan (Bmult mode_NE a b) = false -> Bsign (Bmult mode_NE a b) = xorb (Bsign a) (Bsign b)).
    { clear. intros a b N. pose proof (Bmult_correct 53 1024 _ _ mode_NE a b) as Cx. destruct (Rlt_bool _ _).
      - destruct Cx as (_ & _ & Cx). now apply Cx.
      - unfold binary_overflow in Cx.
        destruct (Bmult mode_NE a b) as [s|s| |s mm e H]; cbn in Cx |- *; try discriminate; inversion Cx; reflexivity. }
    rewrite SG by exact N.
    assert (N2 : is_nan (Bmult mode_NE c x) = false) by (destruct (Bmult mode_NE c x); try reflexivity; discriminate N).
    rewrite SG by exact N2.
    assert (N3 : is_nan c = false) by (destruct c; try reflexivity; discriminate N2).
    rewrite N3 in Hc. destruct Hc as [|Hc]; [discriminate|]. rewrite Hc. destruct (Bsign x); reflexivity.
  - intros x y Hx Hy. unfold Omax. destruct (Oltb x y); assumption.
  - intros x y Hx Hy. unfold ratio. cbn [Odiv Oadd Omul OofZ B64_ops].
    apply nn_div; [exact Hx|]. unfold not_negative in Hy. destruct (is_nan y) eqn:Ny.
    + left. destruct y; try discriminate. reflexivity.
    + destruct Hy as [|Hy]; [discriminate|].
      assert (E : @sgn _ (B64_ops L) y = 1%Z).
      { unfold sgn. cbn [Oleb Oltb OofZ B64_ops].
        destruct y as [s|s| |s m e E]; try discriminate; cbn in Hy; subst s; reflexivity. }
      rewrite E. apply nn_add; [now right|]. right. unfold SMALL. cbn [Omul OofZ Onum_min B64_ops]. vm_compute. reflexivity.
  - intros y Hy. left. apply nn_mul; [right; reflexivity|exact Hy].
Qed.
