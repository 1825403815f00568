(** C61. Unit conversion in double precision costs a few roundings. *)
From Coquelicot Require Import Coquelicot.
From Coq Require Import Reals ZArith List Lra Lia Bool.
From Flocq Require Import Core IEEE754.BinarySingleNaN.
From Verif Require Import Base.Outcome Base.Ops Inst.ER Inst.B64 Model.Constants Model.RadTypes
  Model.PhotonApi Model.NeutrinoApi Model.NonCGSPhotons Model.NonCGSNeutrinos Model.ScatteringPhotons
  Spec.Units Spec.Arrays Spec.DoublePrecision Spec.ConvertedPrecision Spec.Opacities Model.GrayPhotons Proofs.C17 Proofs.ArrayFacts Proofs.B64Facts Proofs.Near Proofs.NearConsts Proofs.NearRules.
Import ListNotations.
Open Scope R_scope.

Lemma zero_form (x : b64) : fin x -> V x = 0 -> exists s, x = B754_zero s.
Proof.
  intros F E. destruct x as [s|s| |s m e H]; try discriminate F; [now exists s|].
  exfalso. unfold V in E. cbn in E. apply eq_0_F2R in E. destruct s; discriminate.
Qed.
Definition zr (x : b64) : Prop := fin x /\ V x = 0.
Lemma z_mul (x y : b64) : zr x -> fin y -> zr (Bmult mode_NE x y).
Proof. intros [F E] Fy. destruct (zero_form x F E) as [s ->]. destruct y; try discriminate Fy; split; reflexivity. Qed.
Lemma z_div n a b (x y : b64) r : zr x -> near n a b y r -> zr (Bdiv mode_NE x y).
Proof.
  intros [F E] N. destruct (near_pos _ _ _ _ _ N) as [_ P]. destruct N as (Fy & _).
  destruct (zero_form x F E) as [s ->]. destruct y; try discriminate Fy; [|split; reflexivity].
  unfold V in P. cbn in P. lra.
Qed.
Lemma near_fin n a b x r : near n a b x r -> fin x. Proof. intros H; apply H. Qed.
Lemma zr_within k x r : zr x -> r = 0 -> within k x r.
Proof. intros [F E] ->. split; [exact F|]. fold (V x). rewrite E. replace (0 - 0) with 0 by ring. rewrite !Rabs_R0. lra. Qed.
Lemma sized_near v : sized v -> zr v \/ near 0 (-300) 300 v (V v).
Proof.
  intros [F [E|H]]; [left; now split|right]. apply near_exact; [exact F|reflexivity|].
  rewrite two_pow_bp in H. change (Z.of_nat 300) with 300%Z in H. change (-300)%Z with (- (300))%Z. rewrite bpow_opp. exact H.
Qed.

Section Wrapped.
  Context (L : Libm).
  Local Notation O := (B64_ops L).
  Context (time mass len tmp : b64) (Ht : physical time) (Hm : physical mass) (Hl : physical len) (HT : physical tmp).
  Local Notation U := (@mk_units b64 O time mass len tmp).
  Local Notation s := (units_of time mass len tmp).

  Ltac nm := lazymatch goal with
    | |- near _ _ _ (Omul _ _) _ => eapply n_mul; [nm|nm|zs|zs|rs]
    | |- near _ _ _ (Odiv _ _) _ => eapply n_div; [nm|nm|zs|zs|rs]
    | |- near _ _ _ (OofZ 1) _ => zlit 1%Z
    | |- _ => first [eassumption | apply near_in; eassumption]
    end.
  Ltac uu := apply near_in in Ht, Hm, Hl, HT.

  Lemma n_rho : near 3 (-400) 400 (un_rho U) (V mass / (V len * V len * V len)).
  Proof. cbn [mk_units un_rho]. eapply near_conv; [nm|reflexivity|rs|zs|zs]. Qed.
  Lemma n_freq : near 1 (-100) 100 (un_freq U) (1 / V time).
  Proof. cbn [mk_units un_freq]. eapply near_conv; [nm|reflexivity|rs|zs|zs]. Qed.
  Lemma n_emiss : near 3 (-400) 400 (un_inv_emiss U) (V len * V time * V time / V mass).
  Proof. cbn [mk_units un_inv_emiss]. eapply near_conv; [nm|reflexivity|rs|zs|zs]. Qed.
  Lemma n_num : near 3 (-400) 400 (un_inv_num_emiss U) (V len * V len * V len * V time).
  Proof. cbn [mk_units un_inv_num_emiss]. eapply near_conv; [nm|reflexivity|rs|zs|zs]. Qed.
  Lemma n_int : near 2 (-300) 300 (un_inv_intensity U) (V time * V time / V mass).
  Proof. cbn [mk_units un_inv_intensity]. eapply near_conv; [nm|reflexivity|rs|zs|zs]. Qed.
  Lemma n_ed : near 3 (-400) 400 (un_inv_energy_dens U) (V time * V time * V len / V mass).
  Proof. cbn [mk_units un_inv_energy_dens]. eapply near_conv; [nm|reflexivity|rs|zs|zs]. Qed.

  Lemma mul_comm (x y : b64) : fin x -> fin y -> Bmult mode_NE x y = Bmult mode_NE y x.
  Proof.
    intros Fx Fy. pose proof (Bmult_correct 53 1024 _ _ mode_NE x y) as C. pose proof (Bmult_correct 53 1024 _ _ mode_NE y x) as D.
    rewrite (Rmult_comm (B2R y)) in D. rewrite (xorb_comm (Bsign y)) in D. rewrite Fx, Fy in C, D.
    destruct (Rlt_bool _ _).
    - destruct C as (C1 & C2 & C3), D as (D1 & D2 & D3). cbn [andb] in C2, D2.
      apply B2R_Bsign_inj; try assumption; [congruence|]. rewrite C3, D3; [reflexivity|destruct (Bmult mode_NE y x); auto; discriminate|destruct (Bmult mode_NE x y); auto; discriminate].
    - apply B2SF_inj. congruence.
  Qed.

  Ltac unit_value := unfold unit_of, units_of; cbn [us_time us_mass us_length us_temp dL dM dT dK
    d_length d_mass_density d_temperature d_frequency d_energy_density d_absorption d_emissivity_nu d_emissivity
    d_number_emissivity d_intensity_nu d_intensity d_number_intensity d_number_density d_cross_section];
    simpl powerRZ; unfold V; field; repeat split; apply Rgt_not_eq; assumption.
  Ltac pos4 := pose proof (proj1 (near_pos _ _ _ _ _ (near_in _ Ht))) as Pt; pose proof (proj1 (near_pos _ _ _ _ _ (near_in _ Hm))) as Pm;
    pose proof (proj1 (near_pos _ _ _ _ _ (near_in _ Hl))) as Pl; pose proof (proj1 (near_pos _ _ _ _ _ (near_in _ HT))) as PT;
    unfold V in Pt, Pm, Pl, PT.
  Ltac inn := eapply near_within; [eapply near_conv; [nm| |apply Rle_refl|apply Z.le_refl|apply Z.le_refl]| |]; [pos4; unit_value|rs|rs].

  Lemma in_rho rho : physical rho -> to_cgs s 5 d_mass_density rho (@Omul b64 O rho (un_rho U)).
  Proof. intros H. pose proof n_rho as N. unfold to_cgs. inn. Qed.
  Lemma in_temp temp : physical temp -> to_cgs s 2 d_temperature temp (@Omul b64 O temp (un_temp U)).
  Proof. intros H. cbn [mk_units un_temp]. unfold to_cgs. inn. Qed.
  Lemma in_nu nu : physical nu -> to_cgs s 3 d_frequency nu (@Omul b64 O nu (un_freq U)).
  Proof. intros H. pose proof n_freq as N. unfold to_cgs. inn. Qed.
  Lemma in_er er : energy er -> to_cgs s 5 d_energy_density er (@Odiv b64 O er (un_inv_energy_dens U)).
  Proof.
    intros [F H]. pose proof n_ed as N. destruct (sized_near er) as [[_ Z]|E]; [split; [exact F|now right]| |].
    - exfalso. unfold V in Z. rewrite Z in H. assert (0 < / 2 ^ 300) by (apply Rinv_0_lt_compat, pow_lt; lra). lra.
    - unfold to_cgs. inn.
  Qed.
  Lemma swap_rho rho : physical rho -> @Omul b64 O (un_rho U) rho = @Omul b64 O rho (un_rho U).
  Proof. intros H. apply mul_comm; [exact (near_fin _ _ _ _ _ n_rho)|apply H]. Qed.
  Lemma swap_temp temp : physical temp -> @Omul b64 O (un_temp U) temp = @Omul b64 O temp (un_temp U).
  Proof. intros H. apply mul_comm; [apply HT|apply H]. Qed.

  Ltac zz := lazymatch goal with
    | |- zr (Omul _ _) => apply z_mul; [zz|eapply near_fin; nm]
    | |- zr (Odiv _ _) => eapply z_div; [zz|nm]
    | |- _ => assumption
    end.
  Ltac outt := split; [|split; intros ->; reflexivity];
    intros v -> Hv; unfold bind; eexists; split; [reflexivity|];
    pose proof n_rho; pose proof n_emiss; pose proof n_num; pose proof n_int; pose proof n_ed;
    cbn [mk_units un_time un_mass un_length un_temp];
    destruct (sized_near v Hv) as [Z|E];
    [ apply zr_within; [zz|destruct Z as [_ Z]; unfold V in Z; rewrite Z; unfold Rdiv; apply Rmult_0_l] | inn ].

  Lemma o_abs (q : result b64) : from_cgs s 2 d_absorption q (bind q (fun v => Ok (@Omul b64 O v (un_length U)))).
  Proof. outt. Qed.
  Lemma o_emiss (q : result b64) : from_cgs s 5 d_emissivity_nu q (bind q (fun v => Ok (@Omul b64 O v (un_inv_emiss U)))).
  Proof. outt. Qed.
  Lemma o_J (q : result b64) : from_cgs s 6 d_emissivity q (bind q (fun v => Ok (@Omul b64 O (@Omul b64 O v (un_inv_emiss U)) (un_time U)))).
  Proof. outt. Qed.
  Lemma o_num (q : result b64) : from_cgs s 5 d_number_emissivity q (bind q (fun v => Ok (@Omul b64 O v (un_inv_num_emiss U)))).
  Proof. outt. Qed.
  Lemma o_Bnu (q : result b64) : from_cgs s 4 d_intensity_nu q (bind q (fun v => Ok (@Omul b64 O v (un_inv_intensity U)))).
  Proof. outt. Qed.
  Lemma o_B (q : result b64) : from_cgs s 7 d_intensity q (bind q (fun v => Ok (@Odiv b64 O (@Omul b64 O (@Omul b64 O v (un_inv_energy_dens U)) (un_time U)) (un_length U)))).
  Proof. outt. Qed.
  Lemma o_N (q : result b64) : from_cgs s 8 d_number_intensity q (bind q (fun v => Ok (@Odiv b64 O (@Omul b64 O (@Odiv b64 O (@Omul b64 O v (un_mass U)) (un_rho U)) (un_time U)) (un_length U)))).
  Proof. outt. Qed.
  Lemma o_ed (q : result b64) : from_cgs s 5 d_energy_density q (bind q (fun v => Ok (@Omul b64 O v (un_inv_energy_dens U)))).
  Proof. outt. Qed.
  Lemma o_nd (q : result b64) : from_cgs s 6 d_number_density q (bind q (fun v => Ok (@Odiv b64 O (@Omul b64 O v (un_mass U)) (un_rho U)))).
  Proof. outt. Qed.
  Lemma o_T (q : result b64) : from_cgs s 2 d_temperature q (bind q (fun v => Ok (@Odiv b64 O v (un_temp U)))).
  Proof. outt. Qed.
  Lemma o_sigma (q : result b64) : from_cgs s 3 d_cross_section q (bind q (fun v => Ok (@Odiv b64 O v (@Omul b64 O (un_length U) (un_length U))))).
  Proof. outt. Qed.

  Lemma back_nu n x r : near n (-100) 100 x r -> n + 3 <= 2 ^ 39 ->
    near (n + 3) (-100) 100 (@Omul b64 O (@Omul b64 O x (un_freq U)) (un_time U)) r.
  Proof.
    intros H Hn. pose proof n_freq as N. destruct H as (F & H0 & H1 & H2).
    pose proof (conj F (conj H0 (conj H1 H2)) : near n (-100) 100 x r) as H.
    assert (B : 2 ^ 39 + 10 <= 2 ^ 40) by (simpl; lra).
    assert (A : near (n + 1 + 1) (-100 + -100) (100 + 100) (@Omul b64 O x (un_freq U)) (r * (1 / V time))).
    { apply n_mul; [exact H|exact N|zs|zs|lra]. }
    assert (C : near (n + 1 + 1 + 0 + 1) (-100 + -100 + -100) (100 + 100 + 100)
                  (@Omul b64 O (@Omul b64 O x (un_freq U)) (un_time U)) (r * (1 / V time) * V time)).
    { apply n_mul; [exact A|exact (near_in _ Ht)|zs|zs|lra]. }
    pose proof (proj2 (near_pos _ _ _ _ _ (near_in _ Ht))) as P.
    replace (r * (1 / V time) * V time) with r in C by (field; lra).
    eapply near_weaken; [exact C|lra|exact H1].
  Qed.

  Lemma array_within out F G W :
    bin_by_bin F W -> (forall nu, G nu = bind (F (@Omul b64 O nu (un_freq U))) (fun v => Ok (@Omul b64 O v out))) ->
    converted_within 4 G (@noncgs_array b64 O U out W).
  Proof.
    intros HV HG nb co n m Hn H1 H2 Hd.
    destruct (@noncgs_array_spec b64 O U out F W HV nb co n m Hn H1 H2 Hd) as [m' [E [Le [S X]]]].
    exists m'. split; [exact E|]. split; [exact Le|]. split; [|exact X].
    intros i nu Hi Hnu. destruct (S i nu Hi Hnu) as [[v [Fv Hv]] R]. split.
    - eexists. split; [rewrite HG, Fv; reflexivity|exact Hv].
    - intros Pn. eexists. split; [exact R|]. eapply near_within; [apply back_nu; [apply near_in, Pn|]| |]; simpl; lra.
  Qed.

  Definition wrapped_call (c : array_call b64) : Prop :=
    exists F W out, bin_by_bin F W /\ c = @noncgs_array b64 O U out W.
  Lemma run_within (calls : array_call b64 -> Prop) nb co n k m m' :
    (forall c, calls c -> wrapped_call c) -> (0 <= n)%Z ->
    (nb + Z.to_nat n <= length m)%nat -> (co + Z.to_nat n <= length m)%nat ->
    (co + Z.to_nat n <= nb \/ nb + Z.to_nat n <= co)%nat ->
    call_run calls nb co n k m m' -> INR k <= 2 ^ 30 ->
    length m' = length m /\
    forall i nu, (i < Z.to_nat n)%nat -> nth_error m (nb + i) = Some nu -> physical nu ->
      exists nu', nth_error m' (nb + i) = Some nu' /\ near (3 * INR k) (-100) 100 nu' (V nu).
  Proof.
    intros HC Hn H1 H2 Hd R. induction R as [m|k c m m1 m2 R IH Hc E]; intros Hk.
    - split; [reflexivity|]. intros i nu Hi Hx P. exists nu. split; [exact Hx|]. simpl (INR 0). rewrite Rmult_0_r. exact (near_in _ P).
    - rewrite S_INR in Hk. destruct (IH H1 H2 ltac:(lra)) as [L1 S1].
      destruct (HC c Hc) as (F & W & out & HW & ->).
      destruct (@noncgs_array_spec b64 O U out F W HW nb co n m1 Hn ltac:(lia) ltac:(lia) Hd) as [m' [E' [Le [S X]]]].
      rewrite E in E'. injection E' as <-. split; [lia|].
      intros i nu Hi Hx P. destruct (S1 i nu Hi Hx P) as (x & Ex & Nx). destruct (S i x Hi Ex) as [_ Q].
      eexists. split; [exact Q|]. rewrite S_INR. replace (3 * (INR k + 1)) with (3 * INR k + 3) by ring.
      apply back_nu; [exact Nx|]. assert (3 * 2 ^ 30 + 10 <= 2 ^ 39) by (simpl; lra). lra.
  Qed.
  Lemma gray_units kappa rho : physical kappa -> physical rho ->
    returns (Ok (@Omul b64 O (@Omul b64 O (@Omul b64 O (un_rho U) rho) kappa) (un_length U))) 7
      (B2R rho * unit_of s d_mass_density * B2R kappa / unit_of s d_absorption).
  Proof.
    intros Hk Hr. pose proof n_rho. eexists. split; [reflexivity|]. cbn [mk_units un_length]. inn.
  Qed.
End Wrapped.

(** A photon opacity in units, in doubles: the wrapped opacity is asked at density,
    temperature, frequency and energy density that are the caller's to 5, 2, 3 and 5
    roundings, and what it returns is converted back to at most 8 more. The wrapped opacity
    is arbitrary. (The temperature derivative is left out: its arguments are not converted,
    see C20.) *)
Lemma C61_photons_proof :
  forall (L : Libm) (pc : PhysConst b64) (o : PhotonOpac b64) (time mass len tmp rho temp nu er : b64),
  physical time -> physical mass -> physical len -> physical tmp ->
  physical rho -> physical temp -> physical nu -> energy er ->
  let s := units_of time mass len tmp in
  let w := @NonCGSUnits b64 (B64_ops L) pc o (@mk_units b64 (B64_ops L) time mass len tmp) in
  exists r t n e,
  to_cgs s 5 d_mass_density rho r /\ to_cgs s 2 d_temperature temp t /\
  to_cgs s 3 d_frequency nu n /\ to_cgs s 5 d_energy_density er e /\
  from_cgs s 2 d_absorption (ph_Absorption o r t n) (ph_Absorption w rho temp nu) /\
  from_cgs s 2 d_absorption (ph_AngleAvgAbsorption o r t n) (ph_AngleAvgAbsorption w rho temp nu) /\
  from_cgs s 5 d_emissivity_nu (ph_EmissivityPerNuOmega o r t n) (ph_EmissivityPerNuOmega w rho temp nu) /\
  from_cgs s 5 d_emissivity_nu (ph_EmissivityPerNu o r t n) (ph_EmissivityPerNu w rho temp nu) /\
  from_cgs s 6 d_emissivity (ph_Emissivity o r t) (ph_Emissivity w rho temp) /\
  from_cgs s 5 d_number_emissivity (ph_NumberEmissivity o r t) (ph_NumberEmissivity w rho temp) /\
  from_cgs s 4 d_intensity_nu (ph_ThermalDistributionOfTNu o t n) (ph_ThermalDistributionOfTNu w temp nu) /\
  from_cgs s 7 d_intensity (ph_ThermalDistributionOfT o t) (ph_ThermalDistributionOfT w temp) /\
  from_cgs s 8 d_number_intensity (ph_ThermalNumberDistributionOfT o t) (ph_ThermalNumberDistributionOfT w temp) /\
  from_cgs s 5 d_energy_density (ph_EnergyDensityFromTemperature o t) (ph_EnergyDensityFromTemperature w temp) /\
  from_cgs s 6 d_number_density (ph_NumberDensityFromTemperature o t) (ph_NumberDensityFromTemperature w temp) /\
  from_cgs s 2 d_temperature (ph_TemperatureFromEnergyDensity o e) (ph_TemperatureFromEnergyDensity w er).
Proof.
  intros L pc o time mass len tmp rho temp nu er Ht Hm Hl HT Hr Hte Hn He s w.
  exists (@Omul b64 (B64_ops L) rho (un_rho (@mk_units b64 (B64_ops L) time mass len tmp))),
         (@Omul b64 (B64_ops L) temp (un_temp (@mk_units b64 (B64_ops L) time mass len tmp))),
         (@Omul b64 (B64_ops L) nu (un_freq (@mk_units b64 (B64_ops L) time mass len tmp))),
         (@Odiv b64 (B64_ops L) er (un_inv_energy_dens (@mk_units b64 (B64_ops L) time mass len tmp))).
  split; [apply in_rho; assumption|]. split; [apply in_temp; assumption|].
  split; [apply in_nu; assumption|]. split; [apply in_er; assumption|].
  unfold w, NonCGSUnits; cbn [ph_Absorption ph_AngleAvgAbsorption ph_EmissivityPerNuOmega ph_EmissivityPerNu ph_Emissivity
    ph_NumberEmissivity ph_ThermalDistributionOfTNu ph_ThermalDistributionOfT ph_ThermalNumberDistributionOfT
    ph_EnergyDensityFromTemperature ph_NumberDensityFromTemperature ph_TemperatureFromEnergyDensity].
  rewrite (swap_rho L time mass len tmp) by assumption. rewrite (swap_temp L time mass len tmp) by assumption.
  repeat (split; [first [apply o_abs|apply o_emiss|apply o_J|apply o_num|apply o_Bnu|apply o_B|apply o_N|apply o_ed|apply o_nd]; assumption|]).
  apply o_T; assumption.
Qed.

(** The same for neutrinos, for every composition and species. *)
Lemma C61_neutrinos_proof :
  forall (L : Libm) (pc : PhysConst b64) (o : NuOpac b64) (time mass len tmp rho temp nu er Ye : b64) (ty : RadiationType),
  physical time -> physical mass -> physical len -> physical tmp ->
  physical rho -> physical temp -> physical nu -> energy er ->
  let s := units_of time mass len tmp in
  let w := @NuNonCGSUnits b64 (B64_ops L) pc o (@mk_units b64 (B64_ops L) time mass len tmp) in
  exists r t n e,
  to_cgs s 5 d_mass_density rho r /\ to_cgs s 2 d_temperature temp t /\
  to_cgs s 3 d_frequency nu n /\ to_cgs s 5 d_energy_density er e /\
  from_cgs s 2 d_absorption (nu_Absorption o r t Ye ty n) (nu_Absorption w rho temp Ye ty nu) /\
  from_cgs s 2 d_absorption (nu_AngleAvgAbsorption o r t Ye ty n) (nu_AngleAvgAbsorption w rho temp Ye ty nu) /\
  from_cgs s 5 d_emissivity_nu (nu_EmissivityPerNuOmega o r t Ye ty n) (nu_EmissivityPerNuOmega w rho temp Ye ty nu) /\
  from_cgs s 5 d_emissivity_nu (nu_EmissivityPerNu o r t Ye ty n) (nu_EmissivityPerNu w rho temp Ye ty nu) /\
  from_cgs s 6 d_emissivity (nu_Emissivity o r t Ye ty) (nu_Emissivity w rho temp Ye ty) /\
  from_cgs s 5 d_number_emissivity (nu_NumberEmissivity o r t Ye ty) (nu_NumberEmissivity w rho temp Ye ty) /\
  from_cgs s 4 d_intensity_nu (nu_ThermalDistributionOfTNu o t ty n) (nu_ThermalDistributionOfTNu w temp ty nu) /\
  from_cgs s 7 d_intensity (nu_ThermalDistributionOfT o t ty) (nu_ThermalDistributionOfT w temp ty) /\
  from_cgs s 8 d_number_intensity (nu_ThermalNumberDistributionOfT o t ty) (nu_ThermalNumberDistributionOfT w temp ty) /\
  from_cgs s 5 d_energy_density (nu_EnergyDensityFromTemperature o t ty) (nu_EnergyDensityFromTemperature w temp ty) /\
  from_cgs s 6 d_number_density (nu_NumberDensityFromTemperature o t ty) (nu_NumberDensityFromTemperature w temp ty) /\
  from_cgs s 2 d_temperature (nu_TemperatureFromEnergyDensity o e ty) (nu_TemperatureFromEnergyDensity w er ty).
Proof.
  intros L pc o time mass len tmp rho temp nu er Ye ty Ht Hm Hl HT Hr Hte Hn He s w.
  exists (@Omul b64 (B64_ops L) rho (un_rho (@mk_units b64 (B64_ops L) time mass len tmp))),
         (@Omul b64 (B64_ops L) temp (un_temp (@mk_units b64 (B64_ops L) time mass len tmp))),
         (@Omul b64 (B64_ops L) nu (un_freq (@mk_units b64 (B64_ops L) time mass len tmp))),
         (@Odiv b64 (B64_ops L) er (un_inv_energy_dens (@mk_units b64 (B64_ops L) time mass len tmp))).
  split; [apply in_rho; assumption|]. split; [apply in_temp; assumption|].
  split; [apply in_nu; assumption|]. split; [apply in_er; assumption|].
  unfold w, NuNonCGSUnits; cbn [nu_Absorption nu_AngleAvgAbsorption nu_EmissivityPerNuOmega nu_EmissivityPerNu nu_Emissivity
    nu_NumberEmissivity nu_ThermalDistributionOfTNu nu_ThermalDistributionOfT nu_ThermalNumberDistributionOfT
    nu_EnergyDensityFromTemperature nu_NumberDensityFromTemperature nu_TemperatureFromEnergyDensity].
  rewrite (swap_rho L time mass len tmp) by assumption. rewrite (swap_temp L time mass len tmp) by assumption.
  repeat (split; [first [apply o_abs|apply o_emiss|apply o_J|apply o_num|apply o_Bnu|apply o_B|apply o_N|apply o_ed|apply o_nd]; assumption|]).
  apply o_T; assumption.
Qed.

(** Scattering opacities in units: cross sections are per area, the coefficient per length. *)
Lemma C61_scattering_proof :
  forall (L : Libm) (o : SOpac b64) (no : NuSOpac b64) (time mass len tmp rho temp nu Ye mu : b64) (ty : RadiationType),
  physical time -> physical mass -> physical len -> physical tmp ->
  physical rho -> physical temp -> physical nu ->
  let s := units_of time mass len tmp in
  let u := @mk_units b64 (B64_ops L) time mass len tmp in
  let w := @NonCGSUnitsS b64 (B64_ops L) o u in
  let nw := @NuNonCGSUnitsS b64 (B64_ops L) no u in
  exists r t n,
  to_cgs s 5 d_mass_density rho r /\ to_cgs s 2 d_temperature temp t /\ to_cgs s 3 d_frequency nu n /\
  from_cgs s 3 d_cross_section (s_TotalCrossSection o r t n) (s_TotalCrossSection w rho temp nu) /\
  from_cgs s 3 d_cross_section (s_DifferentialCrossSection o r t n mu) (s_DifferentialCrossSection w rho temp nu mu) /\
  from_cgs s 2 d_absorption (s_TotalScatteringCoefficient o r t n) (s_TotalScatteringCoefficient w rho temp nu) /\
  from_cgs s 3 d_cross_section (nus_TotalCrossSection no r t Ye ty n) (nus_TotalCrossSection nw rho temp Ye ty nu) /\
  from_cgs s 3 d_cross_section (nus_DifferentialCrossSection no r t Ye ty n mu)
    (nus_DifferentialCrossSection nw rho temp Ye ty nu mu) /\
  from_cgs s 2 d_absorption (nus_TotalScatteringCoefficient no r t Ye ty n)
    (nus_TotalScatteringCoefficient nw rho temp Ye ty nu).
Proof.
  intros L o no time mass len tmp rho temp nu Ye mu ty Ht Hm Hl HT Hr Hte Hn s u w nw.
  exists (@Omul b64 (B64_ops L) rho (un_rho u)), (@Omul b64 (B64_ops L) temp (un_temp u)), (@Omul b64 (B64_ops L) nu (un_freq u)).
  split; [apply in_rho; assumption|]. split; [apply in_temp; assumption|]. split; [apply in_nu; assumption|].
  unfold w, nw, NonCGSUnitsS, NuNonCGSUnitsS; cbn [s_TotalCrossSection s_DifferentialCrossSection s_TotalScatteringCoefficient
    nus_TotalCrossSection nus_DifferentialCrossSection nus_TotalScatteringCoefficient].
  unfold u. rewrite (swap_rho L time mass len tmp) by assumption. rewrite (swap_temp L time mass len tmp) by assumption.
  repeat (split; [first [apply o_abs|apply o_sigma]; assumption|]). apply o_abs; assumption.
Qed.

(** Array calls of the wrapped opacities: every output is the scalar result at the caller's
    bin, bit for bit, and the bins come back to 4 roundings (not bit for bit: C18). *)
Lemma C61_arrays_proof :
  forall (L : Libm) (pc : PhysConst b64) (o : PhotonOpac b64), @photon_opacity b64 (B64_ops L) pc o ->
  forall (time mass len tmp rho temp : b64),
  physical time -> physical mass -> physical len -> physical tmp -> physical rho -> physical temp ->
  let w := @NonCGSUnits b64 (B64_ops L) pc o (@mk_units b64 (B64_ops L) time mass len tmp) in
  converted_within 4 (ph_Absorption w rho temp) (ph_Absorption_v w rho temp) /\
  converted_within 4 (ph_AngleAvgAbsorption w rho temp) (ph_AngleAvgAbsorption_v w rho temp) /\
  converted_within 4 (ph_EmissivityPerNuOmega w rho temp) (ph_EmissivityPerNuOmega_v w rho temp) /\
  converted_within 4 (ph_EmissivityPerNu w rho temp) (ph_EmissivityPerNu_v w rho temp).
Proof.
  intros L pc o Ho time mass len tmp rho temp Ht Hm Hl HT Hr Hte w.
  set (U := @mk_units b64 (B64_ops L) time mass len tmp) in *.
  destruct (C17_photon_arrays_proof b64 (B64_ops L) pc o Ho (@Omul b64 (B64_ops L) rho (un_rho U)) (@Omul b64 (B64_ops L) temp (un_temp U)))
    as (A1 & A2 & A3 & A4).
  split; [|split; [|split]];
    [ apply (array_within L time mass len tmp Ht _ _ _ _ A1)
    | apply (array_within L time mass len tmp Ht _ _ _ _ A2)
    | apply (array_within L time mass len tmp Ht _ _ _ _ A3)
    | apply (array_within L time mass len tmp Ht _ _ _ _ A4) ]; intros nu; try reflexivity.
  unfold w, NonCGSUnits; cbn [ph_Absorption]. unfold U.
  rewrite (swap_rho L time mass len tmp) by assumption. rewrite (swap_temp L time mass len tmp) by assumption. reflexivity.
Qed.

Lemma C61_neutrino_arrays_proof :
  forall (L : Libm) ns (pc : PhysConst b64) (o : NuOpac b64), @neutrino_opacity b64 (B64_ops L) ns pc o ->
  forall (time mass len tmp rho temp Ye : b64) (ty : RadiationType),
  physical time -> physical mass -> physical len -> physical tmp -> physical rho -> physical temp ->
  let w := @NuNonCGSUnits b64 (B64_ops L) pc o (@mk_units b64 (B64_ops L) time mass len tmp) in
  converted_within 4 (nu_Absorption w rho temp Ye ty) (nu_Absorption_v w rho temp Ye ty) /\
  converted_within 4 (nu_AngleAvgAbsorption w rho temp Ye ty) (nu_AngleAvgAbsorption_v w rho temp Ye ty) /\
  converted_within 4 (nu_EmissivityPerNuOmega w rho temp Ye ty) (nu_EmissivityPerNuOmega_v w rho temp Ye ty) /\
  converted_within 4 (nu_EmissivityPerNu w rho temp Ye ty) (nu_EmissivityPerNu_v w rho temp Ye ty).
Proof.
  intros L ns pc o Ho time mass len tmp rho temp Ye ty Ht Hm Hl HT Hr Hte w.
  set (U := @mk_units b64 (B64_ops L) time mass len tmp) in *.
  destruct (C17_neutrino_arrays_proof b64 (B64_ops L) ns pc o Ho (@Omul b64 (B64_ops L) rho (un_rho U)) (@Omul b64 (B64_ops L) temp (un_temp U)) Ye ty)
    as (A1 & A2 & A3 & A4).
  split; [|split; [|split]];
    [ apply (array_within L time mass len tmp Ht _ _ _ _ A1)
    | apply (array_within L time mass len tmp Ht _ _ _ _ A2)
    | apply (array_within L time mass len tmp Ht _ _ _ _ A3)
    | apply (array_within L time mass len tmp Ht _ _ _ _ A4) ]; intros nu; try reflexivity.
  unfold w, NuNonCGSUnits; cbn [nu_Absorption]. unfold U.
  rewrite (swap_rho L time mass len tmp) by assumption. rewrite (swap_temp L time mass len tmp) by assumption. reflexivity.
Qed.

(** The drift of bins reused for many calls is at most linear: after [k] wrapped array calls
    in a row, up to 2^30, of any of the four kinds, at any densities and temperatures, a bin
    is what it was to 4 k roundings. *)
Lemma C61_drift_proof :
  forall (L : Libm) (pc : PhysConst b64) (o : PhotonOpac b64), @photon_opacity b64 (B64_ops L) pc o ->
  forall (time mass len tmp : b64), physical time ->
  let w := @NonCGSUnits b64 (B64_ops L) pc o (@mk_units b64 (B64_ops L) time mass len tmp) in
  let calls c := exists rho temp, c = ph_Absorption_v w rho temp \/ c = ph_AngleAvgAbsorption_v w rho temp \/
                   c = ph_EmissivityPerNuOmega_v w rho temp \/ c = ph_EmissivityPerNu_v w rho temp in
  forall nu_bins coeffs n k m m',
  (0 <= n)%Z -> (nu_bins + Z.to_nat n <= length m)%nat -> (coeffs + Z.to_nat n <= length m)%nat ->
  (coeffs + Z.to_nat n <= nu_bins \/ nu_bins + Z.to_nat n <= coeffs)%nat ->
  call_run calls nu_bins coeffs n k m m' -> INR k <= 2 ^ 30 ->
  forall i nu, (i < Z.to_nat n)%nat -> nth_error m (nu_bins + i) = Some nu -> physical nu ->
  exists nu', nth_error m' (nu_bins + i) = Some nu' /\ within (4 * INR k) nu' (B2R nu).
Proof.
  intros L pc o Ho time mass len tmp Ht w calls nb co n k m m' Hn H1 H2 Hd R Hk i nu Hi Hx P.
  destruct (run_within L time mass len tmp Ht calls nb co n k m m') as [_ S]; try assumption.
  - intros c (rho & temp & Hc).
    set (U := @mk_units b64 (B64_ops L) time mass len tmp) in *.
    destruct (C17_photon_arrays_proof b64 (B64_ops L) pc o Ho (@Omul b64 (B64_ops L) rho (un_rho U)) (@Omul b64 (B64_ops L) temp (un_temp U)))
      as (A1 & A2 & A3 & A4).
    destruct Hc as [->|[->|[->| ->]]]; do 3 eexists; (split; [|reflexivity]); eassumption.
  - destruct (S i nu Hi Hx P) as (x & Ex & Nx). exists x. split; [exact Ex|].
    pose proof (pos_INR k). eapply near_within; [exact Nx|lra|]. assert (3 * 2 ^ 30 <= 2 ^ 40) by (simpl; lra). lra.
Qed.

(** End to end: a gray opacity of kappa cm^2/g in any units. *)
Lemma C61_gray_proof :
  forall (L : Libm) (pc : PhysConst b64) (kappa time mass len tmp rho temp nu : b64),
  physical kappa -> physical time -> physical mass -> physical len -> physical tmp -> physical rho ->
  let s := units_of time mass len tmp in
  let w := @NonCGSUnits b64 (B64_ops L) pc (@GrayOpacity b64 (B64_ops L) pc kappa)
             (@mk_units b64 (B64_ops L) time mass len tmp) in
  returns (ph_Absorption w rho temp nu) 7
    (B2R rho * unit_of s d_mass_density * B2R kappa / unit_of s d_absorption).
Proof.
  intros L pc kappa time mass len tmp rho temp nu Hk Ht Hm Hl HT Hr s w.
  exact (gray_units L time mass len tmp Ht Hm Hl HT kappa rho Hk Hr).
Qed.

Lemma small_Z (n : Z) : (1 <= n <= 1000)%Z -> is_finite (b64_of_Z n) = true /\ B2R (b64_of_Z n) = IZR n.
Proof. intros H. destruct (V_lit n 0 ltac:(lia) ltac:(lia) ltac:(lia)) as [A B]. split; [exact B|]. rewrite <- Rmult_1_r. exact A. Qed.
Lemma small_physical (n : Z) : (1 <= n <= 1000)%Z -> physical (b64_of_Z n).
Proof.
  intros H. destruct (small_Z n H) as [F E]. split; [exact F|]. rewrite E.
  assert (A : 1 <= IZR n <= 1000) by (split; apply IZR_le; lia).
  assert (B : 1000 <= 2 ^ 100) by (apply Rle_trans with (2 ^ 10); [simpl; lra|apply Rle_pow; [lra|lia]]).
  assert (C : / 2 ^ 100 <= 1) by (rewrite <- Rinv_1; apply Rinv_le_contravar; lra). lra.
Qed.
Lemma small_energy (n : Z) : (1 <= n <= 1000)%Z -> energy (b64_of_Z n).
Proof.
  intros H. destruct (small_physical n H) as [F [A B]]. split; [exact F|].
  assert (2 ^ 100 <= 2 ^ 300) by (apply Rle_pow; [lra|lia]).
  assert (/ 2 ^ 300 <= / 2 ^ 100) by (apply Rinv_le_contravar; [apply pow_lt; lra|assumption]). lra.
Qed.

(** units of 2 s, 3 g, 5 cm, 7 K, and a result that is neither zero nor out of range: the
    hypotheses of the theorems above *)
Lemma C61_photons_example :
  forall (L : Libm) (pc : PhysConst b64),
  physical (b64_of_Z 2) /\ physical (b64_of_Z 3) /\ physical (b64_of_Z 5) /\ physical (b64_of_Z 7) /\
  energy (b64_of_Z 11) /\
  exists v, ph_Absorption (@GrayOpacity b64 (B64_ops L) pc (b64_of_Z 3)) (b64_of_Z 5) (b64_of_Z 7) (b64_of_Z 2) = Ok v /\
            sized v /\ B2R v = 15.
Proof.
  intros L pc. do 4 (split; [apply small_physical; lia|]). split; [apply small_energy; lia|].
  exists (b64_of_Z 15). destruct (small_Z 15 ltac:(lia)) as [F E]. split.
  - apply (f_equal Ok), B2SF_inj. vm_compute. reflexivity.
  - split; [|exact E]. destruct (small_energy 15 ltac:(lia)) as [_ H]. split; [exact F|now right].
Qed.

(** any number of calls in a row on a bin buffer and an output buffer of one cell each *)
Lemma C61_drift_example :
  forall (L : Libm) (pc : PhysConst b64) (k : nat),
  let o := @GrayOpacity b64 (B64_ops L) pc (b64_of_Z 3) in
  let w := @NonCGSUnits b64 (B64_ops L) pc o (@mk_units b64 (B64_ops L) (b64_of_Z 49) (b64_of_Z 2) (b64_of_Z 5) (b64_of_Z 7)) in
  let calls c := exists rho temp, c = ph_Absorption_v w rho temp \/ c = ph_AngleAvgAbsorption_v w rho temp \/
                   c = ph_EmissivityPerNuOmega_v w rho temp \/ c = ph_EmissivityPerNu_v w rho temp in
  @photon_opacity b64 (B64_ops L) pc o /\ physical (b64_of_Z 49) /\ physical (b64_of_Z 1) /\
  exists m', call_run calls 0 1 1 k [b64_of_Z 1; b64_of_Z 0] m'.
Proof.
  intros L pc k o w calls.
  assert (Ho : @photon_opacity b64 (B64_ops L) pc o) by (left; now exists (b64_of_Z 3)).
  split; [exact Ho|]. split; [apply small_physical; lia|]. split; [apply small_physical; lia|].
  assert (H : exists m', call_run calls 0 1 1 k [b64_of_Z 1; b64_of_Z 0] m' /\ length m' = 2%nat).
  { induction k as [|k (m1 & R & Le)]; [exists [b64_of_Z 1; b64_of_Z 0]; split; [constructor|reflexivity]|].
    destruct (C61_arrays_proof L pc o Ho (b64_of_Z 49) (b64_of_Z 2) (b64_of_Z 5) (b64_of_Z 7) (b64_of_Z 2) (b64_of_Z 3)) as (A & _);
      try (apply small_physical; lia).
    destruct (A 0%nat 1%nat 1%Z m1) as (m2 & E & Le2 & _); [lia|rewrite Le; cbn; lia|rewrite Le; cbn; lia|cbn; lia|].
    exists m2. split; [|lia]. eapply run_more; [exact R| |exact E]. exists (b64_of_Z 2), (b64_of_Z 3). now left. }
  destruct H as (m' & R & _). now exists m'.
Qed.
