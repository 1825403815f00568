(** Order propagates: laws shared by exact arithmetic and binary64, and what they
    imply for the models. *)
From Coq Require Import Reals ZArith Lra Lia Bool.
From Flocq Require Import Core IEEE754.BinarySingleNaN.
From Verif Require Import Base.Outcome Base.Ops Inst.ER Inst.ERTac Inst.B64 Model.Constants Model.Robust
  Model.RadTypes Model.PhotonApi Model.ThermalPhotons Model.GrayPhotons Model.PowerLawPhotons Model.EPBremsPhotons
  Model.NonCGSPhotons Model.NeutrinoApi Model.ThermalNeutrinos Model.OpacNeutrinos
  Model.NonCGSNeutrinos Spec.Nonneg Spec.Growth Proofs.SignLaws.
Open Scope ops_scope.

Record MonoLaws {T} (O : Ops T) (PP NN : T -> Prop) : Prop := {
  ml_refl : forall x, no_less x x;
  ml_mul : forall x x' y y', NN x -> NN x' -> NN y -> NN y' -> no_less x x' -> no_less y y' ->
    no_less (x * y) (x' * y');
  ml_div : forall x x' y y', NN x -> NN x' -> PP y -> PP y' -> no_less x x' -> no_less y' y ->
    no_less (x / y) (x' / y');
  ml_add : forall x x' y y', NN x -> NN x' -> NN y -> NN y' -> no_less x x' -> no_less y y' ->
    no_less (x + y) (x' + y');
  ml_pow : forall x x' e, PP x -> PP x' -> NN e -> no_less x x' -> no_less (Opow x e) (Opow x' e);
  ml_exp : forall x x', PP x -> PP x' -> no_less x x' -> no_less (Oexp x) (Oexp x');
  ml_expm1 : forall x x', PP x -> PP x' -> no_less x x' -> no_less (Oexpm1 x) (Oexpm1 x');
  ml_ratio : forall x x' y, NN x -> NN x' -> PP y -> no_less x x' -> no_less (ratio x y) (ratio x' y);
  ml_scale : forall x x' y, NN x \/ x = Oinf -> NN x' \/ x' = Oinf -> PP y -> no_less x x' ->
    no_less (x * y) (x' * y);
}.

Section Closure.
  Context {T : Type} {O : Ops T} {PP NN RR : T -> Prop} (S : SignLaws O PP NN RR) (M : MonoLaws O PP NN).

  Ltac sg :=
    solve [ repeat first
      [ assumption
      | match goal with
        | |- RR (OofZ (Zpos _)) => apply (sl_pr _ _ _ _ S), (sl_lit _ _ _ _ S)
        | |- RR (- _) => apply (sl_opp _ _ _ _ S)
        | |- RR _ => apply (sl_pr _ _ _ _ S)
        | |- PP (OofZ (Zpos _)) => apply (sl_lit _ _ _ _ S)
        | |- PP (Odec (Zpos _) _) => apply (sl_dec _ _ _ _ S)
        | |- PP Opi => apply (sl_pi _ _ _ _ S)
        | |- PP (Opow _ _) => apply (sl_pow _ _ _ _ S)
        | |- PP (Oexp _) => apply (sl_exp _ _ _ _ S)
        | |- PP (Oexpm1 _) => apply (sl_expm1 _ _ _ _ S)
        | |- PP (- Oexpm1 (- _)) => apply (sl_expm1n _ _ _ _ S)
        | |- PP (Osqrt _) => apply (sl_sqrt _ _ _ _ S)
        | |- PP (#1 + #3 * _ * _) => apply (sl_addPN _ _ _ _ S); [|apply (sl_sq _ _ _ _ S)]
        | |- PP (_ * _) => apply (sl_mulP _ _ _ _ S)
        | |- PP (_ / _) => apply (sl_divP _ _ _ _ S)
        | |- PP (_ + _) => apply (sl_addPN _ _ _ _ S)
        | |- NN (OofZ 0) => apply (sl_zero _ _ _ _ S)
        | |- NN (_ * _) => first [solve [apply (sl_pn _ _ _ _ S); sg] | apply (sl_mulN _ _ _ _ S)]
        | |- NN (_ / _) => apply (sl_divN _ _ _ _ S)
        | |- NN (#1 + #3 * _ * _) => apply (sl_pn _ _ _ _ S)
        | |- NN (_ + _) => apply (sl_addN _ _ _ _ S)
        | |- NN (if ?b then _ else _) => destruct b
        | |- NN _ => apply (sl_pn _ _ _ _ S)
        end ] ].

  (** reduce a comparison of two like expressions to comparisons of the leaves *)
  Ltac up :=
    repeat first
      [ assumption
      | match goal with
        | |- no_less ?a ?a => apply (ml_refl _ _ _ M)
        | |- no_less (_ * _) (_ * _) => apply (ml_mul _ _ _ M)
        | |- no_less (_ / _) (_ / _) => apply (ml_div _ _ _ M)
        | |- no_less (_ + _) (_ + _) => apply (ml_add _ _ _ M)
        | |- no_less (Opow _ ?e) (Opow _ ?e) => apply (ml_pow _ _ _ M)
        | |- no_less (Oexp _) (Oexp _) => apply (ml_exp _ _ _ M)
        | |- no_less (Oexpm1 _) (Oexpm1 _) => apply (ml_expm1 _ _ _ M)
        | |- no_less (ratio _ ?y) (ratio _ ?y) => apply (ml_ratio _ _ _ M)
        end ]; try sg.

  Section Consts.
  Context (pc : PhysConst T) (C : pos_consts PP RR pc).
  Ltac consts := destruct C as (Ch & Ck & Cc & Ca & Chb & Cme & Cmp & Cqe & Cs & CgA).

  Lemma planck_nu_up temp temp' nu : PP temp -> PP temp' -> PP nu -> no_less temp temp' ->
    no_less (planck_nu pc temp nu) (planck_nu pc temp' nu).
  Proof. intros. consts. unfold planck_nu. cbv zeta. up. Qed.
  Lemma planck_T_up temp temp' : PP temp -> PP temp' -> no_less temp temp' ->
    no_less (planck_T pc temp) (planck_T pc temp').
  Proof. intros. consts. unfold planck_T. up. Qed.
  Lemma planck_number_T_up temp temp' : PP temp -> PP temp' -> no_less temp temp' ->
    no_less (planck_number_T pc temp) (planck_number_T pc temp').
  Proof. intros. consts. unfold planck_number_T. cbv zeta. up. Qed.
  Lemma planck_temperature_P er : PP er -> PP (planck_temperature pc er).
  Proof. intros. consts. unfold planck_temperature. sg. Qed.
  Lemma planck_temperature_up er er' : PP er -> PP er' -> no_less er er' ->
    no_less (planck_temperature pc er) (planck_temperature pc er').
  Proof. intros. consts. unfold planck_temperature. up. Qed.

  Context (ns : positive).
  Notation NS := (Zpos ns).
  Lemma fd_nu_up temp temp' type nu : PP temp -> PP temp' -> PP nu -> no_less temp temp' ->
    no_less (fd_nu NS pc temp type nu) (fd_nu NS pc temp' type nu).
  Proof. intros. consts. unfold fd_nu. cbv zeta. up. Qed.
  Lemma fd_T_up temp temp' type : PP temp -> PP temp' -> no_less temp temp' ->
    no_less (fd_T NS pc temp type) (fd_T NS pc temp' type).
  Proof. intros. consts. unfold fd_T. up. Qed.
  Lemma fd_number_T_up temp temp' type : PP temp -> PP temp' -> no_less temp temp' ->
    no_less (fd_number_T NS pc temp type) (fd_number_T NS pc temp' type).
  Proof. intros. consts. unfold fd_number_T. cbv zeta. up. Qed.
  Lemma fd_temperature_P er type : PP er -> PP (fd_temperature NS pc er type).
  Proof. intros. consts. unfold fd_temperature. sg. Qed.
  Lemma fd_temperature_up er er' type : PP er -> PP er' -> no_less er er' ->
    no_less (fd_temperature NS pc er type) (fd_temperature NS pc er' type).
  Proof. intros. consts. unfold fd_temperature. up. Qed.

  Ltac photon :=
    intros rho rho' temp temp' nu Hr Hr' Ht Ht' Hn Ur Ut.
  Ltac phcbn := cbn [GrayOpacity PowerLawOpacity EPBremsstrahlungOpacity ph_Absorption ph_AngleAvgAbsorption ph_EmissivityPerNuOmega
      ph_EmissivityPerNu ph_Emissivity ph_NumberEmissivity ph_ThermalDistributionOfTNu
      ph_ThermalDistributionOfT ph_ThermalNumberDistributionOfT
      ph_EnergyDensityFromTemperature ph_NumberDensityFromTemperature ph_TemperatureFromEnergyDensity result_up].

  Lemma planck_thermal_up o :
    (forall temp nu, ph_ThermalDistributionOfTNu o temp nu = Ok (planck_nu pc temp nu)) ->
    (forall temp, ph_ThermalDistributionOfT o temp = Ok (planck_T pc temp)) ->
    (forall temp, ph_ThermalNumberDistributionOfT o temp = Ok (planck_number_T pc temp)) ->
    (forall temp, ph_EnergyDensityFromTemperature o temp = Ok (planck_energy_density pc temp)) ->
    (forall temp, ph_NumberDensityFromTemperature o temp = Ok (planck_number_density pc temp)) ->
    (forall er, ph_TemperatureFromEnergyDensity o er = Ok (planck_temperature pc er)) ->
    photon_thermal_up PP o.
  Proof.
    intros E1 E2 E3 E4 E5 E6. split.
    - intros temp temp' nu Ht Ht' Hn Ut. rewrite !E1, !E2, !E3, !E4, !E5. cbn [result_up].
      pose proof (planck_T_P S pc C temp Ht). pose proof (planck_T_P S pc C temp' Ht').
      pose proof (planck_number_T_P S pc C temp Ht). pose proof (planck_number_T_P S pc C temp' Ht').
      pose proof (planck_T_up temp temp' Ht Ht' Ut). pose proof (planck_number_T_up temp temp' Ht Ht' Ut).
      pose proof (planck_nu_up temp temp' nu Ht Ht' Hn Ut). consts.
      unfold planck_energy_density, planck_number_density. repeat split; up.
    - intros er er' He He' Ue. rewrite !E6. do 2 eexists.
      split; [reflexivity|]. split; [reflexivity|].
      split; [now apply planck_temperature_P|]. split; [now apply planck_temperature_P|].
      now apply planck_temperature_up.
  Qed.

  Lemma gray_thermal_up kappa : photon_thermal_up PP (GrayOpacity pc kappa).
  Proof. apply planck_thermal_up; reflexivity. Qed.
  Lemma powerlaw_thermal_up p : photon_thermal_up PP (PowerLawOpacity pc p).
  Proof. apply planck_thermal_up; reflexivity. Qed.
  Lemma brems_thermal_up : photon_thermal_up PP (EPBremsstrahlungOpacity pc).
  Proof. apply planck_thermal_up; reflexivity. Qed.

  Lemma gray_up kappa : NN kappa -> photon_up PP NN no_less (GrayOpacity pc kappa).
  Proof.
    intros Hk. photon. phcbn.
    pose proof (planck_nu_P S pc C temp nu Ht Hn). pose proof (planck_nu_P S pc C temp' nu Ht' Hn).
    pose proof (planck_T_P S pc C temp Ht). pose proof (planck_T_P S pc C temp' Ht').
    pose proof (planck_number_T_P S pc C temp Ht). pose proof (planck_number_T_P S pc C temp' Ht').
    pose proof (planck_T_up temp temp' Ht Ht' Ut). pose proof (planck_number_T_up temp temp' Ht Ht' Ut).
    pose proof (planck_nu_up temp temp' nu Ht Ht' Hn Ut).
    unfold gray_alpha_avg, gray_alpha, gray_Jnu, gray_jnu, gray_J, gray_JN. cbv zeta.
    repeat split; up.
  Qed.

  (** the power law: growing exponents; with stimulated emission, or at a fixed
      temperature, only the density may grow *)
  Lemma powerlaw_up (warm : T -> T -> Prop) p : powerlaw_domain (PP := PP) (NN := NN) (RR := RR) p ->
    NN (pl_rho_exp p) ->
    (forall a b, warm a b -> a = b \/ (no_less a b /\ NN (pl_temp_exp p) /\ pl_do_stim_emit p = false)) ->
    photon_up PP PP warm (PowerLawOpacity pc p).
  Proof.
    intros D Hre HW. photon.
    assert (UT : no_less temp temp').
    { destruct (HW _ _ Ut) as [<-|(W & _)]; [apply (ml_refl _ _ _ M)|exact W]. }
    pose proof (planck_nu_P S pc C temp nu Ht Hn). pose proof (planck_nu_P S pc C temp' nu Ht' Hn).
    pose proof (planck_T_P S pc C temp Ht). pose proof (planck_T_P S pc C temp' Ht').
    pose proof (planck_number_T_P S pc C temp Ht). pose proof (planck_number_T_P S pc C temp' Ht').
    pose proof (planck_T_up temp temp' Ht Ht' UT). pose proof (planck_number_T_up temp temp' Ht Ht' UT).
    pose proof (planck_nu_up temp temp' nu Ht Ht' Hn UT).
    pose proof (prefactor_N S p rho temp D Hr Ht) as F. pose proof (prefactor_N S p rho' temp' D Hr' Ht') as F'.
    pose proof (stim_P S pc C temp nu Ht Hn) as St. pose proof (stim_P S pc C temp' nu Ht' Hn) as St'.
    assert (FU : no_less (powerlaw_prefactor p rho temp) (powerlaw_prefactor p rho' temp')).
    { unfold powerlaw_prefactor. cbv zeta. destruct D as (?&?&?&?&?&?&?&?&?&?).
      destruct (HW _ _ Ut) as [<-|(W & We & _)]; up. }
    destruct D as (D1&D2&D3&D4&D5&D6&D7&D8&D9&D10).
    assert (Q : PP (Opow ((nu + pl_nu_off p) / pl_nu_ref p) (pl_nu_exp p))) by sg.
    assert (Sc : NN (powerlaw_scale pc p rho temp nu) /\ NN (powerlaw_scale pc p rho' temp' nu) /\
      no_less (powerlaw_scale pc p rho temp nu) (powerlaw_scale pc p rho' temp' nu)).
    { unfold powerlaw_scale. cbv zeta. set (pf := powerlaw_prefactor p rho temp) in *.
      set (pf' := powerlaw_prefactor p rho' temp') in *. clearbody pf pf'. pose proof (HW _ _ Ut) as HT.
      destruct (pl_do_stim_emit p) eqn:Ed; repeat split; try sg; up.
      destruct HT as [<-|(_ & _ & W)]; [apply (ml_refl _ _ _ M)|congruence]. }
    destruct Sc as (S1 & S2 & S3). phcbn. unfold powerlaw_J, powerlaw_JN.
    unfold powerlaw_alpha_avg, powerlaw_alpha, powerlaw_Jnu, powerlaw_jnu. cbv zeta.
    repeat split; [up|up|up|up| |]; (destruct (Oneqb _ _); [exact I|]); cbn [result_up]; up.
  Qed.

  (** bremsstrahlung, at a fixed temperature *)
  Lemma brems_up : photon_up PP NN eq (EPBremsstrahlungOpacity pc).
  Proof.
    photon. subst temp'.
    pose proof (planck_nu_P S pc C temp nu Ht Hn) as B.
    assert (J : forall r, NN r -> NN (ep_jnu pc r temp nu)).
    { intros r H. consts. unfold ep_jnu, ep_prefac, ep_mmw, ep_gff. cbv zeta. sg. }
    assert (JU : no_less (ep_jnu pc rho temp nu) (ep_jnu pc rho' temp nu)).
    { consts. unfold ep_jnu, ep_prefac, ep_mmw, ep_gff. cbv zeta. up. }
    pose proof (J _ Hr) as J1. pose proof (J _ Hr') as J2. phcbn.
    unfold ep_alpha, ep_alpha_avg, kirchhoff, kirchhoff_avg, ep_Jnu. repeat split; try (now up).
    - consts. unfold ep_J, ep_prefac, ep_mmw, ep_gff. cbv zeta. up.
    - apply (ml_refl _ _ _ M).
  Qed.

  (** ** neutrinos *)
  Ltac neutrino := intros rho rho' temp temp' Ye type nu Hr Hr' Ht Ht' Hn Ur Ut;
    pose proof (fd_nu_P S pc C ns temp type nu Ht Hn); pose proof (fd_nu_P S pc C ns temp' type nu Ht' Hn);
    pose proof (fd_T_P S pc C ns temp type Ht); pose proof (fd_T_P S pc C ns temp' type Ht');
    pose proof (fd_number_T_P S pc C ns temp type Ht); pose proof (fd_number_T_P S pc C ns temp' type Ht');
    pose proof (fd_T_up temp temp' type Ht Ht' Ut); pose proof (fd_number_T_up temp temp' type Ht Ht' Ut);
    pose proof (fd_nu_up temp temp' type nu Ht Ht' Hn Ut).
  Ltac nucbn := cbn [NuGrayOpacity BRTOpacity nu_opacity nu_Absorption nu_AngleAvgAbsorption nu_EmissivityPerNuOmega
      nu_EmissivityPerNu nu_Emissivity nu_NumberEmissivity nu_ThermalDistributionOfTNu
      nu_ThermalDistributionOfT nu_ThermalNumberDistributionOfT
      nu_EnergyDensityFromTemperature nu_NumberDensityFromTemperature nu_TemperatureFromEnergyDensity result_up].

  Lemma fd_thermal_up alpha alpha_avg jnu Jnu J JN :
    neutrino_thermal_up PP (nu_opacity NS pc alpha alpha_avg jnu Jnu J JN).
  Proof.
    split.
    - intros temp temp' type nu Ht Ht' Hn Ut. nucbn.
      pose proof (fd_T_P S pc C ns temp type Ht). pose proof (fd_T_P S pc C ns temp' type Ht').
      pose proof (fd_number_T_P S pc C ns temp type Ht). pose proof (fd_number_T_P S pc C ns temp' type Ht').
      pose proof (fd_T_up temp temp' type Ht Ht' Ut). pose proof (fd_number_T_up temp temp' type Ht Ht' Ut).
      pose proof (fd_nu_up temp temp' type nu Ht Ht' Hn Ut). consts.
      unfold fd_energy_density, fd_number_density. repeat split; up.
    - intros er er' type He He' Ue. do 2 eexists.
      split; [reflexivity|]. split; [reflexivity|].
      split; [now apply fd_temperature_P|]. split; [now apply fd_temperature_P|].
      now apply fd_temperature_up.
  Qed.

  Lemma nugray_up kappa : NN kappa -> neutrino_up PP NN no_less (NuGrayOpacity NS pc kappa).
  Proof.
    intros Hk. neutrino. unfold NuGrayOpacity. nucbn.
    unfold nugray_alpha_avg, nugray_alpha, nugray_Jnu, nugray_jnu, nugray_J, nugray_JN. cbv zeta.
    repeat split; up.
  Qed.

  Lemma brt_up : neutrino_up PP NN no_less (BRTOpacity NS pc).
  Proof.
    neutrino. unfold BRTOpacity. nucbn. pose proof C as CC. consts.
    assert (G : NN (brt_sigmac pc type nu)).
    { unfold brt_sigmac, brt_Deltanp. destruct (negb _); sg. }
    assert (A : forall r t, NN r -> PP t -> NN (brt_alphac pc r t type)).
    { intros r t Hr0 Ht0. unfold brt_alphac, brt_Deltanp, brt_zeta5, brt_mu. cbv zeta. destruct (negb _); sg. }
    assert (AU : no_less (brt_alphac pc rho temp type) (brt_alphac pc rho' temp' type)).
    { unfold brt_alphac, brt_Deltanp, brt_zeta5, brt_mu. cbv zeta. destruct (negb _); up. }
    assert (N : forall r t, NN r -> PP t -> NN (brt_nalphac pc r t type)).
    { intros r t Hr0 Ht0. unfold brt_nalphac, brt_Deltanp, brt_zeta3, brt_zeta5, brt_mu. cbv zeta. sg. }
    assert (NU : no_less (brt_nalphac pc rho temp type) (brt_nalphac pc rho' temp' type)).
    { unfold brt_nalphac, brt_Deltanp, brt_zeta3, brt_zeta5, brt_mu. cbv zeta. up. }
    pose proof (A _ _ Hr Ht). pose proof (A _ _ Hr' Ht'). pose proof (N _ _ Hr Ht). pose proof (N _ _ Hr' Ht').
    unfold brt_alpha_avg, brt_alpha, brt_Jnu, brt_jnu, brt_J, brt_JN, brt_mu. cbv zeta. repeat split; up.
  Qed.
  End Consts.

  (** ** unit-converting wrappers *)
  Context (time mass len tmp : T) (Ut : PP time) (Um : PP mass) (Ul : PP len) (UT : PP tmp).
  Notation u := (mk_units time mass len tmp).

  Lemma up_bind r r' (P : T -> Prop) (f : T -> T) : (forall v, r = Ok v -> P v) -> (forall v, r' = Ok v -> P v) ->
    (forall a b, P a -> P b -> no_less a b -> no_less (f a) (f b)) ->
    result_up r r' -> result_up (bind r (fun v => Ok (f v))) (bind r' (fun v => Ok (f v))).
  Proof. destruct r, r'; cbn; intros HP HP' Hf H; auto. Qed.
  Lemma in_ret (P Q : T -> Prop) r v : returns_in P r -> (forall x, P x -> Q x) -> r = Ok v -> Q v.
  Proof. intros (x & -> & Hx) H E. injection E as <-. auto. Qed.
  Lemma in_err (P Q : T -> Prop) r v : error_or P r -> (forall x, P x -> Q x) -> r = Ok v -> Q v.
  Proof. intros [->|Hx] H E; [discriminate|]. now apply (in_ret P Q r v Hx H). Qed.

  Definition warm_closed (warm : T -> T -> Prop) : Prop :=
    forall a b c, PP a -> PP b -> PP c -> warm a b -> warm (a * c) (b * c) /\ warm (c * a) (c * b).
  Lemma eq_closed : warm_closed eq.
  Proof. intros a b c _ _ _ ->. split; reflexivity. Qed.
  Lemma no_less_closed : warm_closed no_less.
  Proof. intros a b c Ha Hb Hc H. split; up. Qed.

  Ltac scale1 := intros ?v ?v' ?Hv ?Hv' ?Hvv; apply (ml_scale _ _ _ M); [assumption|assumption|assumption|assumption].

  Ltac from_ret := intros ? E; match type of E with ?r = _ => match goal with
    | H : returns_in _ r |- _ => exact (in_ret _ _ r _ H (fun _ h => h) E)
    | H : error_or _ r |- _ => exact (in_err _ _ r _ H (fun _ h => h) E) end end.
  Ltac nnb := eapply up_bind with (P := NN);
    [from_ret|from_ret|intros ?v ?v' ?Hv ?Hv' ?Hvv; up|eassumption].

  Lemma wrapped_up D warm pc o : scale_closed (PP := PP) D -> (forall x, D x -> NN x) -> warm_closed warm ->
    photon_nonneg PP NN D o -> photon_up PP D warm o -> photon_up PP D warm (NonCGSUnits pc o u).
  Proof.
    intros Dc DN Wc Ho Hu rho rho' temp temp' nu Hr Hr' Ht Ht' Hn Ur Uw.
    destruct (units_P S time mass len tmp Ut Um Ul UT) as (U1&U2&U3&U4&U5&U6&U7&U8&U9&U10).
    set (uu := u) in *. clearbody uu.
    destruct (Dc rho _ Hr U1) as [R1 R2]. destruct (Dc rho' _ Hr' U1) as [R1' R2'].
    assert (T1 : PP (temp * un_temp uu)) by sg. assert (T2 : PP (un_temp uu * temp)) by sg.
    assert (T1' : PP (temp' * un_temp uu)) by sg. assert (T2' : PP (un_temp uu * temp')) by sg.
    assert (N1 : PP (nu * un_freq uu)) by sg.
    pose proof (DN _ Hr) as Nr. pose proof (DN _ Hr') as Nr'.
    assert (W1 : no_less (rho * un_rho uu) (rho' * un_rho uu)) by up.
    assert (W2 : no_less (un_rho uu * rho) (un_rho uu * rho')) by up.
    destruct (Wc _ _ _ Ht Ht' U10 Uw) as [V1 V2].
    destruct (Ho _ _ _ R2 T2 N1) as (A1 & _). destruct (Ho _ _ _ R2' T2' N1) as (A1' & _).
    destruct (Ho _ _ _ R1 T1 N1) as (_ & A2 & A3 & A4 & A5 & A6 & _).
    destruct (Ho _ _ _ R1' T1' N1) as (_ & A2' & A3' & A4' & A5' & A6' & _).
    destruct (Hu _ _ _ _ _ R2 R2' T2 T2' N1 W2 V2) as (Q1 & _).
    destruct (Hu _ _ _ _ _ R1 R1' T1 T1' N1 W1 V1) as (_ & Q2 & Q3 & Q4 & Q5 & Q6).
    cbn [NonCGSUnits ph_Absorption ph_AngleAvgAbsorption ph_EmissivityPerNuOmega
      ph_EmissivityPerNu ph_Emissivity ph_NumberEmissivity].
    repeat split; [nnb|nnb|nnb|nnb|nnb|].
    eapply up_bind with (P := fun v => NN v \/ v = Oinf); [from_ret|from_ret|scale1|eassumption].
  Qed.

  Lemma nu_wrapped_up D warm pc o : scale_closed (PP := PP) D -> (forall x, D x -> NN x) -> warm_closed warm ->
    neutrino_nonneg PP NN D (fun _ _ => True) o -> neutrino_up PP D warm o ->
    neutrino_up PP D warm (NuNonCGSUnits pc o u).
  Proof.
    intros Dc DN Wc Ho Hu rho rho' temp temp' Ye type nu Hr Hr' Ht Ht' Hn Ur Uw.
    destruct (units_P S time mass len tmp Ut Um Ul UT) as (U1&U2&U3&U4&U5&U6&U7&U8&U9&U10).
    set (uu := u) in *. clearbody uu.
    destruct (Dc rho _ Hr U1) as [R1 R2]. destruct (Dc rho' _ Hr' U1) as [R1' R2'].
    assert (T1 : PP (temp * un_temp uu)) by sg. assert (T2 : PP (un_temp uu * temp)) by sg.
    assert (T1' : PP (temp' * un_temp uu)) by sg. assert (T2' : PP (un_temp uu * temp')) by sg.
    assert (N1 : PP (nu * un_freq uu)) by sg.
    pose proof (DN _ Hr) as Nr. pose proof (DN _ Hr') as Nr'.
    assert (W1 : no_less (rho * un_rho uu) (rho' * un_rho uu)) by up.
    assert (W2 : no_less (un_rho uu * rho) (un_rho uu * rho')) by up.
    destruct (Wc _ _ _ Ht Ht' U10 Uw) as [V1 V2].
    destruct (Ho _ _ Ye type _ R2 T2 N1 I) as (A1 & _). destruct (Ho _ _ Ye type _ R2' T2' N1 I) as (A1' & _).
    destruct (Ho _ _ Ye type _ R1 T1 N1 I) as (_ & A2 & A3 & A4 & A5 & A6 & _).
    destruct (Ho _ _ Ye type _ R1' T1' N1 I) as (_ & A2' & A3' & A4' & A5' & A6' & _).
    destruct (Hu _ _ _ _ Ye type _ R2 R2' T2 T2' N1 W2 V2) as (Q1 & _).
    destruct (Hu _ _ _ _ Ye type _ R1 R1' T1 T1' N1 W1 V1) as (_ & Q2 & Q3 & Q4 & Q5 & Q6).
    cbn [NuNonCGSUnits nu_Absorption nu_AngleAvgAbsorption nu_EmissivityPerNuOmega
      nu_EmissivityPerNu nu_Emissivity nu_NumberEmissivity].
    repeat split; nnb.
  Qed.

  Lemma wrapped_thermal_up D pc o : (exists rho, D rho) -> scale_closed (PP := PP) D ->
    photon_nonneg PP NN D o -> photon_thermal_up PP o -> photon_thermal_up PP (NonCGSUnits pc o u).
  Proof.
    intros [rho Hr] Dc Ho [Hu He]. 
    destruct (units_P S time mass len tmp Ut Um Ul UT) as (U1&U2&U3&U4&U5&U6&U7&U8&U9&U10).
    set (uu := u) in *. clearbody uu. split.
    - intros temp temp' nu Ht Ht' Hn Uw.
      assert (T1 : PP (temp * un_temp uu)) by sg. assert (T1' : PP (temp' * un_temp uu)) by sg.
      assert (N1 : PP (nu * un_freq uu)) by sg.
      destruct (no_less_closed _ _ _ Ht Ht' U10 Uw) as [V1 _].
      destruct (Ho _ _ _ Hr T1 N1) as (_ & _ & _ & _ & _ & _ & A1 & _ & A2 & A3 & A4 & A5).
      destruct (Ho _ _ _ Hr T1' N1) as (_ & _ & _ & _ & _ & _ & A1' & _ & A2' & A3' & A4' & A5').
      destruct (Hu _ _ _ T1 T1' N1 V1) as (Q1 & Q2 & Q3 & Q4 & Q5).
      cbn [NonCGSUnits ph_ThermalDistributionOfTNu ph_ThermalDistributionOfT ph_ThermalNumberDistributionOfT
        ph_EnergyDensityFromTemperature ph_NumberDensityFromTemperature].
      repeat split; (eapply up_bind with (P := PP); [from_ret|from_ret|intros a b Ha Hb H; up|eassumption]).
    - intros er er' Hr0 Hr' Uw. cbn [NonCGSUnits ph_TemperatureFromEnergyDensity].
      destruct (He (er / un_inv_energy_dens uu) (er' / un_inv_energy_dens uu)) as (t & t' & -> & -> & P1 & P2 & H);
        [sg|sg|up|].
      cbn [bind]. do 2 eexists. split; [reflexivity|]. split; [reflexivity|]. split; [sg|]. split; [sg|]. up.
  Qed.

  Lemma nu_wrapped_thermal_up D pc o : (exists rho, D rho) -> scale_closed (PP := PP) D ->
    neutrino_nonneg PP NN D (fun _ _ => True) o -> neutrino_thermal_up PP o ->
    neutrino_thermal_up PP (NuNonCGSUnits pc o u).
  Proof.
    intros [rho Hr] Dc Ho [Hu He]. 
    destruct (units_P S time mass len tmp Ut Um Ul UT) as (U1&U2&U3&U4&U5&U6&U7&U8&U9&U10).
    set (uu := u) in *. clearbody uu. split.
    - intros temp temp' type nu Ht Ht' Hn Uw.
      assert (T1 : PP (temp * un_temp uu)) by sg. assert (T1' : PP (temp' * un_temp uu)) by sg.
      assert (N1 : PP (nu * un_freq uu)) by sg.
      destruct (no_less_closed _ _ _ Ht Ht' U10 Uw) as [V1 _].
      destruct (Ho _ _ rho type _ Hr T1 N1 I) as (_ & _ & _ & _ & _ & _ & A1 & _ & A2 & A3 & A4 & A5).
      destruct (Ho _ _ rho type _ Hr T1' N1 I) as (_ & _ & _ & _ & _ & _ & A1' & _ & A2' & A3' & A4' & A5').
      destruct (Hu _ _ type _ T1 T1' N1 V1) as (Q1 & Q2 & Q3 & Q4 & Q5).
      cbn [NuNonCGSUnits nu_ThermalDistributionOfTNu nu_ThermalDistributionOfT nu_ThermalNumberDistributionOfT
        nu_EnergyDensityFromTemperature nu_NumberDensityFromTemperature].
      repeat split; (eapply up_bind with (P := PP); [from_ret|from_ret|intros a b Ha Hb H; up|eassumption]).
    - intros er er' type Hr0 Hr' Uw. cbn [NuNonCGSUnits nu_TemperatureFromEnergyDensity].
      destruct (He (er / un_inv_energy_dens uu) (er' / un_inv_energy_dens uu) type) as (t & t' & -> & -> & P1 & P2 & H);
        [sg|sg|up|].
      cbn [bind]. do 2 eexists. split; [reflexivity|]. split; [reflexivity|]. split; [sg|]. split; [sg|]. up.
  Qed.
End Closure.

(** ** Exact arithmetic *)
Local Open Scope R_scope.
Lemma er_no_less r q : no_less (Fin r) (Fin q) <-> r <= q.
Proof.
  unfold no_less. rewrite fin_ltb. unfold Rltb. destruct (Rlt_dec q r); split; intros; try discriminate; auto; lra.
Qed.

Lemma er_mono : MonoLaws ER_ops pos_real nonneg_real.
Proof.
  assert (Mn : 0 < R_num_min) by apply R_num_min_pos.
  split; unfold pos_real, nonneg_real.
  - intros [r| | |]; try reflexivity. apply er_no_less. lra.
  - intros x x' y y' (a & -> & Ha) (b & -> & Hb) (c & -> & Hc) (d & -> & Hd) H K.
    apply er_no_less in H, K. rewrite !fin_mul. apply er_no_less. now apply Rmult_le_compat.
  - intros x x' y y' (a & -> & Ha) (b & -> & Hb) (c & -> & Hc) (d & -> & Hd) H K.
    apply er_no_less in H, K. rewrite !fin_div by lra. apply er_no_less.
    apply Rmult_le_compat; try lra.
    + left. now apply Rinv_0_lt_compat.
    + now apply Rinv_le_contravar.
  - intros x x' y y' (a & -> & Ha) (b & -> & Hb) (c & -> & Hc) (d & -> & Hd) H K.
    apply er_no_less in H, K. rewrite !fin_add. apply er_no_less. lra.
  - intros x x' e (a & -> & Ha) (b & -> & Hb) (c & -> & Hc) H. apply er_no_less in H.
    rewrite !fin_pow by assumption. apply er_no_less. apply Rle_Rpower_l; [exact Hc|]. split; lra.
  - intros x x' (a & -> & Ha) (b & -> & Hb) H. apply er_no_less in H. rewrite !fin_exp. apply er_no_less.
    destruct H as [H| ->]; [left; now apply exp_increasing|lra].
  - intros x x' (a & -> & Ha) (b & -> & Hb) H. apply er_no_less in H. rewrite !fin_expm1. apply er_no_less.
    apply Rplus_le_compat_r. destruct H as [H| ->]; [left; now apply exp_increasing|lra].
  - intros x x' y (a & -> & Ha) (b & -> & Hb) (q & -> & K) H. apply er_no_less in H.
    unfold ratio, sgn. rewrite !fin_ofZ, fin_leb, fin_ltb.
    rewrite Rleb_true, Rltb_false by lra. change (Z.b2z true - Z.b2z false)%Z with 1%Z.
    unfold SMALL. rewrite !fin_ofZ, fin_min, !fin_mul, fin_add, !fin_div by lra. apply er_no_less.
    apply Rmult_le_compat_r; [|exact H]. left. apply Rinv_0_lt_compat. lra.
  - intros x x' y Hx Hx' (c & -> & Hc) H.
    destruct Hx' as [(b & -> & Hb)| ->].
    2:{ replace (Oinf * Fin c)%o with (@Oinf _ ER_ops).
        - unfold no_less. cbn. destruct Hx as [(a & -> & Ha)| ->]; [reflexivity|]. cbn. unfold inf_of_sign.
          destruct (Rlt_dec 0 c); [reflexivity|lra].
        - cbn. unfold inf_of_sign. destruct (Rlt_dec 0 c); [reflexivity|lra]. }
    destruct Hx as [(a & -> & Ha)| ->]; [|discriminate H].
    apply er_no_less in H. rewrite !fin_mul. apply er_no_less. apply Rmult_le_compat_r; lra.
Qed.

(** ** binary64 *)
(** Beyond signs, the mathematical library is asked to be monotone on what is not
    negative, a NaN being neither less nor more than anything *)
Record monotone_libm (L : Libm) : Prop := {
  mono_exp : forall x y, not_negative x -> not_negative y -> Bltb y x = false ->
    Bltb (lm_exp L y) (lm_exp L x) = false;
  mono_expm1 : forall x y, not_negative x -> not_negative y -> Bltb y x = false ->
    Bltb (lm_expm1 L y) (lm_expm1 L x) = false;
  mono_pow : forall x y e, not_negative x -> not_negative y -> not_negative e -> Bltb y x = false ->
    Bltb (lm_pow L y e) (lm_pow L x e) = false;
}.

Lemma bl_nan_l (x y : b64) : is_nan x = true -> Bltb x y = false.
Proof. destruct x; try discriminate. reflexivity. Qed.
Lemma bl_nan_r (x y : b64) : is_nan y = true -> Bltb x y = false.
Proof. destruct y; try discriminate. destruct x as [?|[|]| |[|] ? ? ?]; reflexivity. Qed.
Lemma bl_inf (x : b64) : Bltb (B754_infinity false) x = false.
Proof. destruct x as [?|[|]| |[|] ? ? ?]; reflexivity. Qed.
Lemma bl_zero (x : b64) s : not_negative x -> Bltb x (B754_zero s) = false.
Proof. destruct x as [?|[|]| |[|] ? ? ?]; intros [H|H]; try discriminate H; try reflexivity. Qed.
Lemma bl_fin (x y : b64) : is_finite x = true -> is_finite y = true -> (Bltb y x = false <-> B2R x <= B2R y).
Proof.
  intros Fx Fy. rewrite Bltb_correct by assumption. destruct (Rlt_bool_spec (B2R y) (B2R x)); split; intros; try discriminate; auto; lra.
Qed.
Lemma bl_below (x y : b64) : not_negative x -> is_nan x = false -> is_finite y = true -> Bltb y x = false -> is_finite x = true.
Proof.
  destruct x as [?|[|]| |? ? ? ?]; intros [H|H] N F B; try discriminate; try reflexivity.
  destruct y as [?|?| |[|] ? ? ?]; discriminate.
Qed.
Lemma bl_refl (x : b64) : Bltb x x = false.
Proof.
  destruct (is_finite x) eqn:F; [apply bl_fin; auto; lra|]. destruct x as [?|[|]| |? ? ? ?]; try discriminate; reflexivity.
Qed.
Lemma not_fin (x : b64) : not_negative x -> is_finite x = false -> is_nan x = true \/ x = B754_infinity false.
Proof. destruct x as [?|[|]| |? ? ? ?]; intros [H|H] F; try discriminate; auto. Qed.

Notation rnd64 := (round radix2 (SpecFloat.fexp 53 1024) (round_mode mode_NE)).
Lemma rnd_le a b : a <= b -> rnd64 a <= rnd64 b.
Proof. intros. apply round_le; auto. apply fexp_correct. reflexivity. apply valid_rnd_round_mode. Qed.
Lemma rnd_ge0 a : 0 <= a -> 0 <= rnd64 a.
Proof. intros. rewrite <- (round_0 radix2 (SpecFloat.fexp 53 1024) (round_mode mode_NE)). now apply rnd_le. Qed.
Lemma no_over a b : 0 <= a -> a <= b -> Rlt_bool (Rabs (rnd64 b)) (bpow radix2 1024) = true ->
  Rlt_bool (Rabs (rnd64 a)) (bpow radix2 1024) = true.
Proof.
  intros H K E. pose proof (rnd_le a b K). pose proof (rnd_ge0 a H).
  destruct (Rlt_bool_spec (Rabs (rnd64 b)) (bpow radix2 1024)); [|discriminate].
  apply Rlt_bool_true. rewrite Rabs_pos_eq in * by lra. lra.
Qed.

Lemma bl_mul (x x' y y' : b64) : not_negative x -> not_negative x' -> not_negative y -> not_negative y' ->
  Bltb x' x = false -> Bltb y' y = false -> Bltb (Bmult mode_NE x' y') (Bmult mode_NE x y) = false.
Proof.
  intros Hx Hx' Hy Hy' H K.
  destruct (is_finite (Bmult mode_NE x' y')) eqn:F.
  2:{ destruct (not_fin _ (nn_mul mode_NE x' y' Hx' Hy') F) as [N| ->]; [now apply bl_nan_l|apply bl_inf]. }
  destruct (is_nan x) eqn:Nx; [apply bl_nan_r; destruct x; try discriminate; reflexivity|].
  destruct (is_nan y) eqn:Ny; [apply bl_nan_r; destruct x, y; try discriminate; reflexivity|].
  assert (Fx' : is_finite x' = true) by (destruct x', y'; try reflexivity; discriminate F).
  assert (Fy' : is_finite y' = true) by (destruct x', y'; try reflexivity; discriminate F).
  pose proof (bl_below x x' Hx Nx Fx' H) as Fx. pose proof (bl_below y y' Hy Ny Fy' K) as Fy.
  apply (bl_fin x x' Fx Fx') in H. apply (bl_fin y y' Fy Fy') in K.
  destruct Hx as [Hx|Hx]; [congruence|]. destruct Hy as [Hy|Hy]; [congruence|].
  pose proof (nn_ge0 x Fx Hx) as Px. pose proof (nn_ge0 y Fy Hy) as Py.
  assert (Q : B2R x * B2R y <= B2R x' * B2R y') by (apply Rmult_le_compat; lra).
  assert (Q0 : 0 <= B2R x * B2R y) by now apply Rmult_le_pos.
  pose proof (Bmult_correct 53 1024 _ _ mode_NE x y) as C. pose proof (Bmult_correct 53 1024 _ _ mode_NE x' y') as C'.
  destruct (Rlt_bool (Rabs (rnd64 (B2R x' * B2R y'))) (bpow radix2 1024)) eqn:E'.
  - rewrite (no_over _ _ Q0 Q E') in C. destruct C as (V & G & _). destruct C' as (V' & G' & _).
    apply bl_fin; [now rewrite G, Fx, Fy|exact F|]. rewrite V, V'. now apply rnd_le.
  - exfalso. unfold binary_overflow in C'. cbn [overflow_to_inf] in C'.
    destruct (Bmult mode_NE x' y'); cbn in F, C'; discriminate.
Qed.

Lemma bl_add (x x' y y' : b64) : not_negative x -> not_negative x' -> not_negative y -> not_negative y' ->
  Bltb x' x = false -> Bltb y' y = false -> Bltb (Bplus mode_NE x' y') (Bplus mode_NE x y) = false.
Proof.
  intros Hx Hx' Hy Hy' H K.
  destruct (is_finite (Bplus mode_NE x' y')) eqn:F.
  2:{ destruct (not_fin _ (nn_add x' y' Hx' Hy') F) as [N| ->]; [now apply bl_nan_l|apply bl_inf]. }
  destruct (is_nan x) eqn:Nx; [apply bl_nan_r; destruct x; try discriminate; reflexivity|].
  destruct (is_nan y) eqn:Ny; [apply bl_nan_r; destruct x, y; try discriminate; reflexivity|].
  assert (Fx' : is_finite x' = true).
  { destruct x' as [?|[|]| |? ? ? ?], y' as [?|[|]| |? ? ? ?]; try reflexivity; discriminate F. }
  assert (Fy' : is_finite y' = true).
  { destruct x' as [?|[|]| |? ? ? ?], y' as [?|[|]| |? ? ? ?]; try reflexivity; discriminate F. }
  pose proof (bl_below x x' Hx Nx Fx' H) as Fx. pose proof (bl_below y y' Hy Ny Fy' K) as Fy.
  apply (bl_fin x x' Fx Fx') in H. apply (bl_fin y y' Fy Fy') in K.
  destruct Hx as [Hx|Hx]; [congruence|]. destruct Hy as [Hy|Hy]; [congruence|].
  pose proof (nn_ge0 x Fx Hx) as Px. pose proof (nn_ge0 y Fy Hy) as Py.
  assert (Q : B2R x + B2R y <= B2R x' + B2R y') by lra.
  assert (Q0 : 0 <= B2R x + B2R y) by lra.
  pose proof (Bplus_correct 53 1024 _ _ mode_NE x y Fx Fy) as C.
  pose proof (Bplus_correct 53 1024 _ _ mode_NE x' y' Fx' Fy') as C'.
  destruct (Rlt_bool (Rabs (rnd64 (B2R x' + B2R y'))) (bpow radix2 1024)) eqn:E'.
  - rewrite (no_over _ _ Q0 Q E') in C. destruct C as (V & G & _). destruct C' as (V' & G' & _).
    apply bl_fin; [exact G|exact F|]. rewrite V, V'. now apply rnd_le.
  - exfalso. destruct C' as [C' _]. unfold binary_overflow in C'. cbn [overflow_to_inf] in C'.
    destruct (Bplus mode_NE x' y'); cbn in F, C'; discriminate.
Qed.

Lemma bl_div (x x' y y' : b64) : not_negative x -> not_negative x' -> not_negative y -> not_negative y' ->
  Bltb x' x = false -> Bltb y y' = false -> Bltb (Bdiv mode_NE x' y') (Bdiv mode_NE x y) = false.
Proof.
  intros Hx Hx' Hy Hy' H K.
  destruct (is_finite (Bdiv mode_NE x' y')) eqn:F.
  2:{ destruct (not_fin _ (nn_div mode_NE x' y' Hx' Hy') F) as [N| ->]; [now apply bl_nan_l|apply bl_inf]. }
  destruct (is_nan x) eqn:Nx; [apply bl_nan_r; destruct x; try discriminate; reflexivity|].
  destruct (is_nan y) eqn:Ny; [apply bl_nan_r; destruct x, y; try discriminate; reflexivity|].
  assert (Fx' : is_finite x' = true).
  { destruct x' as [?|[|]| |? ? ? ?], y' as [?|[|]| |? ? ? ?]; try reflexivity; discriminate F. }
  pose proof (bl_below x x' Hx Nx Fx' H) as Fx.
  pose proof (nn_div mode_NE x' y' Hx' Hy') as ND.
  (* an infinite denominator *)
  destruct (is_finite y) eqn:Fy.
  2:{ destruct (not_fin y Hy Fy) as [?| ->]; [congruence|].
      destruct x as [s|?| |s m e E]; try discriminate Fx; cbn [Bdiv]; now apply bl_zero. }
  assert (Ny' : is_nan y' = false) by (destruct x', y'; try reflexivity; discriminate F).
  pose proof (bl_below y' y Hy' Ny' Fy K) as Fy'.
  (* a zero denominator *)
  destruct y' as [s|?| |s m e E]; try discriminate Fy'.
  { destruct x'; try discriminate F; discriminate Fx'. }
  set (y' := B754_finite s m e E) in *.
  assert (Sy' : Bsign y' = false) by (destruct Hy'; [discriminate|assumption]).
  assert (Vy' : 0 < B2R y').
  { cbn in Sy'. unfold y'. rewrite Sy'. cbn. apply F2R_gt_0. cbn. lia. }
  apply (bl_fin x x' Fx Fx') in H. apply (bl_fin y' y Fy' Fy) in K.
  destruct Hx as [Hx|Hx]; [congruence|].
  pose proof (nn_ge0 x Fx Hx) as Px.
  assert (Q : B2R x / B2R y <= B2R x' / B2R y').
  { apply Rmult_le_compat; try lra. left. apply Rinv_0_lt_compat; lra. apply Rinv_le_contravar; lra. }
  assert (Q0 : 0 <= B2R x / B2R y) by (apply Rmult_le_pos; [lra|left; apply Rinv_0_lt_compat; lra]).
  pose proof (Bdiv_correct 53 1024 _ _ mode_NE x y ltac:(lra)) as C.
  pose proof (Bdiv_correct 53 1024 _ _ mode_NE x' y' ltac:(lra)) as C'.
  destruct (Rlt_bool (Rabs (rnd64 (B2R x' / B2R y'))) (bpow radix2 1024)) eqn:E'.
  - rewrite (no_over _ _ Q0 Q E') in C. destruct C as (V & G & _). destruct C' as (V' & G' & _).
    apply bl_fin; [now rewrite G|exact F|]. rewrite V, V'. now apply rnd_le.
  - exfalso. unfold binary_overflow in C'. cbn [overflow_to_inf] in C'.
    destruct (Bdiv mode_NE x' y'); cbn in F, C'; discriminate.
Qed.

Lemma b64_mono L : monotone_libm L -> MonoLaws (B64_ops L) not_negative not_negative.
Proof.
  intros [Le Lm Lp]. split; unfold no_less; cbn [Oltb Omul Odiv Oadd Opow Oexp Oexpm1 B64_ops].
  - apply bl_refl.
  - intros. now apply bl_mul.
  - intros. now apply bl_div.
  - intros. now apply bl_add.
  - intros. now apply Lp.
  - intros. now apply Le.
  - intros. now apply Lm.
  - intros x x' y Hx Hx' Hy H. unfold ratio. cbn [Odiv Oadd Omul OofZ B64_ops].
    assert (D : not_negative (Bplus mode_NE y (Bmult mode_NE (b64_of_Z (@sgn _ (B64_ops L) y)) (@SMALL _ (B64_ops L))))).
    { unfold not_negative in Hy. destruct (is_nan y) eqn:Ny.
      + left. destruct y; try discriminate. reflexivity.
      + destruct Hy as [|Hy]; [discriminate|].
        assert (E : @sgn _ (B64_ops L) y = 1%Z).
        { unfold sgn. cbn [Oleb Oltb OofZ B64_ops].
          destruct y as [s|s| |s m e E]; try discriminate; cbn in Hy; subst s; reflexivity. }
        rewrite E. apply nn_add; [now right|]. right. unfold SMALL. cbn [Omul OofZ Onum_min B64_ops]. vm_compute. reflexivity. }
    apply bl_div; auto. apply bl_refl.
  - assert (I0 : not_negative (@Oinf _ (B64_ops L))) by (right; reflexivity).
    intros x x' y Hx Hx' Hy H. apply bl_mul; auto; [destruct Hx as [| ->]; auto|destruct Hx' as [| ->]; auto|apply bl_refl].
Qed.
