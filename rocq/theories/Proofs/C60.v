(** C60. More matter, or hotter matter, never absorbs or emits less. *)
From Coquelicot Require Import Coquelicot.
From Coq Require Import Reals ZArith Lra Lia Bool.
From Flocq Require Import Core IEEE754.BinarySingleNaN.
From Verif Require Import Base.Outcome Base.Ops Inst.ER Inst.ERTac Inst.RConsts Inst.B64 Model.Constants Model.RadTypes
  Model.PhotonApi Model.GrayPhotons Model.PowerLawPhotons Model.EPBremsPhotons Model.ThermalPhotons
  Model.NonCGSPhotons Model.NeutrinoApi Model.OpacNeutrinos Model.NonCGSNeutrinos
  Spec.Opacities Spec.Nonneg Spec.Growth Proofs.SignLaws Proofs.MonoLaws Proofs.CrLibm Proofs.ModelFacts Proofs.C49.
Open Scope R_scope.

Section Both.
  Context {T : Type} {O : Ops T} {PP NN RR : T -> Prop} (S : SignLaws O PP NN RR) (M : MonoLaws O PP NN)
    (pc : PhysConst T) (C : pos_consts PP RR pc).

  Definition photon_ok (D : T -> Prop) (warm : T -> T -> Prop) (o : PhotonOpac T) : Prop :=
    photon_up PP D warm o /\ photon_thermal_up PP o /\
    forall time mass len tmp, PP time -> PP mass -> PP len -> PP tmp ->
    photon_up PP D warm (NonCGSUnits pc o (mk_units time mass len tmp)) /\
    photon_thermal_up PP (NonCGSUnits pc o (mk_units time mass len tmp)).
  Definition neutrino_ok (D : T -> Prop) (warm : T -> T -> Prop) (o : NuOpac T) : Prop :=
    neutrino_up PP D warm o /\ neutrino_thermal_up PP o /\
    forall time mass len tmp, PP time -> PP mass -> PP len -> PP tmp ->
    neutrino_up PP D warm (NuNonCGSUnits pc o (mk_units time mass len tmp)) /\
    neutrino_thermal_up PP (NuNonCGSUnits pc o (mk_units time mass len tmp)).

  Lemma photon_ok_intro D warm o : (exists r, D r) -> scale_closed (PP := PP) D -> (forall x, D x -> NN x) ->
    warm_closed (PP := PP) warm -> photon_nonneg PP NN D o -> photon_up PP D warm o -> photon_thermal_up PP o ->
    photon_ok D warm o.
  Proof.
    intros De Dc DN Wc Ho Hu Ht. split; [exact Hu|]. split; [exact Ht|]. intros time mass len tmp H1 H2 H3 H4. split.
    - now apply (wrapped_up S M).
    - now apply (wrapped_thermal_up S M time mass len tmp H1 H2 H3 H4 D).
  Qed.
  Lemma neutrino_ok_intro D warm o : (exists r, D r) -> scale_closed (PP := PP) D -> (forall x, D x -> NN x) ->
    warm_closed (PP := PP) warm -> neutrino_nonneg PP NN D (fun _ _ => True) o -> neutrino_up PP D warm o ->
    neutrino_thermal_up PP o -> neutrino_ok D warm o.
  Proof.
    intros De Dc DN Wc Ho Hu Ht. split; [exact Hu|]. split; [exact Ht|]. intros time mass len tmp H1 H2 H3 H4. split.
    - now apply (nu_wrapped_up S M).
    - now apply (nu_wrapped_thermal_up S M time mass len tmp H1 H2 H3 H4 D).
  Qed.
  Lemma some_NN : exists r, NN r. Proof. exists (OofZ 0). apply (sl_zero _ _ _ _ S). Qed.
  Lemma some_PP : exists r, PP r. Proof. exists (OofZ 1). apply (sl_lit _ _ _ _ S). Qed.

  Lemma gray_ok kappa : NN kappa -> photon_ok NN no_less (GrayOpacity pc kappa).
  Proof.
    intros Hk. apply photon_ok_intro; auto using some_NN.
    - apply (NN_closed S). - apply (no_less_closed S M). - now apply (gray_nonneg S). - now apply (gray_up S M).
    - now apply (gray_thermal_up S M).
  Qed.
  Lemma brems_ok : photon_ok NN eq (EPBremsstrahlungOpacity pc).
  Proof.
    apply photon_ok_intro; auto using some_NN.
    - apply (NN_closed S). - apply eq_closed. - now apply (brems_nonneg S). - now apply (brems_up S M).
    - now apply (brems_thermal_up S M).
  Qed.
  Lemma powerlaw_ok p : powerlaw_domain (PP := PP) (NN := NN) (RR := RR) p ->
    (NN (pl_rho_exp p) -> photon_ok PP eq (PowerLawOpacity pc p)) /\
    (growing NN p -> photon_ok PP no_less (PowerLawOpacity pc p)).
  Proof.
    intros Hp. split.
    - intros He. apply photon_ok_intro; auto using some_PP.
      + apply (PP_closed S). + apply (sl_pn _ _ _ _ S). + apply eq_closed. + now apply (powerlaw_nonneg S).
      + apply (powerlaw_up S M); auto.
      + now apply (powerlaw_thermal_up S M).
    - intros (He & Ht & Hs). apply photon_ok_intro; auto using some_PP.
      + apply (PP_closed S). + apply (sl_pn _ _ _ _ S). + apply (no_less_closed S M). + now apply (powerlaw_nonneg S).
      + apply (powerlaw_up S M); auto.
      + now apply (powerlaw_thermal_up S M).
  Qed.

  Context (ns : positive).
  Lemma nugray_ok kappa : NN kappa -> neutrino_ok NN no_less (NuGrayOpacity (Zpos ns) pc kappa).
  Proof.
    intros Hk. apply neutrino_ok_intro; auto using some_NN.
    - apply (NN_closed S). - apply (no_less_closed S M). - now apply (nugray_nonneg S). - now apply (nugray_up S M).
    - now apply (fd_thermal_up S M).
  Qed.
  Lemma brt_ok : neutrino_ok NN no_less (BRTOpacity (Zpos ns) pc).
  Proof.
    apply neutrino_ok_intro; auto using some_NN.
    - apply (NN_closed S). - apply (no_less_closed S M). - now apply (brt_nonneg S). - now apply (brt_up S M).
    - now apply (fd_thermal_up S M).
  Qed.
End Both.

(** Photons, exact arithmetic. Gray: at no smaller density and no smaller temperature, no
    absorption coefficient, emissivity or thermal function is smaller. The power law: the
    same for growing exponents without stimulated emission, and otherwise at a fixed
    temperature. Bremsstrahlung: at a fixed temperature. The temperature recovered from an
    energy density grows with it. All of it also in other units. *)
Lemma C60_photons_proof :
  forall pc : PhysConst R, positive_consts pc ->
  let ok := fun D warm o =>
    photon_up pos_real D warm o /\ photon_thermal_up pos_real o /\
    forall time mass len tmp, pos_real time -> pos_real mass -> pos_real len -> pos_real tmp ->
    let o' := NonCGSUnits (finpc pc) o (mk_units time mass len tmp) in
    photon_up pos_real D warm o' /\ photon_thermal_up pos_real o' in
  (forall kappa, nonneg_real kappa -> ok nonneg_real no_less (GrayOpacity (finpc pc) kappa)) /\
  (forall p, powerlaw_domain (PP := pos_real) (NN := nonneg_real) (RR := a_real) p ->
     (nonneg_real (pl_rho_exp p) -> ok pos_real eq (PowerLawOpacity (finpc pc) p)) /\
     (growing nonneg_real p -> ok pos_real no_less (PowerLawOpacity (finpc pc) p))) /\
  ok nonneg_real eq (EPBremsstrahlungOpacity (finpc pc)).
Proof.
  intros pc P. cbv zeta. pose proof (finpc_pos pc P) as C. split; [|split].
  - intros kappa Hk. now apply (gray_ok er_laws er_mono).
  - intros p Hp. now apply (powerlaw_ok er_laws er_mono).
  - now apply (brems_ok er_laws er_mono).
Qed.

(** The same in binary64 with the library's constants, for all arguments that are not
    negative, provided the mathematical library is monotone: rounding, overflow to
    infinity and underflow to zero never turn an increase into a decrease. *)
Lemma C60_photons_binary64_proof :
  forall L : Libm, sane_libm L -> monotone_libm L ->
  let _ := B64_ops L in
  let pc := PhysicalConstantsCGS in
  let nn := not_negative in
  let ok := fun warm o =>
    photon_up nn nn warm o /\ photon_thermal_up nn o /\
    forall time mass len tmp, nn time -> nn mass -> nn len -> nn tmp ->
    let o' := NonCGSUnits pc o (mk_units time mass len tmp) in
    photon_up nn nn warm o' /\ photon_thermal_up nn o' in
  (forall kappa, nn kappa -> ok no_less (GrayOpacity pc kappa)) /\
  (forall p, powerlaw_domain (PP := nn) (NN := nn) (RR := fun _ => True) p ->
     (nn (pl_rho_exp p) -> ok eq (PowerLawOpacity pc p)) /\
     (growing nn p -> ok no_less (PowerLawOpacity pc p))) /\
  ok eq (EPBremsstrahlungOpacity pc).
Proof.
  intros L HL HM. cbv zeta. pose proof (b64_laws L HL) as S. pose proof (b64_mono L HM) as M.
  pose proof (library_consts S I) as C. split; [|split].
  - intros kappa Hk. now apply (gray_ok S M).
  - intros p Hp. now apply (powerlaw_ok S M).
  - now apply (brems_ok S M).
Qed.

(** Neutrinos, exact arithmetic, every species: gray and the Burrows, Reddy and Thompson
    absorption grow with density and temperature. *)
Lemma C60_neutrinos_proof :
  forall (pc : PhysConst R) (ns : positive), positive_consts pc ->
  let ok := fun o =>
    neutrino_up pos_real nonneg_real no_less o /\ neutrino_thermal_up pos_real o /\
    forall time mass len tmp, pos_real time -> pos_real mass -> pos_real len -> pos_real tmp ->
    let o' := NuNonCGSUnits (finpc pc) o (mk_units time mass len tmp) in
    neutrino_up pos_real nonneg_real no_less o' /\ neutrino_thermal_up pos_real o' in
  (forall kappa, nonneg_real kappa -> ok (NuGrayOpacity (Zpos ns) (finpc pc) kappa)) /\
  ok (BRTOpacity (Zpos ns) (finpc pc)).
Proof.
  intros pc ns P. cbv zeta. pose proof (finpc_pos pc P) as C. split.
  - intros kappa Hk. now apply (nugray_ok er_laws er_mono).
  - now apply (brt_ok er_laws er_mono).
Qed.

(** The same in binary64 *)
Lemma C60_neutrinos_binary64_proof :
  forall (L : Libm) (ns : positive), sane_libm L -> monotone_libm L ->
  let _ := B64_ops L in
  let pc := PhysicalConstantsCGS in
  let nn := not_negative in
  let ok := fun o =>
    neutrino_up nn nn no_less o /\ neutrino_thermal_up nn o /\
    forall time mass len tmp, nn time -> nn mass -> nn len -> nn tmp ->
    let o' := NuNonCGSUnits pc o (mk_units time mass len tmp) in
    neutrino_up nn nn no_less o' /\ neutrino_thermal_up nn o' in
  (forall kappa, nn kappa -> ok (NuGrayOpacity (Zpos ns) pc kappa)) /\
  ok (BRTOpacity (Zpos ns) pc).
Proof.
  intros L ns HL HM. cbv zeta. pose proof (b64_laws L HL) as S. pose proof (b64_mono L HM) as M.
  pose proof (library_consts S I) as C. split.
  - intros kappa Hk. now apply (nugray_ok S M).
  - now apply (brt_ok S M).
Qed.

(** the hypotheses on the mathematical library hold of one that rounds correctly *)
Lemma C60_photons_binary64_example : sane_libm cr_libm /\ monotone_libm cr_libm.
Proof. split; [exact cr_sane|exact cr_monotone]. Qed.

(** In exact arithmetic the total bremsstrahlung emission also grows with temperature. *)
Lemma C60_brems_total_proof :
  forall (pc : PhysConst R) (rho t t' : R), positive_consts pc -> 0 < rho -> 0 < t < t' ->
  exists j j', ph_Emissivity (EPBremsstrahlungOpacity (finpc pc)) (Fin rho) (Fin t) = Ok (Fin j) /\
    ph_Emissivity (EPBremsstrahlungOpacity (finpc pc)) (Fin rho) (Fin t') = Ok (Fin j') /\ 0 < j < j'.
Proof.
  intros pc rho t t' P Hr Ht.
  cbn [EPBremsstrahlungOpacity ph_Emissivity].
  rewrite !ep_J_fin by (auto; lra). do 2 eexists. split; [reflexivity|]. split; [reflexivity|].
  destruct (pc_all pc P) as (Hh & Hk & Hc & Hm & Hmp & Hq & _).
  set (K := pc_kb pc / (pc_me pc * pc_c pc * pc_c pc)).
  assert (HK : 0 < K) by (unfold K; apply Rdiv_lt_0_compat; [lra|repeat apply Rmult_lt_0_compat; lra]).
  set (A := fun T => 4 * PI * pc_kb pc * T / pc_h pc * ep_A pc rho T).
  assert (E : forall T, 0 < T -> exists q, 0 < q /\ A T = q * sqrt (K * T) /\ (q = 4 * PI * pc_kb pc / (pc_h pc * K) *
     (8 * pc_qe pc ^ 6 / (3 * (pc_me pc * pc_c pc * pc_c pc) ^ 2) * sqrt (2 * PI / 3) *
     (rho / ((pc_mp pc + pc_me pc) / 2) / 2) * (rho / ((pc_mp pc + pc_me pc) / 2) / 2) * (12 / 10)))).
  { intros T HT. eexists. split; [|split; [|reflexivity]].
    - pose proof PI_RGT_0. pos.
    - unfold A, ep_A. replace (pc_kb pc * T / (pc_me pc * pc_c pc * pc_c pc)) with (K * T).
      2:{ unfold K. field. repeat split; lra. }
      assert (SS : 0 < sqrt (K * T)) by (apply sqrt_lt_R0; now apply Rmult_lt_0_compat).
      pose proof (sqrt_sqrt (K * T) ltac:(left; now apply Rmult_lt_0_compat)) as SQ.
      set (s := sqrt (K * T)) in *. 
      set (G := sqrt (2 * PI / 3)).
      apply (Rmult_eq_reg_r s); [|lra].
      transitivity (4 * PI * pc_kb pc / (pc_h pc * K) *
     (8 * pc_qe pc ^ 6 / (3 * (pc_me pc * pc_c pc * pc_c pc) ^ 2) * G *
     (rho / ((pc_mp pc + pc_me pc) / 2) / 2) * (rho / ((pc_mp pc + pc_me pc) / 2) / 2) * (12 / 10)) * (K * T)).
      + field. repeat split; lra.
      + rewrite <- SQ. ring. }
  destruct (E t ltac:(lra)) as (q & Hq0 & E1 & Eq). destruct (E t' ltac:(lra)) as (q' & Hq' & E2 & Eq').
  fold (A t). fold (A t'). rewrite E1, E2, Eq', <- Eq.
  assert (S1 : 0 < sqrt (K * t)) by (apply sqrt_lt_R0; apply Rmult_lt_0_compat; lra).
  assert (S2 : sqrt (K * t) < sqrt (K * t')).
  { apply sqrt_lt_1; try (left; apply Rmult_lt_0_compat; lra). apply Rmult_lt_compat_l; lra. }
  split; [now apply Rmult_lt_0_compat|]. now apply Rmult_lt_compat_l.
Qed.

(** Its emission at one frequency does not: at low frequencies hotter gas emits less, which
    is why the temperature is fixed above. *)
Lemma C60_brems_hotter_emits_less_proof :
  forall (pc : PhysConst R) (rho : R), positive_consts pc -> 0 < rho ->
  exists nu j j', 0 < nu /\
    ph_EmissivityPerNuOmega (EPBremsstrahlungOpacity (finpc pc)) (Fin rho) (Fin 1) (Fin nu) = Ok (Fin j) /\
    ph_EmissivityPerNuOmega (EPBremsstrahlungOpacity (finpc pc)) (Fin rho) (Fin 4) (Fin nu) = Ok (Fin j') /\
    0 < j' < j.
Proof.
  intros pc rho P Hr. destruct (pc_all pc P) as (Hh & Hk & Hc & Hm & Hmp & Hq & _).
  exists (pc_kb pc / pc_h pc / 4). cbn [EPBremsstrahlungOpacity ph_EmissivityPerNuOmega].
  rewrite !ep_jnu_fin by (auto; lra). do 2 eexists.
  split; [apply Rdiv_lt_0_compat; [now apply Rdiv_lt_0_compat|lra]|].
  split; [reflexivity|]. split; [reflexivity|].
  replace (pc_h pc * (pc_kb pc / pc_h pc / 4) / (pc_kb pc * 1)) with (1 / 4) by (field; lra).
  replace (pc_h pc * (pc_kb pc / pc_h pc / 4) / (pc_kb pc * 4)) with (1 / 16) by (field; lra).
  assert (H4 : ep_A pc rho 4 = ep_A pc rho 1 / 2).
  { unfold ep_A. set (K := pc_kb pc / (pc_me pc * pc_c pc * pc_c pc)).
    replace (pc_kb pc * 4 / (pc_me pc * pc_c pc * pc_c pc)) with (2 * 2 * K) by (unfold K; field; lra).
    replace (pc_kb pc * 1 / (pc_me pc * pc_c pc * pc_c pc)) with K by (unfold K; field; lra).
    assert (HK : 0 < K) by (unfold K; apply Rdiv_lt_0_compat; [lra|repeat apply Rmult_lt_0_compat; lra]).
    rewrite sqrt_mult, sqrt_square by lra.
    assert (0 < sqrt K) by now apply sqrt_lt_R0. field. repeat split; lra. }
  rewrite H4. pose proof (ep_A_pos pc P rho 1 Hr ltac:(lra)) as A1. set (a := ep_A pc rho 1) in *.
  pose proof (exp_pos (- (1 / 16))) as E1. pose proof (exp_pos (- (1 / 4))).
  assert (E2 : exp (- (1 / 16)) < exp 0) by (apply exp_increasing; lra). rewrite exp_0 in E2.
  assert (E3 : 3 / 4 <= exp (- (1 / 4))) by (pose proof (exp_ineq1_le (- (1 / 4))); lra).
  split; [apply Rmult_lt_0_compat; lra|].
  apply Rlt_le_trans with (a / 2 * 1); [apply Rmult_lt_compat_l; lra|].
  apply Rle_trans with (a * (3 / 4)); [lra|apply Rmult_le_compat_l; lra].
Qed.

(** a power law rising with density and temperature, and two states *)
Lemma C60_photons_example :
  let p := {| pl_kappa0 := Fin 1; pl_rho_exp := Fin 1; pl_temp_exp := Fin (7 / 2);
     pl_rho_ref := Fin 1; pl_rho_off := Fin 0; pl_temp_ref := Fin 1; pl_temp_off := Fin 0;
     pl_nu_exp := Fin (-3); pl_nu_ref := Fin 1; pl_nu_off := Fin 0; pl_do_stim_emit := false |} in
  powerlaw_domain (PP := pos_real) (NN := nonneg_real) (RR := a_real) p /\ growing nonneg_real p /\
  pos_real (Fin 1) /\ pos_real (Fin 2) /\ no_less (Fin 1) (Fin 2) /\ ~ no_less (Fin 2) (Fin 1).
Proof.
  cbv zeta. rewrite !er_no_less. unfold powerlaw_domain, growing, pos_real, nonneg_real, a_real.
  cbn [pl_kappa0 pl_rho_exp pl_temp_exp pl_nu_exp pl_rho_ref pl_temp_ref pl_nu_ref pl_rho_off pl_temp_off pl_nu_off pl_do_stim_emit].
  repeat split; try lra; eexists; try reflexivity; (split; [reflexivity|lra]).
Qed.
