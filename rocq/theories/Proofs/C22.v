(** C22. Unit-conversion wrappers form a monoid action. *)
From Coq Require Import Reals ZArith Lra.
From Verif Require Import Base.Outcome Base.Ops Inst.ER Inst.ERTac Inst.RConsts Model.Constants Model.RadTypes Model.PhotonApi
  Model.NeutrinoApi Model.GrayPhotons Model.ScatteringPhotons Model.NonCGSPhotons Model.NonCGSNeutrinos Spec.Units
  Spec.Covariance Proofs.UnitFacts Proofs.C19 Proofs.C21.
Open Scope R_scope.

Definition wrap_units (s : unit_system) : Units ER :=
  mk_units (Fin (us_time s)) (Fin (us_mass s)) (Fin (us_length s)) (Fin (us_temp s)).

Lemma unit_sys_pos : positive_system unit_sys.
Proof. unfold positive_system, unit_sys; cbn; lra. Qed.
Lemma prod_sys_pos s t : positive_system s -> positive_system t -> positive_system (prod_sys s t).
Proof. intros (A & B & C & D) (A' & B' & C' & D'). unfold positive_system, prod_sys; cbn; repeat split; pos. Qed.

Lemma unit_of_unit d : unit_of unit_sys d = 1.
Proof. unfold unit_of, unit_sys; cbn [us_time us_mass us_length us_temp]. rewrite !powerRZ_R1. ring. Qed.
Lemma unit_of_prod s t d : unit_of (prod_sys s t) d = unit_of s d * unit_of t d.
Proof.
  unfold unit_of, prod_sys; cbn [us_time us_mass us_length us_temp].
  rewrite !powerRZ_mult. ring.
Qed.
Lemma cgs_unit d x : in_cgs unit_sys d x = x.
Proof. unfold in_cgs. rewrite unit_of_unit. apply rescale_1. Qed.
Lemma code_unit d r : in_code unit_sys d r = r.
Proof. unfold in_code. destruct r; auto. rewrite unit_of_unit, Rinv_1, rescale_1. reflexivity. Qed.
Lemma cgs_prod s t d x : in_cgs (prod_sys s t) d x = in_cgs t d (in_cgs s d x).
Proof. unfold in_cgs. rewrite rescale_rescale, unit_of_prod. reflexivity. Qed.
Lemma code_prod s t d r : in_code (prod_sys s t) d r = in_code s d (in_code t d r).
Proof.
  unfold in_code. destruct r; auto. rewrite rescale_rescale, unit_of_prod, Rinv_mult.
  do 2 f_equal. ring.
Qed.

Lemma photon_dT_factor s pc o : positive_system s -> forall T nu,
  ph_DThermalDistributionOfTNuDT (NonCGSUnits pc o (wrap_units s)) T nu =
  in_code s d_intensity_nu_per_temp (ph_DThermalDistributionOfTNuDT o T nu).
Proof.
  intros Hs T nu. change (wrap_units s) with (sys_units s). unfold NonCGSUnits.
  cbn [ph_DThermalDistributionOfTNuDT]. cov s Hs. covr s Hs.
Qed.
Lemma neutrino_dT_factor s pc o : positive_system s -> forall T t nu,
  nu_DThermalDistributionOfTNuDT (NuNonCGSUnits pc o (wrap_units s)) T t nu =
  in_code s d_intensity_nu_per_temp (nu_DThermalDistributionOfTNuDT o T t nu).
Proof.
  intros Hs T t nu. change (wrap_units s) with (sys_units s). unfold NuNonCGSUnits.
  cbn [nu_DThermalDistributionOfTNuDT]. cov s Hs. covr s Hs.
Qed.

Ltac split_all := repeat match goal with |- _ /\ _ => split end.
Ltac use_cov H := 
  repeat match type of H with _ /\ _ => let H1 := fresh "K" in destruct H as [H1 H] end.

(** Wrapping with all units equal to one changes no scalar result. *)
Lemma C22_identity_photons_proof :
  forall pc o,
  photon_same_scalars o
    (NonCGSUnits pc o (mk_units (Fin 1) (Fin 1) (Fin 1) (Fin 1))).
Proof.
  intros pc o. pose proof (C19_covariant_proof unit_sys unit_sys_pos pc o) as H.
  pose proof (photon_dT_factor unit_sys pc o unit_sys_pos) as HD.
  cbn [us_time us_mass us_length us_temp unit_sys wrap_units] in H, HD.
  unfold wrap_units in HD; cbn [us_time us_mass us_length us_temp unit_sys] in HD.
  unfold photon_covariant in H. use_cov H. unfold photon_same_scalars. split_all; intros;
  try rewrite K; try rewrite K0; try rewrite K1; try rewrite K2; try rewrite K3; try rewrite K4;
  try rewrite K5; try rewrite K6; try rewrite K7; try rewrite K8; try rewrite K9; try rewrite H;
  try rewrite HD; rewrite ?cgs_unit, ?code_unit; reflexivity.
Qed.

Lemma C22_identity_neutrinos_proof :
  forall pc o,
  neutrino_same_scalars o
    (NuNonCGSUnits pc o (mk_units (Fin 1) (Fin 1) (Fin 1) (Fin 1))).
Proof.
  intros pc o. pose proof (C21_neutrino_covariant_proof unit_sys unit_sys_pos pc o) as H.
  pose proof (neutrino_dT_factor unit_sys pc o unit_sys_pos) as HD.
  cbn [us_time us_mass us_length us_temp unit_sys wrap_units] in H, HD.
  unfold wrap_units in HD; cbn [us_time us_mass us_length us_temp unit_sys] in HD.
  unfold neutrino_covariant in H. use_cov H. unfold neutrino_same_scalars. split_all; intros;
  try rewrite K; try rewrite K0; try rewrite K1; try rewrite K2; try rewrite K3; try rewrite K4;
  try rewrite K5; try rewrite K6; try rewrite K7; try rewrite K8; try rewrite K9; try rewrite H;
  try rewrite HD; rewrite ?cgs_unit, ?code_unit; reflexivity.
Qed.

Lemma C22_identity_scattering_proof :
  forall o,
  scattering_same o (NonCGSUnitsS o (mk_units (Fin 1) (Fin 1) (Fin 1) (Fin 1))).
Proof.
  intros o. pose proof (C21_scattering_covariant_proof unit_sys unit_sys_pos o) as H.
  cbn [us_time us_mass us_length us_temp unit_sys] in H.
  unfold scattering_covariant in H. use_cov H. unfold scattering_same. split_all; intros;
  try rewrite K; try rewrite K0; try rewrite H; rewrite ?cgs_unit, ?code_unit; reflexivity.
Qed.

(** Wrapping with units t, and the result with units s (given in units of the
    first wrapper), equals wrapping once with the componentwise product. *)
Lemma C22_composition_photons_proof :
  forall pc o s t, positive_system s -> positive_system t ->
  photon_same_scalars
    (NonCGSUnits pc o (mk_units (Fin (us_time s * us_time t)) (Fin (us_mass s * us_mass t))
                                (Fin (us_length s * us_length t)) (Fin (us_temp s * us_temp t))))
    (NonCGSUnits pc
       (NonCGSUnits pc o (mk_units (Fin (us_time t)) (Fin (us_mass t)) (Fin (us_length t)) (Fin (us_temp t))))
       (mk_units (Fin (us_time s)) (Fin (us_mass s)) (Fin (us_length s)) (Fin (us_temp s)))).
Proof.
  intros pc o s t Hs Ht.
  pose proof (C19_covariant_proof _ (prod_sys_pos s t Hs Ht) pc o) as H.
  pose proof (photon_dT_factor _ pc o (prod_sys_pos s t Hs Ht)) as HD.
  change (mk_units (Fin (us_time (prod_sys s t))) _ _ _) with (wrap_units (prod_sys s t)) in H.
  change (mk_units (Fin (us_time s * us_time t)) _ _ _) with (wrap_units (prod_sys s t)).
  unfold photon_covariant in H. use_cov H.
  unfold photon_same_scalars. split_all; intros;
  try rewrite K; try rewrite K0; try rewrite K1; try rewrite K2; try rewrite K3; try rewrite K4;
  try rewrite K5; try rewrite K6; try rewrite K7; try rewrite K8; try rewrite K9; try rewrite H;
  try rewrite HD; clear K K0 K1 K2 K3 K4 K5 K6 K7 K8 K9 H HD; rewrite ?cgs_prod, ?code_prod.
  all: change (mk_units (Fin (us_time t)) _ _ _) with (wrap_units t);
    change (mk_units (Fin (us_time s)) _ _ _) with (wrap_units s).
  all: pose proof (C19_covariant_proof s Hs pc (NonCGSUnits pc o (wrap_units t))) as H;
    pose proof (C19_covariant_proof t Ht pc o) as H';
    pose proof (photon_dT_factor s pc (NonCGSUnits pc o (wrap_units t)) Hs) as HD;
    pose proof (photon_dT_factor t pc o Ht) as HD';
    change (mk_units (Fin (us_time t)) _ _ _) with (wrap_units t) in H';
    change (mk_units (Fin (us_time s)) _ _ _) with (wrap_units s) in H;
    unfold photon_covariant in H, H'; use_cov H; use_cov H'.
  - rewrite K, K10; reflexivity.
  - rewrite K0, K11; reflexivity.
  - rewrite K1, K12; reflexivity.
  - rewrite K2, K13; reflexivity.
  - rewrite K3, K14; reflexivity.
  - rewrite K4, K15; reflexivity.
  - rewrite K5, K16; reflexivity.
  - rewrite HD, HD'; reflexivity.
  - rewrite K6, K17; reflexivity.
  - rewrite K7, K18; reflexivity.
  - rewrite K8, K19; reflexivity.
  - rewrite K9, K20; reflexivity.
  - rewrite H, H'; reflexivity.
Qed.

Lemma C22_composition_neutrinos_proof :
  forall pc o s t, positive_system s -> positive_system t ->
  neutrino_same_scalars
    (NuNonCGSUnits pc o (mk_units (Fin (us_time s * us_time t)) (Fin (us_mass s * us_mass t))
                                  (Fin (us_length s * us_length t)) (Fin (us_temp s * us_temp t))))
    (NuNonCGSUnits pc
       (NuNonCGSUnits pc o (mk_units (Fin (us_time t)) (Fin (us_mass t)) (Fin (us_length t)) (Fin (us_temp t))))
       (mk_units (Fin (us_time s)) (Fin (us_mass s)) (Fin (us_length s)) (Fin (us_temp s)))).
Proof.
  intros pc o s t Hs Ht.
  pose proof (C21_neutrino_covariant_proof _ (prod_sys_pos s t Hs Ht) pc o) as H.
  pose proof (neutrino_dT_factor _ pc o (prod_sys_pos s t Hs Ht)) as HD.
  change (mk_units (Fin (us_time (prod_sys s t))) _ _ _) with (wrap_units (prod_sys s t)) in H.
  change (mk_units (Fin (us_time s * us_time t)) _ _ _) with (wrap_units (prod_sys s t)).
  unfold neutrino_covariant in H. use_cov H.
  unfold neutrino_same_scalars. split_all; intros;
  try rewrite K; try rewrite K0; try rewrite K1; try rewrite K2; try rewrite K3; try rewrite K4;
  try rewrite K5; try rewrite K6; try rewrite K7; try rewrite K8; try rewrite K9; try rewrite H;
  try rewrite HD; clear K K0 K1 K2 K3 K4 K5 K6 K7 K8 K9 H HD; rewrite ?cgs_prod, ?code_prod.
  all: change (mk_units (Fin (us_time t)) _ _ _) with (wrap_units t);
    change (mk_units (Fin (us_time s)) _ _ _) with (wrap_units s).
  all: pose proof (C21_neutrino_covariant_proof s Hs pc (NuNonCGSUnits pc o (wrap_units t))) as H;
    pose proof (C21_neutrino_covariant_proof t Ht pc o) as H';
    pose proof (neutrino_dT_factor s pc (NuNonCGSUnits pc o (wrap_units t)) Hs) as HD;
    pose proof (neutrino_dT_factor t pc o Ht) as HD';
    change (mk_units (Fin (us_time t)) _ _ _) with (wrap_units t) in H';
    change (mk_units (Fin (us_time s)) _ _ _) with (wrap_units s) in H;
    unfold neutrino_covariant in H, H'; use_cov H; use_cov H'.
  - rewrite K, K10; reflexivity.
  - rewrite K0, K11; reflexivity.
  - rewrite K1, K12; reflexivity.
  - rewrite K2, K13; reflexivity.
  - rewrite K3, K14; reflexivity.
  - rewrite K4, K15; reflexivity.
  - rewrite K5, K16; reflexivity.
  - rewrite HD, HD'; reflexivity.
  - rewrite K6, K17; reflexivity.
  - rewrite K7, K18; reflexivity.
  - rewrite K8, K19; reflexivity.
  - rewrite K9, K20; reflexivity.
  - rewrite H, H'; reflexivity.
Qed.

(** The reported runtime constants do not compose: a doubly wrapped opacity reports
    the constants of its outer wrapper only, so the speed of light it reports is
    wrong whenever the inner units do not keep it unchanged. *)
Lemma C22_nested_constants_refuted_proof :
  forall pc c o s t, positive_system s -> positive_system t -> pc_c pc = Fin c -> 0 < c ->
  us_time t <> us_length t ->
  let once := NonCGSUnits pc o (mk_units (Fin (us_time s * us_time t)) (Fin (us_mass s * us_mass t))
                (Fin (us_length s * us_length t)) (Fin (us_temp s * us_temp t))) in
  let twice := NonCGSUnits pc
       (NonCGSUnits pc o (mk_units (Fin (us_time t)) (Fin (us_mass t)) (Fin (us_length t)) (Fin (us_temp t))))
       (mk_units (Fin (us_time s)) (Fin (us_mass s)) (Fin (us_length s)) (Fin (us_temp s))) in
  r_c (ph_RuntimePC once) = Fin (c * (us_time s * us_time t) / (us_length s * us_length t)) /\
  r_c (ph_RuntimePC twice) = Fin (c * us_time s / us_length s) /\
  r_c (ph_RuntimePC twice) <> r_c (ph_RuntimePC once).
Proof.
  intros pc c o s t (A & B & C & D) (A' & B' & C' & D') Hc Hc0 Hne once twice.
  assert (E1 : r_c (ph_RuntimePC once) = Fin (c * (us_time s * us_time t) / (us_length s * us_length t))).
  { unfold once, NonCGSUnits, RuntimePC_units; cbn [ph_RuntimePC r_c un_time un_length mk_units].
    rewrite Hc. er. reflexivity. }
  assert (E2 : r_c (ph_RuntimePC twice) = Fin (c * us_time s / us_length s)).
  { unfold twice, NonCGSUnits, RuntimePC_units; cbn [ph_RuntimePC r_c un_time un_length mk_units].
    rewrite Hc. er. reflexivity. }
  split; [exact E1|]. split; [exact E2|]. rewrite E1, E2. intros E. injection E as E.
  apply Hne. apply (f_equal (fun z => z * (us_length s * us_length t) / (c * us_time s))) in E.
  replace (c * us_time s / us_length s * (us_length s * us_length t) / (c * us_time s))
    with (us_length t) in E by (field; repeat split; nz).
  replace (c * (us_time s * us_time t) / (us_length s * us_length t) *
    (us_length s * us_length t) / (c * us_time s)) with (us_time t) in E by (field; repeat split; nz).
  lra.
Qed.

(** Minutes and metres inside, hours and kilometres outside. *)
Lemma C22_example :
  positive_system {| us_time := 60; us_mass := 1; us_length := 1000; us_temp := 1 |} /\
  positive_system {| us_time := 60; us_mass := 1000; us_length := 100; us_temp := 11604 |} /\ 60 <> 100.
Proof. unfold positive_system; cbn; lra. Qed.
