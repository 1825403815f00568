(** C40. The tabulated neutrino opacity against its source. *)
From Coq Require Import Reals ZArith List Lia Lra Bool.
From Verif Require Import Base.Outcome Base.Ops Inst.ER Inst.ERTac Inst.RConsts Model.Constants Model.RadTypes Model.NeutrinoApi
  Model.ThermalNeutrinos Model.OpacNeutrinos Model.Spiner Model.SpinerNeutrinos Spec.Nonneg Spec.Opacities Spec.Tables Spec.Tabulated
  Proofs.ArrayFacts Proofs.InterpFacts Proofs.TableFacts Proofs.FillFacts Proofs.ModelFacts Proofs.SignLaws Proofs.MeanTotal
  Proofs.SpinerFacts Proofs.SpinerExact.
Import ListNotations.
Open Scope R_scope.

(** the tables the constructor makes from [o] on grids of log10 density (g/cm^3), log10
    temperature (K), electron fraction and log10 energy (MeV) *)
Definition tabulated (pc : PhysConst R) (o : NuOpac ER) (gR gT gY ge : rgrid) : result (SpinerTables ER) :=
  sp_tabulate (finpc pc) o (Fin (rg_lo gR)) (Fin (rg_hi gR)) (rg_n gR) (Fin (rg_lo gT)) (Fin (rg_hi gT)) (rg_n gT)
    (Fin (rg_lo gY)) (Fin (rg_hi gY)) (rg_n gY) (Fin (rg_lo ge)) (Fin (rg_hi ge)) (rg_n ge).

(** [s] answers at every node and for every species with the numbers of [f], guarded *)
Definition reproduces (pc : PhysConst R) (gR gT gY ge : rgrid) (f : nu_functions) (s : NuOpac ER) : Prop :=
  forall i j k l rho rho' T T' Ye nu nu' type,
  density_node gR i rho rho' -> temperature_node gT j T T' -> fraction_node gY k Ye -> frequency_node pc ge l nu nu' ->
  neutrino_species type ->
  nu_Absorption s (Fin rho') (Fin T') (Fin Ye) type (Fin nu') = Ok (Fin (guarded (nf_alpha f rho T Ye type nu))) /\
  nu_AngleAvgAbsorption s (Fin rho') (Fin T') (Fin Ye) type (Fin nu') = Ok (Fin (guarded (nf_alpha f rho T Ye type nu))) /\
  nu_EmissivityPerNuOmega s (Fin rho') (Fin T') (Fin Ye) type (Fin nu') = Ok (Fin (guarded (nf_j f rho T Ye type nu))) /\
  nu_EmissivityPerNu s (Fin rho') (Fin T') (Fin Ye) type (Fin nu') = Ok (Fin (4 * PI * guarded (nf_j f rho T Ye type nu))) /\
  nu_Emissivity s (Fin rho') (Fin T') (Fin Ye) type = Ok (Fin (guarded (nf_J f rho T Ye type))) /\
  nu_NumberEmissivity s (Fin rho') (Fin T') (Fin Ye) type = Ok (Fin (guarded (nf_N f rho T Ye type))).

(** the same functions, with the absorption coefficient taken at a temperature divided by
    the number of kelvin in an MeV *)
Definition absorption_at_MeV (f : nu_functions) : nu_functions := {|
  nf_alpha := fun rho T Ye type nu => nf_alpha f rho (T / kelvin_per_MeV) Ye type nu;
  nf_j := nf_j f; nf_J := nf_J f; nf_N := nf_N f |}.

Lemma species_idx type : neutrino_species type ->
  (0 <= RadType2Idx type < 3)%Z /\ type_of (RadType2Idx type) = type.
Proof. intros [->|[->| ->]]; cbn; split; (lia || reflexivity). Qed.

(** The constructor succeeds for every source that computes real numbers and every grid; the
    table reproduces, at every node and for every species, the source's emissivities and
    number emissivity, and the source's absorption coefficient at the wrong temperature: the
    node's in MeV, where the source takes kelvin. *)
Lemma C40_nodes_proof :
  forall (pc : PhysConst R) (n : Z) (o : NuOpac ER) (f : nu_functions) (gR gT gY ge : rgrid),
  0 < pc_h pc -> 0 < pc_eV pc -> computes o f -> rg_ok gR -> rg_ok gT -> rg_ok gY -> rg_ok ge ->
  exists t, tabulated pc o gR gT gY ge = Ok t /\
  reproduces pc gR gT gY ge (absorption_at_MeV f) (SpinerOpacity n (finpc pc) t).
Proof.
  intros pc n o f gR gT gY ge Hh He HC OR OT OY OE. pose proof kelvin_pos as Kp. pose proof (hz_pos pc Hh He) as Hz.
  destruct (tabulate_exact pc Hh He o f HC gR gT gY ge OR OT OY OE) as (t & Et & H1 & H2 & H3 & H4 & _).
  exists t. split; [exact Et|].
  intros i j k l rho rho' T T' Ye nu nu' type (Hi & Er & Pr & Qr) (Hj & ET & PT & QT) (Hk & ->) (Hl & En & Pn & Qn) Hs.
  destruct (species_idx type Hs) as [Ht Ety]. pose proof (shifted_ok gT OT) as OT'.
  assert (PT' : 0 <= T' / kelvin_per_MeV) by (apply Rmult_le_pos; [exact PT|left; now apply Rinv_0_lt_compat]).
  assert (Pn' : 0 <= nu' / hz_per_MeV pc) by (apply Rmult_le_pos; [exact Pn|left; now apply Rinv_0_lt_compat]).
  assert (QR' : log10 (guarded rho') = rg_node gR i) by (rewrite guarded_nonneg, Qr, Er by assumption; apply log10_pow10).
  assert (QT' : log10 (guarded (T' / kelvin_per_MeV)) = rg_node (shifted gT) j).
  { rewrite guarded_nonneg, QT, ET by assumption. rewrite <- shifted_pow. apply log10_pow10. }
  assert (QE' : log10 (guarded (nu' / hz_per_MeV pc)) = rg_node ge l).
  { rewrite guarded_nonneg, Qn, En by assumption.
    replace (hz_per_MeV pc * pow10 (rg_node ge l) / hz_per_MeV pc) with (pow10 (rg_node ge l)) by (field; lra).
    apply log10_pow10. }
  assert (W5 : Forall rd_ok (axes5 gR (shifted gT) gY 3 ge)) by (apply axes5_ok; assumption).
  assert (W4 : Forall rd_ok (axes4 gR (shifted gT) gY 3)) by (apply axes4_ok; assumption).
  assert (A5 : at_node (query5 pc rho' T' (rg_node gY k) type nu') (axes5 gR (shifted gT) gY 3 ge) [i; j; k; RadType2Idx type; l]).
  { cbn -[RadType2Idx]. auto 12. }
  assert (A4 : at_node (query4 rho' T' (rg_node gY k) type) (axes4 gR (shifted gT) gY 3) [i; j; k; RadType2Idx type]).
  { cbn -[RadType2Idx]. auto 12. }
  pose proof (proj1 (at_node_ok _ _ _ W5 A5)) as Q5. pose proof (proj1 (at_node_ok _ _ _ W4 A4)) as Q4.
  assert (L1 : sp_lookup5 (finpc pc) (sp_alpha t) (Fin rho') (Fin T') (Fin (rg_node gY k)) type (Fin nu') =
    Ok (Fin (guarded (nf_alpha f rho (T / kelvin_per_MeV) (rg_node gY k) type nu)))).
  { rewrite (lookup5_mlin pc Hh He _ _ _ _ _ _ _ _ H1 W5 Q5), (mlin_node _ _ _ _ W5 A5). unfold stored5. cbn [nth].
    rewrite Ety, pow10_log10 by apply guarded_pos. rewrite <- Er, <- ET, <- En.
    replace (/ kelvin_per_MeV * T) with (T / kelvin_per_MeV) by (field; lra). reflexivity. }
  assert (L2 : sp_lookup5 (finpc pc) (sp_jnu t) (Fin rho') (Fin T') (Fin (rg_node gY k)) type (Fin nu') =
    Ok (Fin (guarded (nf_j f rho T (rg_node gY k) type nu)))).
  { rewrite (lookup5_mlin pc Hh He _ _ _ _ _ _ _ _ H2 W5 Q5), (mlin_node _ _ _ _ W5 A5). unfold stored5. cbn [nth].
    rewrite Ety, pow10_log10 by apply guarded_pos. rewrite <- Er, <- ET, <- En, Rmult_1_l. reflexivity. }
  assert (L3 : sp_lookup4 (sp_J t) (Fin rho') (Fin T') (Fin (rg_node gY k)) type =
    Ok (Fin (guarded (nf_J f rho T (rg_node gY k) type)))).
  { rewrite (lookup4_mlin _ _ _ _ _ _ _ H3 W4 Q4), (mlin_node _ _ _ _ W4 A4). unfold stored4. cbn [nth].
    rewrite Ety, pow10_log10 by apply guarded_pos. now rewrite <- Er, <- ET. }
  assert (L4 : sp_lookup4 (sp_JYe t) (Fin rho') (Fin T') (Fin (rg_node gY k)) type =
    Ok (Fin (guarded (nf_N f rho T (rg_node gY k) type)))).
  { rewrite (lookup4_mlin _ _ _ _ _ _ _ H4 W4 Q4), (mlin_node _ _ _ _ W4 A4). unfold stored4. cbn [nth].
    rewrite Ety, pow10_log10 by apply guarded_pos. now rewrite <- Er, <- ET. }
  cbn [nu_Absorption nu_AngleAvgAbsorption nu_EmissivityPerNuOmega nu_EmissivityPerNu nu_Emissivity nu_NumberEmissivity
    SpinerOpacity absorption_at_MeV nf_alpha nf_j nf_J nf_N].
  unfold sp_EmissivityPerNu, sp_Absorption, sp_EmissivityPerNuOmega, sp_Emissivity, sp_NumberEmissivity.
  rewrite L1, L2, L3, L4. cbn [bind]. rewrite fin_ofZ, fin_pi, !fin_mul. auto 10.
Qed.

(** If the source's absorption coefficient does not depend on the temperature, the table
    reproduces the source. *)
Lemma C40_temperature_free_proof :
  forall (pc : PhysConst R) (n : Z) (o : NuOpac ER) (f : nu_functions) (gR gT gY ge : rgrid),
  0 < pc_h pc -> 0 < pc_eV pc -> computes o f -> rg_ok gR -> rg_ok gT -> rg_ok gY -> rg_ok ge ->
  (forall rho T T' Ye type nu, 0 < rho -> 0 < T -> 0 < T' -> 0 < nu -> neutrino_species type ->
     nf_alpha f rho T Ye type nu = nf_alpha f rho T' Ye type nu) ->
  exists t, tabulated pc o gR gT gY ge = Ok t /\ reproduces pc gR gT gY ge f (SpinerOpacity n (finpc pc) t).
Proof.
  intros pc n o f gR gT gY ge Hh He HC OR OT OY OE HT. pose proof kelvin_pos as Kp. pose proof (hz_pos pc Hh He) as Hz.
  destruct (C40_nodes_proof pc n o f gR gT gY ge Hh He HC OR OT OY OE) as (t & Et & H). exists t. split; [exact Et|].
  intros i j k l rho rho' T T' Ye nu nu' type D1 D2 D3 D4 Hs.
  pose proof (H i j k l rho rho' T T' Ye nu nu' type D1 D2 D3 D4 Hs) as G.
  cbn [absorption_at_MeV nf_alpha nf_j nf_J nf_N] in G. rewrite (HT rho (T / kelvin_per_MeV) T) in G; [exact G| | | | |exact Hs].
  - destruct D1 as (_ & -> & _). apply pow10_pos.
  - destruct D2 as (_ & -> & _). apply Rdiv_lt_0_compat; [apply pow10_pos|exact Kp].
  - destruct D2 as (_ & -> & _). apply pow10_pos.
  - destruct D4 as (_ & -> & _). apply Rmult_lt_0_compat; [exact Hz|apply pow10_pos].
Qed.

(** the numbers an opacity answers with *)
Definition answer (r : result ER) : R := match r with Ok (Fin x) => x | _ => 0 end.
Definition functions_of (o : NuOpac ER) : nu_functions := {|
  nf_alpha := fun rho T Ye type nu => answer (nu_Absorption o (Fin rho) (Fin T) (Fin Ye) type (Fin nu));
  nf_j := fun rho T Ye type nu => answer (nu_EmissivityPerNuOmega o (Fin rho) (Fin T) (Fin Ye) type (Fin nu));
  nf_J := fun rho T Ye type => answer (nu_Emissivity o (Fin rho) (Fin T) (Fin Ye) type);
  nf_N := fun rho T Ye type => answer (nu_NumberEmissivity o (Fin rho) (Fin T) (Fin Ye) type) |}.

Lemma nonneg_computes o : neutrino_nonneg pos_real nonneg_real nonneg_real (fun _ _ => True) o ->
  computes o (functions_of o).
Proof.
  intros H rho T Ye type nu Hr HT Hn _.
  destruct (H (Fin rho) (Fin T) (Fin Ye) type (Fin nu)) as (A1 & _ & A2 & _ & A3 & A4 & _);
    [exists rho; split; [reflexivity|lra]|exists T; auto|exists nu; auto|exact I|].
  cbn [functions_of nf_alpha nf_j nf_J nf_N].
  destruct A1 as (? & -> & r1 & -> & _), A2 as (? & -> & r2 & -> & _), A3 as (? & -> & r3 & -> & _), A4 as (? & -> & r4 & -> & _).
  cbn [answer]. auto.
Qed.

(** Each of the library's closed-form opacities computes real numbers; the gray and BRT
    absorption coefficients do not depend on the temperature, so their tables reproduce
    them. *)
Lemma C40_sources_proof :
  forall (pc : PhysConst R) (m : Z) (ns : positive) (o : NuOpac ER) (gR gT gY ge : rgrid),
  positive_consts pc ->
  (exists kappa, 0 <= kappa /\ o = NuGrayOpacity (Zpos ns) (finpc pc) (Fin kappa)) \/ o = BRTOpacity (Zpos ns) (finpc pc) ->
  rg_ok gR -> rg_ok gT -> rg_ok gY -> rg_ok ge ->
  exists t, tabulated pc o gR gT gY ge = Ok t /\ reproduces pc gR gT gY ge (functions_of o) (SpinerOpacity m (finpc pc) t).
Proof.
  intros pc m ns o gR gT gY ge Hp Ho OR OT OY OE.
  assert (Hp' := Hp). unfold positive_consts in Hp'.
  assert (CC : pos_consts pos_real a_real (finpc pc)).
  { unfold pos_consts, pos_real, a_real, finpc, pc_map. cbn. repeat match goal with |- _ /\ _ => split end; eexists; (reflexivity || (split; [reflexivity|tauto])). }
  apply C40_temperature_free_proof; auto; try tauto.
  - apply nonneg_computes. destruct Ho as [(kappa & Hk & ->)| ->].
    + apply (nugray_nonneg er_laws (finpc pc) CC ns). exists kappa. auto.
    + apply (brt_nonneg er_laws (finpc pc) CC ns).
  - intros rho T T' Ye type nu _ _ _ _ _. destruct Ho as [(kappa & Hk & ->)| ->]; reflexivity.
Qed.

(** The claim itself fails: a source whose absorption coefficient is the temperature (it
    computes real numbers) is not reproduced, at any node of any table. *)
Definition thermometer : NuOpac ER :=
  nu_opacity 3 (finpc cgsR) (fun _ temp _ _ _ => temp) (fun _ temp _ _ _ => temp) (fun _ _ _ _ _ => Fin 0)
    (fun _ _ _ _ _ => Fin 0) (fun _ _ _ _ => Fin 0) (fun _ _ _ _ => Fin 0).
Definition thermometer_functions : nu_functions := {|
  nf_alpha := fun _ T _ _ _ => T; nf_j := fun _ _ _ _ _ => 0; nf_J := fun _ _ _ _ => 0; nf_N := fun _ _ _ _ => 0 |}.

Lemma C40_refuted_proof :
  computes thermometer thermometer_functions /\
  forall (n : Z) (gR gT gY ge : rgrid), rg_ok gR -> rg_ok gT -> rg_ok gY -> rg_ok ge ->
  exists t, tabulated cgsR thermometer gR gT gY ge = Ok t /\
  forall i j k l rho rho' T T' Ye nu nu' type,
  density_node gR i rho rho' -> temperature_node gT j T T' -> fraction_node gY k Ye -> frequency_node cgsR ge l nu nu' ->
  neutrino_species type ->
  nu_Absorption (SpinerOpacity n (finpc cgsR) t) (Fin rho') (Fin T') (Fin Ye) type (Fin nu') = Ok (Fin (T / kelvin_per_MeV + tiny)) /\
  T / kelvin_per_MeV + tiny <> guarded (nf_alpha thermometer_functions rho T Ye type nu).
Proof.
  assert (HC : computes thermometer thermometer_functions) by (intros rho T Ye type nu _ _ _ _; cbn; auto).
  split; [exact HC|]. intros n gR gT gY ge OR OT OY OE. pose proof kelvin_pos as Kp.
  pose proof cgs_pos as P. unfold positive_consts in P.
  destruct (C40_nodes_proof cgsR n thermometer thermometer_functions gR gT gY ge) as (t & Et & H); try tauto.
  exists t. split; [exact Et|]. intros i j k l rho rho' T T' Ye nu nu' type D1 D2 D3 D4 Hs.
  destruct (H i j k l rho rho' T T' Ye nu nu' type D1 D2 D3 D4 Hs) as (A & _).
  assert (PT : 0 < T) by (destruct D2 as (_ & -> & _); apply pow10_pos).
  assert (PT' : 0 < T / kelvin_per_MeV) by now apply Rdiv_lt_0_compat.
  rewrite A. cbn [absorption_at_MeV thermometer_functions nf_alpha]. rewrite !guarded_nonneg by lra.
  split; [reflexivity|]. intros E. assert (T / kelvin_per_MeV = T) by lra.
  assert (T = T * kelvin_per_MeV) by (rewrite <- H0 at 2; field; lra). unfold kelvin_per_MeV in H1. lra.
Qed.

(** Every lookup for a neutrino species stays inside the table and returns a positive
    number, at any real state (inside the table or not) whose distance from the table is a
    number of cells an int can hold. *)
Lemma C40_total_proof :
  forall (pc : PhysConst R) (n : Z) (o : NuOpac ER) (f : nu_functions) (gR gT gY ge : rgrid),
  0 < pc_h pc -> 0 < pc_eV pc -> computes o f -> rg_ok gR -> rg_ok gT -> rg_ok gY -> rg_ok ge ->
  exists t, tabulated pc o gR gT gY ge = Ok t /\
  let s := SpinerOpacity n (finpc pc) t in
  forall rho T Ye type nu, neutrino_species type ->
  rg_fits gR (log10 (guarded rho)) -> rg_fits gT (log10 (kelvin_per_MeV * guarded (T / kelvin_per_MeV))) ->
  rg_fits gY Ye -> rg_fits ge (log10 (guarded (nu / hz_per_MeV pc))) ->
  exists a j J N, 0 < a /\ 0 < j /\ 0 < J /\ 0 < N /\
  nu_Absorption s (Fin rho) (Fin T) (Fin Ye) type (Fin nu) = Ok (Fin a) /\
  nu_AngleAvgAbsorption s (Fin rho) (Fin T) (Fin Ye) type (Fin nu) = Ok (Fin a) /\
  nu_EmissivityPerNuOmega s (Fin rho) (Fin T) (Fin Ye) type (Fin nu) = Ok (Fin j) /\
  nu_EmissivityPerNu s (Fin rho) (Fin T) (Fin Ye) type (Fin nu) = Ok (Fin (4 * PI * j)) /\
  nu_Emissivity s (Fin rho) (Fin T) (Fin Ye) type = Ok (Fin J) /\
  nu_NumberEmissivity s (Fin rho) (Fin T) (Fin Ye) type = Ok (Fin N).
Proof.
  intros pc n o f gR gT gY ge Hh He HC OR OT OY OE. pose proof kelvin_pos as Kp.
  destruct (tabulate_exact pc Hh He o f HC gR gT gY ge OR OT OY OE) as (t & Et & H1 & H2 & H3 & H4 & _).
  exists t. split; [exact Et|]. intros s rho T Ye type nu Hs F1 F2 F3 F4.
  pose proof (proj1 (species_idx type Hs)) as Ht. pose proof (shifted_ok gT OT) as OT'.
  assert (F2' : rg_fits (shifted gT) (log10 (guarded (T / kelvin_per_MeV)))).
  { revert F2. unfold rg_fits. rewrite shifted_dx. cbn [shifted rg_lo].
    replace (log10 (kelvin_per_MeV * guarded (T / kelvin_per_MeV)) - rg_lo gT)
      with (log10 (guarded (T / kelvin_per_MeV)) - (rg_lo gT + log10 (/ kelvin_per_MeV))); [auto|].
    unfold log10. rewrite ln_mult, ln_Rinv by (auto using guarded_pos). unfold Rdiv. ring. }
  assert (W5 : Forall rd_ok (axes5 gR (shifted gT) gY 3 ge)) by (apply axes5_ok; assumption).
  assert (W4 : Forall rd_ok (axes4 gR (shifted gT) gY 3)) by (apply axes4_ok; assumption).
  assert (Q5 : query_ok (query5 pc rho T Ye type nu) (axes5 gR (shifted gT) gY 3 ge)) by (cbn -[RadType2Idx]; auto 10).
  assert (Q4 : query_ok (query4 rho T Ye type) (axes4 gR (shifted gT) gY 3)) by (cbn -[RadType2Idx]; auto 10).
  pose proof (lookup5_mlin pc Hh He _ _ _ _ _ _ _ _ H1 W5 Q5) as L1.
  pose proof (lookup5_mlin pc Hh He _ _ _ _ _ _ _ _ H2 W5 Q5) as L2.
  pose proof (lookup4_mlin _ _ _ _ _ _ _ H3 W4 Q4) as L3. pose proof (lookup4_mlin _ _ _ _ _ _ _ H4 W4 Q4) as L4.
  do 4 eexists. do 4 (split; [apply pow10_pos|]).
  cbn [s nu_Absorption nu_AngleAvgAbsorption nu_EmissivityPerNuOmega nu_EmissivityPerNu nu_Emissivity nu_NumberEmissivity SpinerOpacity].
  unfold sp_EmissivityPerNu, sp_Absorption, sp_EmissivityPerNuOmega, sp_Emissivity, sp_NumberEmissivity.
  rewrite L1, L2, L3, L4. cbn [bind]. rewrite fin_ofZ, fin_pi, !fin_mul. auto 10.
Qed.

(** ** species that have no table *)
Lemma interp_not_error {T} {O : Ops T} (cs : list (coord T)) dims d acc : interp cs dims d acc <> Error.
Proof.
  revert dims acc. induction cs as [|[x|i] cs IH]; intros [|[m [g|]] ds] acc; cbn [interp]; try discriminate; auto.
  - unfold at_flat. destruct (_ <? 0)%Z; [discriminate|]. unfold load. destruct (nth_error _ _); discriminate.
  - unfold g_weights, g_index. destruct (Otrunc _); [|discriminate]. cbn [bind].
    destruct (interp cs ds d _) eqn:E1; [|now apply IH in E1|discriminate]. cbn [bind].
    destruct (interp cs ds d (_ + (_ + 1))) eqn:E2; [discriminate|now apply IH in E2|discriminate].
Qed.

Section OffTable.
  Context (g : rgrid) (OK : rg_ok g) (cs : list rcoord) (ds : list rdim) (d : list ER) (acc : Z).
  Lemma corner_low x : rg_fits g x ->
    interp (map coord_of cs) (map dim_of ds) d (acc * rg_n g + rg_cell g x) = UB ->
    interp (map coord_of (Pos x :: cs)) (map dim_of (Axis g :: ds)) d acc = UB.
  Proof. intros F E. cbn [map coord_of dim_of interp]. rewrite weights_of by assumption. cbn [bind]. now rewrite E. Qed.
  Lemma corner_high x : rg_fits g x ->
    interp (map coord_of cs) (map dim_of ds) d (acc * rg_n g + (rg_cell g x + 1)) = UB ->
    interp (map coord_of (Pos x :: cs)) (map dim_of (Axis g :: ds)) d acc = UB.
  Proof.
    intros F E. cbn [map coord_of dim_of interp]. rewrite weights_of by assumption. cbn [bind]. rewrite E.
    destruct (interp (map coord_of cs) (map dim_of ds) d (acc * rg_n g + rg_cell g x)) eqn:E1; [reflexivity| |reflexivity].
    now apply interp_not_error in E1.
  Qed.
  Lemma cell_first : rg_cell g (rg_lo g) = 0%Z.
  Proof.
    destruct OK as [_ N]. rewrite lo_node. destruct (cell_node g OK 0 ltac:(lia)) as [[E _]|[E _]]; [exact E|].
    pose proof (cell_range g OK (rg_node g 0)). lia.
  Qed.
  Lemma cell_last : (rg_cell g (rg_hi g) + 1 = rg_n g - 1)%Z.
  Proof.
    destruct OK as [_ N]. rewrite hi_node by exact OK. pose proof (cell_range g OK (rg_node g (rg_n g - 1))).
    destruct (cell_node g OK (rg_n g - 1) ltac:(lia)) as [[E _]|[E _]]; lia.
  Qed.
  Lemma fits_lo : rg_fits g (rg_lo g).
  Proof. apply inside_fits; [exact OK|]. destruct OK. unfold rg_inside. lra. Qed.
  Lemma fits_hi : rg_fits g (rg_hi g).
  Proof. apply inside_fits; [exact OK|]. destruct OK. unfold rg_inside. lra. Qed.
End OffTable.

Lemma at_flat_off (d : list ER) c : (c < 0 \/ Z.of_nat (length d) <= c)%Z -> at_flat d c = UB.
Proof.
  intros H. unfold at_flat. destruct (Z.ltb_spec c 0); [reflexivity|]. apply load_ub. lia.
Qed.

(** "Never reads outside the table for the species it accepts" fails: the lookups do not
    check the species, and for any source and any grids, PHOTON at the last node and TRACER
    at the first node of the table read outside its storage, in all six calls. *)
Lemma C40_species_refuted_proof :
  forall (pc : PhysConst R) (n : Z) (o : NuOpac ER) (f : nu_functions) (gR gT gY ge : rgrid),
  0 < pc_h pc -> 0 < pc_eV pc -> computes o f -> rg_ok gR -> rg_ok gT -> rg_ok gY -> rg_ok ge ->
  exists t, tabulated pc o gR gT gY ge = Ok t /\
  let s := SpinerOpacity n (finpc pc) t in
  forall last rho rho' T T' Ye nu nu' (type := if last : bool then PHOTON else TRACER)
    (node := fun g => if last : bool then (rg_n g - 1)%Z else 0%Z),
  density_node gR (node gR) rho rho' -> temperature_node gT (node gT) T T' -> fraction_node gY (node gY) Ye ->
  frequency_node pc ge (node ge) nu nu' ->
  nu_Absorption s (Fin rho') (Fin T') (Fin Ye) type (Fin nu') = UB /\
  nu_AngleAvgAbsorption s (Fin rho') (Fin T') (Fin Ye) type (Fin nu') = UB /\
  nu_EmissivityPerNuOmega s (Fin rho') (Fin T') (Fin Ye) type (Fin nu') = UB /\
  nu_EmissivityPerNu s (Fin rho') (Fin T') (Fin Ye) type (Fin nu') = UB /\
  nu_Emissivity s (Fin rho') (Fin T') (Fin Ye) type = UB /\
  nu_NumberEmissivity s (Fin rho') (Fin T') (Fin Ye) type = UB.
Proof.
  intros pc n o f gR gT gY ge Hh He HC OR OT OY OE. pose proof kelvin_pos as Kp. pose proof (hz_pos pc Hh He) as Hz.
  destruct (tabulate_exact pc Hh He o f HC gR gT gY ge OR OT OY OE) as (t & Et & H1 & H2 & H3 & H4 & L1 & L2 & L3 & L4).
  exists t. split; [exact Et|].
  intros s last rho rho' T T' Ye nu nu' type node (Hi & Er & Pr & Qr) (Hj & ET & PT & QT) (Hk & ->) (Hl & En & Pn & Qn).
  pose proof (shifted_ok gT OT) as OT'.
  assert (PT' : 0 <= T' / kelvin_per_MeV) by (apply Rmult_le_pos; [exact PT|left; now apply Rinv_0_lt_compat]).
  assert (Pn' : 0 <= nu' / hz_per_MeV pc) by (apply Rmult_le_pos; [exact Pn|left; now apply Rinv_0_lt_compat]).
  assert (QR' : log10 (guarded rho') = rg_node gR (node gR)) by (rewrite guarded_nonneg, Qr, Er by assumption; apply log10_pow10).
  assert (QT' : log10 (guarded (T' / kelvin_per_MeV)) = rg_node (shifted gT) (node gT)).
  { rewrite guarded_nonneg, QT, ET by assumption. rewrite <- shifted_pow. apply log10_pow10. }
  assert (QE' : log10 (guarded (nu' / hz_per_MeV pc)) = rg_node ge (node ge)).
  { rewrite guarded_nonneg, Qn, En by assumption.
    replace (hz_per_MeV pc * pow10 (rg_node ge (node ge)) / hz_per_MeV pc) with (pow10 (rg_node ge (node ge))) by (field; lra).
    apply log10_pow10. }
  change (node gT) with (node (shifted gT)) in QT'.
  assert (End : forall g, rg_ok g -> rg_node g (node g) = if last then rg_hi g else rg_lo g).
  { intros g Hg. unfold node. destruct last; [now rewrite <- hi_node|now rewrite <- lo_node]. }
  assert (I4 : forall b fb, holds b (axes4 gR (shifted gT) gY 3) fb ->
    Z.of_nat (length (db_data b)) = (rg_n gR * rg_n gT * rg_n gY * 3)%Z ->
    sp_lookup4 b (Fin rho') (Fin T') (Fin (rg_node gY (node gY))) type = UB).
  { intros b fb [Eb _] Lb. rewrite lookup4_interp. unfold interpToReal. rewrite Eb. unfold query4, axes4.
    rewrite QR', QT', !End by assumption.
    assert (interp (map coord_of [Pos (if last then rg_hi gR else rg_lo gR); Pos (if last then rg_hi (shifted gT) else rg_lo (shifted gT));
      Pos (if last then rg_hi gY else rg_lo gY); Num (RadType2Idx type)]) (map dim_of [Axis gR; Axis (shifted gT); Axis gY; Index 3])
      (db_data b) 0 = UB) as ->; [|reflexivity].
    destruct last.
    - apply corner_high; [assumption|now apply fits_hi|]. rewrite cell_last by assumption.
      apply corner_high; [assumption|now apply fits_hi|]. rewrite cell_last by assumption.
      apply corner_high; [assumption|now apply fits_hi|]. rewrite cell_last by assumption.
      cbn [map coord_of dim_of interp RadType2Idx type]. apply at_flat_off. right. rewrite Lb. cbn [shifted rg_n]. lia.
    - apply corner_low; [assumption|now apply fits_lo|]. rewrite cell_first by assumption.
      apply corner_low; [assumption|now apply fits_lo|]. rewrite cell_first by assumption.
      apply corner_low; [assumption|now apply fits_lo|]. rewrite cell_first by assumption.
      cbn [map coord_of dim_of interp RadType2Idx type]. apply at_flat_off. left. lia. }
  assert (I5 : forall b fb, holds b (axes5 gR (shifted gT) gY 3 ge) fb ->
    Z.of_nat (length (db_data b)) = (rg_n gR * rg_n gT * rg_n gY * 3 * rg_n ge)%Z ->
    sp_lookup5 (finpc pc) b (Fin rho') (Fin T') (Fin (rg_node gY (node gY))) type (Fin nu') = UB).
  { intros b fb [Eb _] Lb. rewrite lookup5_interp by assumption. unfold interpToReal. rewrite Eb. unfold query5, axes5.
    rewrite QR', QT', QE', !End by assumption.
    assert (interp (map coord_of [Pos (if last then rg_hi gR else rg_lo gR); Pos (if last then rg_hi (shifted gT) else rg_lo (shifted gT));
      Pos (if last then rg_hi gY else rg_lo gY); Num (RadType2Idx type); Pos (if last then rg_hi ge else rg_lo ge)])
      (map dim_of [Axis gR; Axis (shifted gT); Axis gY; Index 3; Axis ge]) (db_data b) 0 = UB) as ->; [|reflexivity].
    assert (NE := proj2 OE).
    destruct last.
    - apply corner_high; [assumption|now apply fits_hi|]. rewrite cell_last by assumption.
      apply corner_high; [assumption|now apply fits_hi|]. rewrite cell_last by assumption.
      apply corner_high; [assumption|now apply fits_hi|]. rewrite cell_last by assumption.
      cbn [shifted rg_n].
      set (a := (((0 * rg_n gR + (rg_n gR - 1)) * rg_n gT + (rg_n gT - 1)) * rg_n gY + (rg_n gY - 1))%Z).
      change (interp (map coord_of [Pos (rg_hi ge)]) (map dim_of [Axis ge]) (db_data b) (a * 3 + RadType2Idx type) = UB).
      apply corner_high; [assumption|now apply fits_hi|]. rewrite cell_last by assumption.
      cbn [map coord_of dim_of interp RadType2Idx type]. apply at_flat_off. right. rewrite Lb.
      replace (rg_n gR * rg_n gT * rg_n gY * 3)%Z with (a * 3 + 3)%Z by (unfold a; lia). lia.
    - apply corner_low; [assumption|now apply fits_lo|]. rewrite cell_first by assumption.
      apply corner_low; [assumption|now apply fits_lo|]. rewrite cell_first by assumption.
      apply corner_low; [assumption|now apply fits_lo|]. rewrite cell_first by assumption.
      set (a := (((0 * rg_n gR + 0) * rg_n (shifted gT) + 0) * rg_n gY + 0)%Z).
      change (interp (map coord_of [Pos (rg_lo ge)]) (map dim_of [Axis ge]) (db_data b) (a * 3 + RadType2Idx type) = UB).
      apply corner_low; [assumption|now apply fits_lo|]. rewrite cell_first by assumption.
      cbn [map coord_of dim_of interp RadType2Idx type]. apply at_flat_off. left. unfold a. lia. }
  cbn [s nu_Absorption nu_AngleAvgAbsorption nu_EmissivityPerNuOmega nu_EmissivityPerNu nu_Emissivity nu_NumberEmissivity SpinerOpacity].
  unfold sp_EmissivityPerNu, sp_Absorption, sp_EmissivityPerNuOmega, sp_Emissivity, sp_NumberEmissivity.
  rewrite (I5 _ _ H1 L1), (I5 _ _ H2 L2), (I4 _ _ H3 L3), (I4 _ _ H4 L4). cbn [bind]. auto 10.
Qed.

Lemma between_logs cs dims (v : list Z -> R) lo hi : Forall rd_ok dims -> inside cs dims -> 0 < lo ->
  (forall is, near cs dims is -> lo <= guarded (v is) <= hi) ->
  lo <= pow10 (mlin cs dims (fun is => log10 (guarded (v is)))) <= hi.
Proof.
  intros W I L H. assert (lo <= hi \/ hi < lo) as [O|O] by lra.
  - rewrite <- (pow10_log10 lo) at 1 by lra. rewrite <- (pow10_log10 hi) at 1 by lra.
    destruct (mlin_between cs dims (fun is => log10 (guarded (v is))) (log10 lo) (log10 hi) W I) as [A B].
    { intros is N. destruct (H is N). pose proof (guarded_pos (v is)). split; apply log10_le; lra. }
    split; now apply pow10_le.
  - exfalso. assert (N : exists is, near cs dims is).
    { clear v H. revert dims W I. induction cs as [|[x|i] cs IH]; intros [|[g|m] ds] W I; cbn in I; try contradiction.
      - exists []. exact Logic.I.
      - inversion W as [|? ? W1 W2]; subst. destruct I as [I1 I2]. destruct (IH ds W2 I2) as [is N].
        exists (rg_cell g x :: is). cbn. pose proof (cell_range g W1 x) as C. split; [lia|]. split; [|exact N].
        rewrite (pos_of_cell g W1 x) at 1. pose proof (w_inside g W1 x I1) as w. pose proof (dx_pos g W1) as D.
        replace (rg_node g (rg_cell g x) + rg_w g x * rg_dx g - rg_node g (rg_cell g x)) with (rg_w g x * rg_dx g) by ring.
        rewrite Rabs_pos_eq by (apply Rmult_le_pos; lra). rewrite <- (Rmult_1_l (rg_dx g)) at 2. apply Rmult_le_compat_r; lra.
      - inversion W as [|? ? W1 W2]; subst. destruct I as [I1 I2]. destruct (IH ds W2 I2) as [is N].
        exists (i :: is). cbn. auto. }
    destruct N as [is N]. specialize (H is N). lra.
Qed.

(** Inside the table, every emissivity lies between the smallest and the largest of the
    source's (guarded) values at the neighbouring nodes of the same species. *)
Lemma C40_between_proof :
  forall (pc : PhysConst R) (n : Z) (o : NuOpac ER) (f : nu_functions) (gR gT gY ge : rgrid),
  0 < pc_h pc -> 0 < pc_eV pc -> computes o f -> rg_ok gR -> rg_ok gT -> rg_ok gY -> rg_ok ge ->
  exists t, tabulated pc o gR gT gY ge = Ok t /\
  let s := SpinerOpacity n (finpc pc) t in
  forall rho T Ye type nu lo hi, neutrino_species type ->
  let x := log10 (guarded rho) in let y := log10 (kelvin_per_MeV * guarded (T / kelvin_per_MeV)) in
  let z := log10 (guarded (nu / hz_per_MeV pc)) in
  rg_inside gR x -> rg_inside gT y -> rg_inside gY Ye -> rg_inside ge z -> 0 < lo ->
  let close := fun i j k => (0 <= i < rg_n gR)%Z /\ (0 <= j < rg_n gT)%Z /\ (0 <= k < rg_n gY)%Z /\
     Rabs (x - rg_node gR i) <= rg_dx gR /\ Rabs (y - rg_node gT j) <= rg_dx gT /\ Rabs (Ye - rg_node gY k) <= rg_dx gY in
  let bounds4 := fun F : R -> R -> R -> RadiationType -> R => forall i j k, close i j k ->
     lo <= guarded (F (pow10 (rg_node gR i)) (pow10 (rg_node gT j)) (rg_node gY k) type) <= hi in
  let bounds5 := fun F : R -> R -> R -> RadiationType -> R -> R => forall i j k l, close i j k -> (0 <= l < rg_n ge)%Z ->
     Rabs (z - rg_node ge l) <= rg_dx ge ->
     lo <= guarded (F (pow10 (rg_node gR i)) (pow10 (rg_node gT j)) (rg_node gY k) type (hz_per_MeV pc * pow10 (rg_node ge l))) <= hi in
  let answers := fun r => exists v, r = Ok (Fin v) /\ lo <= v <= hi in
  (bounds5 (nf_j f) -> answers (nu_EmissivityPerNuOmega s (Fin rho) (Fin T) (Fin Ye) type (Fin nu))) /\
  (bounds4 (nf_J f) -> answers (nu_Emissivity s (Fin rho) (Fin T) (Fin Ye) type)) /\
  (bounds4 (nf_N f) -> answers (nu_NumberEmissivity s (Fin rho) (Fin T) (Fin Ye) type)).
Proof.
  intros pc n o f gR gT gY ge Hh He HC OR OT OY OE. pose proof kelvin_pos as Kp.
  destruct (tabulate_exact pc Hh He o f HC gR gT gY ge OR OT OY OE) as (t & Et & H1 & H2 & H3 & H4 & _).
  exists t. split; [exact Et|]. intros s rho T Ye type nu lo hi Hs x y z I1 I2 I3 I4 Hlo close bounds4 bounds5 answers.
  destruct (species_idx type Hs) as [Ht Ety]. pose proof (shifted_ok gT OT) as OT'.
  set (y' := log10 (guarded (T / kelvin_per_MeV))).
  assert (Ey : y' = y + log10 (/ kelvin_per_MeV)).
  { unfold y, y', log10. rewrite ln_mult, ln_Rinv by (auto using guarded_pos). unfold Rdiv. ring. }
  assert (I2' : rg_inside (shifted gT) y') by (unfold rg_inside in *; cbn [shifted rg_lo rg_hi]; lra).
  assert (W5 : Forall rd_ok (axes5 gR (shifted gT) gY 3 ge)) by (apply axes5_ok; assumption).
  assert (W4 : Forall rd_ok (axes4 gR (shifted gT) gY 3)) by (apply axes4_ok; assumption).
  assert (N5 : inside (query5 pc rho T Ye type nu) (axes5 gR (shifted gT) gY 3 ge)) by (cbn -[RadType2Idx]; auto 10).
  assert (N4 : inside (query4 rho T Ye type) (axes4 gR (shifted gT) gY 3)) by (cbn -[RadType2Idx]; auto 10).
  assert (SN : forall j, Rabs (y' - rg_node (shifted gT) j) <= rg_dx (shifted gT) -> Rabs (y - rg_node gT j) <= rg_dx gT).
  { intros j. rewrite shifted_dx, shifted_node, Ey. intros B.
    replace (y - rg_node gT j) with (y + log10 (/ kelvin_per_MeV) - (rg_node gT j + log10 (/ kelvin_per_MeV))) by ring. exact B. }
  assert (K4 : forall b F, holds b (axes4 gR (shifted gT) gY 3) (stored4 gR gT gY F) -> bounds4 F ->
    answers (sp_lookup4 b (Fin rho) (Fin T) (Fin Ye) type)).
  { intros b F Hb B. eexists. split; [apply (lookup4_mlin b _ _ _ _ _ _ Hb W4); now apply inside_ok|].
    apply (between_logs _ _ (fun is => F (pow10 (rg_node gR (nth 0 is 0%Z))) (pow10 (rg_node gT (nth 1 is 0%Z)))
        (rg_node gY (nth 2 is 0%Z)) (type_of (nth 3 is 0%Z)))); auto.
    intros [|i [|j [|k [|p [|? ?]]]]] N; cbn -[RadType2Idx rg_dx rg_node shifted] in N; try tauto.
    destruct N as (A1 & A2 & A3 & A4 & A5 & A6 & A7 & A8 & _). subst p. cbn [nth]. rewrite Ety. apply B.
    unfold close. auto 10. }
  assert (K5 : forall b F, holds b (axes5 gR (shifted gT) gY 3 ge) (stored5 pc gR gT gY ge F 1) -> bounds5 F ->
    answers (sp_lookup5 (finpc pc) b (Fin rho) (Fin T) (Fin Ye) type (Fin nu))).
  { intros b F Hb B. eexists. split; [apply (lookup5_mlin pc Hh He b _ _ _ _ _ _ _ Hb W5); now apply inside_ok|].
    apply (between_logs _ _ (fun is => F (pow10 (rg_node gR (nth 0 is 0%Z))) (1 * pow10 (rg_node gT (nth 1 is 0%Z)))
        (rg_node gY (nth 2 is 0%Z)) (type_of (nth 3 is 0%Z)) (hz_per_MeV pc * pow10 (rg_node ge (nth 4 is 0%Z))))); auto.
    intros [|i [|j [|k [|p [|l [|? ?]]]]]] N; cbn -[RadType2Idx rg_dx rg_node shifted] in N; try tauto.
    destruct N as (A1 & A2 & A3 & A4 & A5 & A6 & A7 & A8 & A9 & A10 & _). subst p. cbn [nth]. rewrite Ety, Rmult_1_l.
    apply B; [unfold close; auto 10|exact A9|exact A10]. }
  split; [|split]; intros B; [apply (K5 _ _ H2 B)|apply (K4 _ _ H3 B)|apply (K4 _ _ H4 B)].
Qed.

(** Any arithmetic (binary64 included): if the source answers where it is asked, every cell
    of the tables holds the guarded logarithm of the source's answer for that node. *)
Lemma C40_cells_proof :
  forall (T : Type) (O : Ops T) (pc : PhysConst T) (o : NuOpac T)
    (r0 r1 t0 t1 y0 y1 e0 e1 : T) (NR NT NY NE : Z) (gR gT gY ge : Grid T),
  let lK := Olog10 sp_K2MeV in
  mk_grid r0 r1 NR = Ok gR -> mk_grid (t0 + lK)%o (t1 + lK)%o NT = Ok gT -> mk_grid y0 y1 NY = Ok gY -> mk_grid e0 e1 NE = Ok ge ->
  let log_guard := fun v : T => Olog10 (Oabs (Omax (Omax v #0) (- #0) + #0) + #10 * Onum_min)%o in
  let rho := fun i => (Opow #10 (g_x gR (Z.of_nat i)) - #0)%o in
  let temp := fun i => (Opow #10 (g_x gT (Z.of_nat i)) - #0)%o in
  let kelvin := fun i => (temp i * sp_MeV2K)%o in
  let Ye := fun i => g_x gY (Z.of_nat i) in
  let nu := fun i => (#1 / (pc_h pc / (Odec 1 6 * pc_eV pc)) * (Opow #10 (g_x ge (Z.of_nat i)) - #0))%o in
  forall (a j : nat -> nat -> nat -> RadiationType -> nat -> T) (J N : nat -> nat -> nat -> RadiationType -> T),
  (forall x t y type e, (Z.of_nat x < NR)%Z -> (Z.of_nat t < NT)%Z -> (Z.of_nat y < NY)%Z -> (Z.of_nat e < NE)%Z -> neutrino_species type ->
     nu_Absorption o (rho x) (temp t) (Ye y) type (nu e) = Ok (a x t y type e) /\
     nu_EmissivityPerNuOmega o (rho x) (kelvin t) (Ye y) type (nu e) = Ok (j x t y type e)) ->
  (forall x t y type, (Z.of_nat x < NR)%Z -> (Z.of_nat t < NT)%Z -> (Z.of_nat y < NY)%Z -> neutrino_species type ->
     nu_Emissivity o (rho x) (kelvin t) (Ye y) type = Ok (J x t y type) /\
     nu_NumberEmissivity o (rho x) (kelvin t) (Ye y) type = Ok (N x t y type)) ->
  exists tb, sp_tabulate pc o r0 r1 NR t0 t1 NT y0 y1 NY e0 e1 NE = Ok tb /\
  forall x t y type e, (Z.of_nat x < NR)%Z -> (Z.of_nat t < NT)%Z -> (Z.of_nat y < NY)%Z -> (Z.of_nat e < NE)%Z -> neutrino_species type ->
  let c := (((Z.of_nat x * NT + Z.of_nat t) * NY + Z.of_nat y) * 3 + RadType2Idx type)%Z in
  at_flat (db_data (sp_alpha tb)) (c * NE + Z.of_nat e) = Ok (log_guard (a x t y type e)) /\
  at_flat (db_data (sp_jnu tb)) (c * NE + Z.of_nat e) = Ok (log_guard (j x t y type e)) /\
  at_flat (db_data (sp_J tb)) c = Ok (log_guard (J x t y type)) /\
  at_flat (db_data (sp_JYe tb)) c = Ok (log_guard (N x t y type)).
Proof.
  intros T O pc o r0 r1 t0 t1 y0 y1 e0 e1 NR NT NY NE gR gT gY ge lK E1 E2 E3 E4 log_guard rho temp kelvin Ye nu a j J N H5 H4.
  assert (PN : forall lo hi n g, mk_grid lo hi n = Ok g -> (0 <= n)%Z).
  { intros lo hi m g E. unfold mk_grid in E. destruct (Z.ltb_spec 0 m); [lia|]. rewrite andb_false_r in E. discriminate. }
  assert (KS : forall s type, Idx2RadType (Z.of_nat s) = Ok type -> (Z.of_nat s < 3)%Z -> neutrino_species type).
  { intros s type E L. do 3 (destruct s as [|s]; [cbn in E; injection E as <-; unfold neutrino_species; tauto|]). lia. }
  destruct (fun A B => sp_fill_writes pc o gR gT gY ge NR NT NY NE a j J N A B (sp_zeros NR NT NY NEUTRINO_NTYPES NE))
    as (d & Ed & _ & Gd & _).
  - intros i t y s type e Et (V1 & V2 & V3 & V4 & V5). unfold NEUTRINO_NTYPES in V4. apply H5; auto. now apply (KS s).
  - intros i t y s type Et (V1 & V2 & V3 & V4). unfold NEUTRINO_NTYPES in V4. apply H4; auto. now apply (KS s).
  - apply sized_zeros; eauto. unfold NEUTRINO_NTYPES. lia.
  - eexists. split.
    { unfold sp_tabulate. cbv zeta. fold lK. rewrite E4. cbn [bind]. rewrite E3. cbn [bind]. rewrite E2. cbn [bind].
      rewrite E1. cbn [bind]. rewrite Ed. cbn [bind]. reflexivity. }
    intros x t y type e B1 B2 B3 B4 Hs c. destruct (species_idx type Hs) as [Ht Ety].
    set (s := Z.to_nat (RadType2Idx type)). assert (Es : Z.of_nat s = RadType2Idx type) by (unfold s; lia).
    assert (V5 : valid_cell NR NT NY NEUTRINO_NTYPES NE (C5 x t y s e)) by (unfold NEUTRINO_NTYPES; cbn -[RadType2Idx]; lia).
    assert (V4 : valid_cell NR NT NY NEUTRINO_NTYPES NE (C4 x t y s)) by (unfold NEUTRINO_NTYPES; cbn -[RadType2Idx]; lia).
    pose proof (Gd _ V5 V5) as G5. pose proof (Gd _ V4 V4) as G4. cbn [get_cell cell_index] in G5, G4.
    unfold sp_cell5 in G5. unfold sp_cell4, NEUTRINO_NTYPES in G5, G4. rewrite Es in G5, G4. fold c in G5, G4.
    cbn [tab_value] in G5, G4. unfold kind in G5, G4. rewrite Es, Ety in G5, G4.
    assert (GA : forall (u v : list T) k p q, get2 (u, v) k = Some (p, q) -> at_flat u k = Ok p /\ at_flat v k = Ok q).
    { intros u v k p q. unfold get2, at_flat, load. cbn [fst snd]. destruct (k <? 0)%Z; [discriminate|].
      destruct (nth_error u _); [|discriminate]. destruct (nth_error v _); [|discriminate].
      intros E. injection E as <- <-. auto. }
    apply GA in G5, G4. cbn [sp_boxes sp_alpha sp_jnu sp_J sp_JYe db_data].
    destruct G5 as [-> ->], G4 as [-> ->]. auto.
Qed.

(** an example for the hypotheses: a gray opacity on a 2 x 2 x 2 table, asked at its last node *)
Lemma C40_nodes_example : let g := {| rg_lo := 0; rg_hi := 1; rg_n := 2 |} in
  let o := NuGrayOpacity 3 (finpc cgsR) (Fin 2) in
  let T' := 10 - kelvin_per_MeV * tiny in let nu := hz_per_MeV cgsR * 10 in let nu' := nu - hz_per_MeV cgsR * tiny in
  rg_ok g /\ density_node g 1 10 (10 - tiny) /\ temperature_node g 1 10 T' /\ fraction_node g 1 1 /\
  frequency_node cgsR g 1 nu nu' /\
  exists t, tabulated cgsR o g g g g = Ok t /\
  nu_Absorption (SpinerOpacity 3 (finpc cgsR) t) (Fin (10 - tiny)) (Fin T') (Fin 1) NU_HEAVY (Fin nu') = Ok (Fin (20 + tiny)).
Proof.
  intros g o T' nu nu'. pose proof tiny_pos as Tp. pose proof tiny_lt_1 as T1. pose proof kelvin_pos as Kp.
  pose proof cgs_pos as P. assert (P' := P). unfold positive_consts in P'.
  assert (Hz : 0 < hz_per_MeV cgsR) by (apply hz_pos; tauto).
  assert (KT : kelvin_per_MeV * tiny < 1).
  { pose proof tiny_small as TS.
    assert (tiny < / 10 ^ 11).
    { apply (Rlt_trans _ _ _ TS). apply Rinv_lt_contravar; [apply Rmult_lt_0_compat; apply pow_lt; lra|]. apply Rlt_pow; [lra|lia]. }
    unfold kelvin_per_MeV. apply (Rlt_trans _ (11604525006 * / 10 ^ 11)); [apply Rmult_lt_compat_l; lra|lra]. }
  assert (G0 : rg_ok g) by (unfold rg_ok, g; cbn; split; [lra|lia]).
  assert (N1 : rg_node g 1 = 1) by (unfold rg_node, rg_dx, g; cbn; lra).
  assert (P1 : pow10 1 = 10) by (unfold pow10; apply Rpower_1; lra).
  assert (D1 : density_node g 1 10 (10 - tiny)).
  { unfold density_node. rewrite N1, P1. cbn. split; [lia|]. split; [reflexivity|]. split; lra. }
  assert (D2 : temperature_node g 1 10 T').
  { unfold temperature_node. rewrite N1, P1. cbn. split; [lia|]. split; [reflexivity|]. unfold T'. split; [lra|]. field. lra. }
  assert (D3 : fraction_node g 1 1) by (unfold fraction_node; rewrite N1; cbn; split; [lia|reflexivity]).
  assert (D4 : frequency_node cgsR g 1 nu nu').
  { unfold frequency_node. rewrite N1, P1. cbn. split; [lia|]. split; [reflexivity|]. unfold nu', nu. split.
    - assert (hz_per_MeV cgsR * tiny <= hz_per_MeV cgsR * 10) by (apply Rmult_le_compat_l; lra). lra.
    - field. lra. }
  split; [exact G0|]. do 4 (split; [assumption|]).
  destruct (C40_sources_proof cgsR 3 3 o g g g g P) as (t & Et & H); auto.
  { left. exists 2. split; [lra|reflexivity]. }
  exists t. split; [exact Et|].
  destruct (H 1%Z 1%Z 1%Z 1%Z 10 (10 - tiny) 10 T' 1 nu nu' NU_HEAVY D1 D2 D3 D4) as (A & _); [unfold neutrino_species; tauto|].
  etransitivity; [exact A|]. cbn [functions_of nf_alpha]. unfold o, NuGrayOpacity, nu_opacity. cbn [nu_Absorption]. unfold nugray_alpha.
  rewrite fin_mul. cbn [answer]. rewrite guarded_nonneg by lra. f_equal. f_equal. lra.
Qed.
