(** C64: lookups in neutrino tables by energy, in double precision. *)
From Coquelicot Require Import Coquelicot.
From Coq Require Import Reals ZArith List Lra Lia Bool.
From Flocq Require Import Core IEEE754.BinarySingleNaN.
From Verif Require Import Base.Outcome Base.Ops Inst.B64 Model.RadTypes Model.Constants Model.NeutrinoApi Model.MeanUtils Model.Spiner Model.SpinerNeutrinos
  Spec.Tables Spec.Tabulated Spec.DoublePrecision Spec.DoubleTables Spec.DoubleSpiner Proofs.B64Facts
  Proofs.Near Proofs.NearConsts Proofs.NearRules Proofs.NarrowGroup Proofs.FillFacts Proofs.SpinerFacts Proofs.DoubleTables Proofs.DoubleLookup Proofs.DoubleSpiner Proofs.C63.
Import ListNotations.
Open Scope R_scope.

(** A table by energy. The coordinates are the logarithms of the density, of the temperature
    and of the energy of the neutrino in MeV, and the electron fraction; if they are coordinates
    of the table up to fourteen units of 2^-53 of their extent, the answer is ten to the
    interpolant there, up to roundings: 550 times the largest stored number times the numbers
    of cells. *)
Lemma C64_by_energy_proof :
  forall (L : Libm) (F : R) (b : DataBox b64) (gR gT gY gE : rgrid) (f : list Z -> R) (rho temp Ye : b64) (type : RadiationType) (nu : b64)
    (yR yT yY yE r : R),
  let O := B64_ops L in
  let dims := [Axis gR; Axis gT; Axis gY; Index 3; Axis gE] in
  accurate_libm L -> accurate_log10 L -> 1 <= F <= 250 ->
  holds64 L F b dims f -> physical rho -> physical temp -> is_finite Ye = true -> physical nu ->
  coordinate 14 gR (log10 (B2R rho)) yR -> coordinate 14 gT (log10 (temp_MeV (B2R temp))) yT ->
  coordinate 14 gY (B2R Ye) yY -> coordinate 14 gE (log10 (energy_MeV (B2R nu))) yE ->
  interpolates [Pos yR; Pos yT; Pos yY; Num (RadType2Idx type); Pos yE] dims f r ->
  returns (@sp_lookup5 b64 O (@PhysicalConstantsCGS b64 O) b rho temp Ye type nu) (550 * F * (cells gR + cells gT + cells gY + cells gE)) (pow10 r).
Proof.
  intros L F b gR gT gY gE f rho temp Ye type nu yR yT yY yE r O dims HL HG HF HH Hr Ht HY Hn CR CT CY CE HI.
  pose proof (proj1 HH) as HD. inversion HD as [|p1 ? ps1 ? D1 HD1 Eps]. inversion HD1 as [|p2 ? ps2 ? D2 HD2 Eps2].
  inversion HD2 as [|p3 ? ps3 ? D3 HD3 Eps3]. inversion HD3 as [|p4 ? ps4 ? D4 HD4 Eps4]. inversion HD4 as [|p5 ? ps5 ? D5 HD5 Eps5]. subst.
  destruct (axis_of _ _ _ D1) as (_ & _ & _ & _ & C1). destruct (axis_of _ _ _ D2) as (_ & _ & _ & _ & C2).
  destruct (axis_of _ _ _ D3) as (_ & _ & _ & _ & C3). destruct (axis_of _ _ _ D5) as (_ & _ & _ & _ & C5).
  destruct (unit_coordinate L HG gR p1 rho (V rho) yR 14 0 (-100) 100 D1 (near_in rho Hr) ltac:(lia) ltac:(lia) ltac:(lra) ltac:(lra) CR) as [F1 K1].
  destruct (temp_coordinate L HG gT p2 temp yT D2 Ht CT) as [F2 K2].
  destruct (energy_coordinate L HG gE p5 nu yE D5 Hn CE) as [F5 K5].
  assert (K3 : coordinate 20 gY (B2R Ye) yY).
  { destruct CY as [A B]. split; [exact A|]. apply Rle_trans with (1 := B). fold u. pose proof u_pos.
    assert (1 <= extent gY) by apply Rmax_l. apply Rmult_le_compat_r; lra. }
  assert (Hg : (0 <= RadType2Idx type < 3)%Z).
  { cbn [interpolates dims] in HI. destruct HI as (i & a & b1 & _ & _ & (i' & a' & b2 & _ & _ & (i'' & a'' & b3 & _ & _ & (Hg & _) & _) & _) & _). exact Hg. }
  assert (HQ : query64 [Along (@sp_toLog b64 O rho); Along (@sp_toLog b64 O (@Omul b64 O temp (@sp_K2MeV b64 O))); Along Ye; At (RadType2Idx type);
      Along (@sp_toLog b64 O (@Omul b64 O (@sp_Hz2MeV b64 O (@PhysicalConstantsCGS b64 O)) nu))]
    [Pos yR; Pos yT; Pos yY; Num (RadType2Idx type); Pos yE] dims).
  { cbn [query64 dims]. split; [exact F1|]. split; [exact K1|]. split; [exact F2|]. split; [exact K2|]. split; [exact HY|]. split; [exact K3|].
    split; [reflexivity|]. split; [exact Hg|]. split; [exact F5|]. split; [exact K5|exact I]. }
  destruct (unscaled_answer L HL F b dims _ _ f r HF ltac:(cbn; lia) ltac:(cbn [all_cells dims]; lra) HH HQ HI) as (v & Ev & W).
  exists (@sp_fromLog b64 O v). split.
  - transitivity (bind (Ok v) (fun v => Ok (@sp_fromLog b64 O v))); [rewrite <- Ev; reflexivity|reflexivity].
  - cbn [all_cells dims] in W. replace (cells gR + cells gT + cells gY + cells gE) with (cells gR + (cells gT + (cells gY + (cells gE + 0)))) by ring. exact W.
Qed.

(** A table of totals, the same without the energy. *)
Lemma C64_totals_proof :
  forall (L : Libm) (F : R) (b : DataBox b64) (gR gT gY : rgrid) (f : list Z -> R) (rho temp Ye : b64) (type : RadiationType)
    (yR yT yY r : R),
  let O := B64_ops L in
  let dims := [Axis gR; Axis gT; Axis gY; Index 3] in
  accurate_libm L -> accurate_log10 L -> 1 <= F <= 250 ->
  holds64 L F b dims f -> physical rho -> physical temp -> is_finite Ye = true ->
  coordinate 14 gR (log10 (B2R rho)) yR -> coordinate 14 gT (log10 (temp_MeV (B2R temp))) yT -> coordinate 14 gY (B2R Ye) yY ->
  interpolates [Pos yR; Pos yT; Pos yY; Num (RadType2Idx type)] dims f r ->
  returns (@sp_lookup4 b64 O b rho temp Ye type) (550 * F * (cells gR + cells gT + cells gY)) (pow10 r).
Proof.
  intros L F b gR gT gY f rho temp Ye type yR yT yY r O dims HL HG HF HH Hr Ht HY CR CT CY HI.
  pose proof (proj1 HH) as HD. inversion HD as [|p1 ? ps1 ? D1 HD1 Eps]. inversion HD1 as [|p2 ? ps2 ? D2 HD2 Eps2].
  inversion HD2 as [|p3 ? ps3 ? D3 HD3 Eps3]. subst.
  destruct (axis_of _ _ _ D1) as (_ & _ & _ & _ & C1). destruct (axis_of _ _ _ D2) as (_ & _ & _ & _ & C2).
  destruct (axis_of _ _ _ D3) as (_ & _ & _ & _ & C3).
  destruct (unit_coordinate L HG gR p1 rho (V rho) yR 14 0 (-100) 100 D1 (near_in rho Hr) ltac:(lia) ltac:(lia) ltac:(lra) ltac:(lra) CR) as [F1 K1].
  destruct (temp_coordinate L HG gT p2 temp yT D2 Ht CT) as [F2 K2].
  assert (K3 : coordinate 20 gY (B2R Ye) yY).
  { destruct CY as [A B]. split; [exact A|]. apply Rle_trans with (1 := B). fold u. pose proof u_pos.
    assert (1 <= extent gY) by apply Rmax_l. apply Rmult_le_compat_r; lra. }
  assert (Hg : (0 <= RadType2Idx type < 3)%Z).
  { cbn [interpolates dims] in HI. destruct HI as (i & a & b1 & _ & _ & (i' & a' & b2 & _ & _ & (i'' & a'' & b3 & _ & _ & (Hg & _) & _) & _) & _). exact Hg. }
  assert (HQ : query64 [Along (@sp_toLog b64 O rho); Along (@sp_toLog b64 O (@Omul b64 O temp (@sp_K2MeV b64 O))); Along Ye; At (RadType2Idx type)]
    [Pos yR; Pos yT; Pos yY; Num (RadType2Idx type)] dims).
  { cbn [query64 dims]. split; [exact F1|]. split; [exact K1|]. split; [exact F2|]. split; [exact K2|]. split; [exact HY|]. split; [exact K3|].
    split; [reflexivity|]. split; [exact Hg|exact I]. }
  destruct (unscaled_answer L HL F b dims _ _ f r HF ltac:(cbn; lia) ltac:(cbn [all_cells dims]; lra) HH HQ HI) as (v & Ev & W).
  exists (@sp_fromLog b64 O v). split.
  - transitivity (bind (Ok v) (fun v => Ok (@sp_fromLog b64 O v))); [rewrite <- Ev; reflexivity|reflexivity].
  - cbn [all_cells dims] in W. replace (cells gR + cells gT + cells gY) with (cells gR + (cells gT + (cells gY + 0))) by ring. exact W.
Qed.

(** The emissivity over all angles: four pi times as much, four more roundings. *)
Lemma C64_per_frequency_proof :
  forall (L : Libm) (F : R) (t : SpinerTables b64) (gR gT gY gE : rgrid) (f : list Z -> R) (rho temp Ye : b64) (type : RadiationType) (nu : b64)
    (yR yT yY yE r : R),
  let O := B64_ops L in
  let dims := [Axis gR; Axis gT; Axis gY; Index 3; Axis gE] in
  accurate_libm L -> accurate_log10 L -> 1 <= F <= 250 ->
  holds64 L F (sp_jnu t) dims f -> physical rho -> physical temp -> is_finite Ye = true -> physical nu ->
  coordinate 14 gR (log10 (B2R rho)) yR -> coordinate 14 gT (log10 (temp_MeV (B2R temp))) yT ->
  coordinate 14 gY (B2R Ye) yY -> coordinate 14 gE (log10 (energy_MeV (B2R nu))) yE ->
  interpolates [Pos yR; Pos yT; Pos yY; Num (RadType2Idx type); Pos yE] dims f r ->
  returns (@sp_EmissivityPerNu b64 O (@PhysicalConstantsCGS b64 O) t rho temp Ye type nu) (550 * F * (cells gR + cells gT + cells gY + cells gE) + 4) (4 * PI * pow10 r).
Proof.
  intros L F t gR gT gY gE f rho temp Ye type nu yR yT yY yE r O dims HL HG HF HH Hr Ht HY Hn CR CT CY CE HI.
  destruct (C64_by_energy_proof L F (sp_jnu t) gR gT gY gE f rho temp Ye type nu yR yT yY yE r HL HG HF HH Hr Ht HY Hn CR CT CY CE HI) as (x & Ex & W).
  eexists. split; [unfold sp_EmissivityPerNu, sp_EmissivityPerNuOmega; unfold O; rewrite Ex; cbn [bind]; reflexivity|].
  pose proof (dims64_ok _ _ _ (proj1 HH)) as Hok.
  pose proof (interpolant_bound F dims _ (db_data (sp_jnu t)) 0 f r Hok (proj2 HH) HI) as Br.
  set (C := cells gR + cells gT + cells gY + cells gE) in *.
  assert (HC : 0 <= C <= 5000000).
  { pose proof (all_cells_bound dims Hok) as AC. cbn [all_cells dims length] in AC. simpl in AC. unfold C. lra. }
  assert (FC : 0 <= F * C <= 250 * 5000000) by (split; [apply Rmult_le_pos; lra|apply Rmult_le_compat; lra]).
  apply four_pi.
  - exact W.
  - lra.
  - rewrite u_lit. apply Rle_trans with (550 * (250 * 5000000) * / 9007199254740992); [apply Rmult_le_compat_r; lra|lra].
  - destruct (pow10_range r ltac:(lra)) as [A B]. split; [apply Rle_trans with (2 := A)|apply Rle_trans with (1 := B)]; apply bpow_le; lia.
Qed.

(** ** Tables asked at their own nodes *)
Lemma hz_range : pow10 (- (21)) <= 10 ^ 6 * eV_cgs / h_cgs <= pow10 21.
Proof.
  assert (P : pow10 21 = 10 ^ 21) by (replace 21 with (INR 21) by (simpl; lra); apply pow10_nat).
  assert (M : pow10 (- (21)) = / 10 ^ 21) by (rewrite <- P; unfold pow10; now rewrite <- Rpower_Ropp).
  rewrite P, M. unfold eV_cgs, h_cgs.
  replace (10 ^ 6 * (1602176565 / 10 ^ 21) / (662606957 / 10 ^ 35)) with (1602176565 * 10 ^ 20 / 662606957) by (simpl; field).
  simpl. split; lra.
Qed.
Lemma kelvin_range : pow10 (- (11)) <= kelvin_per_MeV <= pow10 11.
Proof.
  assert (P : pow10 11 = 10 ^ 11) by (replace 11 with (INR 11) by (simpl; lra); apply pow10_nat).
  assert (M : pow10 (- (11)) = / 10 ^ 11) by (rewrite <- P; unfold pow10; now rewrite <- Rpower_Ropp).
  rewrite P, M. unfold kelvin_per_MeV. simpl. split; lra.
Qed.

Section Nodes.
  Variable L : Libm.
  Notation O := (B64_ops L).
  Notation pc := (@PhysicalConstantsCGS b64 O).
  Hypothesis HL : accurate_libm L.
  Hypothesis HG : accurate_log10 L.
  Variables lr0 lr1 lt0 lt1 y0 y1 le0 le1 : b64.
  Variables NR NT NY NE : Z.
  Hypothesis OR : ordinary lr0 lr1 NR.
  Hypothesis OT : ordinary lt0 lt1 NT.
  Hypothesis OY : ordinary y0 y1 NY.
  Hypothesis OE : ordinary le0 le1 NE.
  Hypothesis XR : extent (real_grid lr0 lr1 NR) <= 29.
  Hypothesis XT : extent (real_grid lt0 lt1 NT) <= 18.
  Hypothesis XE : extent (real_grid le0 le1 NE) <= 8.
  Variables gR gT gY ge : Grid b64.
  Hypothesis GR : @mk_grid b64 O lr0 lr1 NR = Ok gR.
  Hypothesis GT : @mk_grid b64 O lt0 lt1 NT = Ok gT.
  Hypothesis GY : @mk_grid b64 O y0 y1 NY = Ok gY.
  Hypothesis GE : @mk_grid b64 O le0 le1 NE = Ok ge.
  Notation rR := (real_grid lr0 lr1 NR).
  Notation rT := (real_grid lt0 lt1 NT).
  Notation rY := (real_grid y0 y1 NY).
  Notation rE := (real_grid le0 le1 NE).
  Notation rho a := (@sp_fromLog b64 O (@g_x b64 O gR a)).
  Notation temp b := (@Omul b64 O (@sp_fromLog b64 O (@g_x b64 O gT b)) (@sp_MeV2K b64 O)).
  Notation nu e := (@Omul b64 O (@sp_MeV2Hz b64 O pc) (@sp_fromLog b64 O (@g_x b64 O ge e))).

  Lemma rho_node a : (0 <= a < NR)%Z -> physical (rho a) /\ coordinate 14 rR (log10 (B2R (rho a))) (rg_node rR a).
  Proof.
    intros Ha. destruct (sp_node L HL lr0 lr1 NR gR a 29 OR XR ltac:(lra) GR ltac:(lia)) as (Fv & Bv & Ev & Nv & _).
    assert (N1 : near 2 (-110) 110 (rho a) (1 * pow10 (V (@g_x b64 O gR a)))) by (rewrite Rmult_1_l; exact Nv).
    split.
    - apply (unit_physical 2 _ _ _ 0 29 (@g_x b64 O gR a) 1 N1); try lra.
      replace (- 0) with 0 by ring. unfold pow10. rewrite Rpower_O by lra. lra.
    - apply (node_units L HL lr0 lr1 NR gR a 29 2 _ _ 1 (-110) 110 OR XR ltac:(lra) GR ltac:(lia) ltac:(lra) ltac:(lra) N1). unfold V. field.
  Qed.
  Lemma temp_node b : (0 <= b < NT)%Z -> physical (temp b) /\ coordinate 14 rT (log10 (temp_MeV (B2R (temp b)))) (rg_node rT b).
  Proof.
    intros Hb. destruct (sp_node L HL lt0 lt1 NT gT b 18 OT XT ltac:(lra) GT ltac:(lia)) as (Fv & Bv & Ev & Nv & _).
    pose proof (n_mul L _ _ _ _ _ _ _ _ _ _ Nv (c_MeV2K L) ltac:(lia) ltac:(lia) ltac:(lra)) as N1. rewrite Rmult_comm in N1.
    pose proof kelvin_range as K. pose proof (pow10_pos (- (11))) as P.
    split.
    - apply (unit_physical _ _ _ _ 11 18 (@g_x b64 O gT b) kelvin_per_MeV N1); lra.
    - apply (node_units L HL lt0 lt1 NT gT b 18 (2 + 0 + 1) _ _ kelvin_per_MeV _ _ OT XT ltac:(lra) GT ltac:(lia) ltac:(lra) ltac:(lra) N1). reflexivity.
  Qed.
  Lemma nu_node e : (0 <= e < NE)%Z -> physical (nu e) /\ coordinate 14 rE (log10 (energy_MeV (B2R (nu e)))) (rg_node rE e).
  Proof.
    intros He. destruct (sp_node L HL le0 le1 NE ge e 8 OE XE ltac:(lra) GE ltac:(lia)) as (Fv & Bv & Ev & Nv & _).
    pose proof (n_mul L _ _ _ _ _ _ _ _ _ _ (c_MeV2Hz L) Nv ltac:(lia) ltac:(lia) ltac:(lra)) as N1.
    pose proof hz_range as K. pose proof (pow10_pos (- (21))) as P.
    split.
    - apply (unit_physical _ _ _ _ 21 8 (@g_x b64 O ge e) (10 ^ 6 * eV_cgs / h_cgs) N1); lra.
    - apply (node_units L HL le0 le1 NE ge e 8 (2 + 2 + 1) _ _ (10 ^ 6 * eV_cgs / h_cgs) _ _ OE XE ltac:(lra) GE ltac:(lia) ltac:(lra) ltac:(lra) N1).
      unfold energy_MeV, V, h_cgs, eV_cgs. field.
  Qed.
  Lemma Ye_node y : (0 <= y < NY)%Z -> fin (@g_x b64 O gY y) /\ coordinate 14 rY (B2R (@g_x b64 O gY y)) (rg_node rY y).
  Proof.
    intros Hy. pose proof GY as EG. rewrite (grid64 L y0 y1 NY OY) in EG. injection EG as <-.
    destruct (node64 y0 y1 NY OY y ltac:(lia)) as [A B]. split; [exact A|]. split; [apply node_in; [exact OY|lia]|].
    apply Rle_trans with (1 := B). fold u. pose proof u_pos. pose proof (extent_1 y0 y1 NY). apply Rmult_le_compat_r; lra.
  Qed.

  Lemma node5 F d a b y type e x : 1 <= F <= 250 -> bounded F d -> Z.of_nat (List.length d) = (NR * NT * NY * 3 * NE)%Z ->
    (0 <= a < NR)%Z -> (0 <= b < NT)%Z -> (0 <= y < NY)%Z -> (0 <= RadType2Idx type < 3)%Z -> (0 <= e < NE)%Z ->
    at_flat d ((((a * NT + b) * NY + y) * 3 + RadType2Idx type) * NE + e) = Ok x ->
    returns (@sp_lookup5 b64 O pc {| db_dims := [NE; 3%Z; NY; NT; NR]; db_ranges := [Some ge; None; Some gY; Some gT; Some gR]; db_data := d |}
      (rho a) (temp b) (@g_x b64 O gY y) type (nu e)) (550 * F * (cells rR + cells rT + cells rY + cells rE)) (pow10 (V x)).
  Proof.
    intros HF HB Hlen Ha Hb Hy Hc He Ex.
    pose proof (n_two _ _ _ OR) as N1. pose proof (n_two _ _ _ OT) as N2. pose proof (n_two _ _ _ OY) as N3. pose proof (n_two _ _ _ OE) as N4.
    destruct (rho_node a Ha) as [PR CR]. destruct (temp_node b Hb) as [PT CT]. destruct (nu_node e He) as [PE CE]. destruct (Ye_node y Hy) as [FY CY].
    set (dims := [Axis rR; Axis rT; Axis rY; Index 3; Axis rE]).
    set (f := fun is => value d (flat (map rd_size dims) is 0)).
    assert (HH : holds64 L F {| db_dims := [NE; 3%Z; NY; NT; NR]; db_ranges := [Some ge; None; Some gY; Some gT; Some gR]; db_data := d |} dims f).
    { split.
      - cbn [db_dims db_ranges combine rev app]. unfold dims. constructor; [|constructor; [|constructor; [|constructor; [reflexivity|constructor; [|constructor]]]]].
        + exists lr0, lr1, gR. auto.
        + exists lt0, lt1, gT. auto.
        + exists y0, y1, gY. auto.
        + exists le0, le1, ge. auto.
      - apply full_stores; try assumption; try lia.
        + unfold dims. repeat (constructor; [cbn; lia|]). constructor.
        + cbn [total dims rd_size db_data]. cbn [rg_n real_grid]. rewrite Hlen. lia. }
    assert (HI : interpolates [Pos (rg_node rR a); Pos (rg_node rT b); Pos (rg_node rY y); Num (RadType2Idx type); Pos (rg_node rE e)] dims f (f [a; b; y; RadType2Idx type; e])).
    { apply node_interpolates; [apply (dims64_ok L _ _ (proj1 HH))|]. cbn [at_node rg_n real_grid dims]. repeat split; try lia. }
    pose proof (C64_by_energy_proof L F _ rR rT rY rE f _ _ _ type _ _ _ _ _ _ HL HG HF HH PR PT FY PE CR CT CY CE HI) as Q.
    replace (f [a; b; y; RadType2Idx type; e]) with (V x) in Q; [exact Q|].
    unfold f, value. cbn [map dims rd_size rg_n real_grid flat].
    replace (((((0 * NR + a) * NT + b) * NY + y) * 3 + RadType2Idx type) * NE + e)%Z with ((((a * NT + b) * NY + y) * 3 + RadType2Idx type) * NE + e)%Z by ring.
    now rewrite Ex.
  Qed.
  Lemma node4 F d a b y type x : 1 <= F <= 250 -> bounded F d -> Z.of_nat (List.length d) = (NR * NT * NY * 3)%Z ->
    (0 <= a < NR)%Z -> (0 <= b < NT)%Z -> (0 <= y < NY)%Z -> (0 <= RadType2Idx type < 3)%Z ->
    at_flat d (((a * NT + b) * NY + y) * 3 + RadType2Idx type) = Ok x ->
    returns (@sp_lookup4 b64 O {| db_dims := [3%Z; NY; NT; NR]; db_ranges := [None; Some gY; Some gT; Some gR]; db_data := d |}
      (rho a) (temp b) (@g_x b64 O gY y) type) (550 * F * (cells rR + cells rT + cells rY)) (pow10 (V x)).
  Proof.
    intros HF HB Hlen Ha Hb Hy Hc Ex.
    pose proof (n_two _ _ _ OR) as N1. pose proof (n_two _ _ _ OT) as N2. pose proof (n_two _ _ _ OY) as N3.
    destruct (rho_node a Ha) as [PR CR]. destruct (temp_node b Hb) as [PT CT]. destruct (Ye_node y Hy) as [FY CY].
    set (dims := [Axis rR; Axis rT; Axis rY; Index 3]).
    set (f := fun is => value d (flat (map rd_size dims) is 0)).
    assert (HH : holds64 L F {| db_dims := [3%Z; NY; NT; NR]; db_ranges := [None; Some gY; Some gT; Some gR]; db_data := d |} dims f).
    { split.
      - cbn [db_dims db_ranges combine rev app]. unfold dims. constructor; [|constructor; [|constructor; [|constructor; [reflexivity|constructor]]]].
        + exists lr0, lr1, gR. auto.
        + exists lt0, lt1, gT. auto.
        + exists y0, y1, gY. auto.
      - apply full_stores; try assumption; try lia.
        + unfold dims. repeat (constructor; [cbn; lia|]). constructor.
        + cbn [total dims rd_size db_data]. cbn [rg_n real_grid]. rewrite Hlen. lia. }
    assert (HI : interpolates [Pos (rg_node rR a); Pos (rg_node rT b); Pos (rg_node rY y); Num (RadType2Idx type)] dims f (f [a; b; y; RadType2Idx type])).
    { apply node_interpolates; [apply (dims64_ok L _ _ (proj1 HH))|]. cbn [at_node rg_n real_grid dims]. repeat split; try lia. }
    pose proof (C64_totals_proof L F _ rR rT rY f _ _ _ type _ _ _ _ HL HG HF HH PR PT FY CR CT CY HI) as Q.
    replace (f [a; b; y; RadType2Idx type]) with (V x) in Q; [exact Q|].
    unfold f, value. cbn [map dims rd_size rg_n real_grid flat].
    replace ((((0 * NR + a) * NT + b) * NY + y) * 3 + RadType2Idx type)%Z with (((a * NT + b) * NY + y) * 3 + RadType2Idx type)%Z by ring.
    now rewrite Ex.
  Qed.
End Nodes.

(** every position of a table is that of a cell *)
Lemma index_cells NR NT NY NE i : (0 < NT)%Z -> (0 < NY)%Z -> (0 < NE)%Z -> (0 <= i < NR * NT * NY * 3 * NE)%Z ->
  exists a b y s e, valid_cell NR NT NY 3 NE (C5 a b y s e) /\ i = sp_cell5 NT NY 3 NE a b y s e.
Proof.
  intros HT HY HE Hi.
  pose proof (Z.div_mod i NE ltac:(lia)) as D1. pose proof (Z.mod_pos_bound i NE HE) as M1. set (q1 := (i / NE)%Z) in *. set (m1 := (i mod NE)%Z) in *.
  assert (Q1 : (0 <= q1 < NR * NT * NY * 3)%Z) by (split; [apply Z.div_pos; lia|apply Z.div_lt_upper_bound; lia]). clearbody q1 m1.
  pose proof (Z.div_mod q1 3 ltac:(lia)) as D2. pose proof (Z.mod_pos_bound q1 3 ltac:(lia)) as M2. set (q2 := (q1 / 3)%Z) in *. set (m2 := (q1 mod 3)%Z) in *.
  assert (Q2 : (0 <= q2 < NR * NT * NY)%Z) by (split; [apply Z.div_pos; lia|apply Z.div_lt_upper_bound; lia]). clearbody q2 m2.
  pose proof (Z.div_mod q2 NY ltac:(lia)) as D3. pose proof (Z.mod_pos_bound q2 NY HY) as M3. set (q3 := (q2 / NY)%Z) in *. set (m3 := (q2 mod NY)%Z) in *.
  assert (Q3 : (0 <= q3 < NR * NT)%Z) by (split; [apply Z.div_pos; lia|apply Z.div_lt_upper_bound; lia]). clearbody q3 m3.
  pose proof (Z.div_mod q3 NT ltac:(lia)) as D4. pose proof (Z.mod_pos_bound q3 NT HT) as M4. set (q4 := (q3 / NT)%Z) in *. set (m4 := (q3 mod NT)%Z) in *.
  assert (Q4 : (0 <= q4 < NR)%Z) by (split; [apply Z.div_pos; lia|apply Z.div_lt_upper_bound; lia]). clearbody q4 m4.
  exists (Z.to_nat q4), (Z.to_nat m4), (Z.to_nat m3), (Z.to_nat m2), (Z.to_nat m1). cbn [valid_cell]. unfold sp_cell5, sp_cell4. rewrite !Z2Nat.id by lia.
  split; [lia|]. subst. ring.
Qed.

Lemma get2_nth (a b : list b64) c x y : get2 (a, b) c = Some (x, y) -> at_flat a c = Ok x /\ at_flat b c = Ok y /\ (0 <= c)%Z.
Proof.
  unfold get2, at_flat, load. cbn [fst snd]. destruct (Z.ltb_spec c 0) as [C|C]; [discriminate|].
  destruct (nth_error a _); [|discriminate]. destruct (nth_error b _); [|discriminate].
  intros E. injection E as <- <-. auto.
Qed.
Lemma at_flat_nth (l : list b64) c x i y : at_flat l c = Ok x -> (0 <= c)%Z -> Z.of_nat i = c -> nth_error l i = Some y -> x = y.
Proof.
  unfold at_flat, load. intros E H <- Hn. destruct (Z.ltb_spec (Z.of_nat i) 0); [lia|]. rewrite Nat2Z.id, Hn in E. congruence.
Qed.

(** what is written for a storable number *)
Lemma storable_log L F x : accurate_log10 L -> 1 <= F <= 240 -> storable F x ->
  let O := B64_ops L in
  let l := @sp_toLog b64 O (@Omax b64 O x (@OofZ b64 O 0)) in
  l = @ToLog b64 O x /\ fin l /\ Rabs (V l) <= 101 / 100 * F.
Proof.
  intros HG HF (Fx & Px & Bx) O l. fold (V x) in Px, Bx.
  assert (E : l = @ToLog b64 O x) by (unfold l, O; rewrite max_zero, toLog_same by assumption; reflexivity).
  split; [exact E|]. rewrite E. clear E l. pose proof (abs_both _ _ Bx) as Bx'.
  assert (U : 0 < u <= / 9000000000000000).
  { rewrite u_lit. split; [apply Rinv_0_lt_compat; lra|apply Rinv_le_contravar; lra]. }
  destruct (ToLog64 L HG x Fx) as [Fl El].
  { rewrite <- (pow10_log (V x) Px). destruct (pow10_range (log10 (V x)) ltac:(lra)) as [A B]. split.
    - apply Rle_trans with (2 := A). apply bpow_le. lia.
    - apply Rle_trans with (1 := B). apply bpow_le. lia. }
  split; [exact Fl|]. pose proof (abs_size _ _ _ _ El Bx) as Z. pose proof (Rabs_pos (log10 (V x))).
  assert (u * (2 * Rabs (log10 (V x)) + 13 / 10) <= / 9000000000000000 * (34 / 10 * F)) by (apply Rmult_le_compat; lra). unfold O. lra.
Qed.
Lemma storable_answer L F C x p : accurate_log10 L -> 1 <= F <= 240 -> 1 <= C <= 4000000 -> storable F p ->
  within (550 * (101 / 100 * F) * C) x (pow10 (V (@ToLog b64 (B64_ops L) p))) -> within (570 * F * C) x (V p).
Proof.
  intros HG HF HC (Fp & Pp & Bp) W. destruct (of_Z_exact 1) as [E1 F1]; [lia|].
  assert (FC : F * 1 <= F * C <= 240 * 4000000) by (split; [apply Rmult_le_compat_l; lra|apply Rmult_le_compat; lra]).
  assert (U0 : 0 < u) by apply u_pos.
  assert (NU : 0 <= 550 * (101 / 100 * F) * C * u <= 1 / 1000).
  { rewrite u_lit. replace (550 * (101 / 100 * F) * C) with (5555 / 10 * (F * C)) by field. split; [apply Rmult_le_pos; lra|].
    apply Rle_trans with (5555 / 10 * (240 * 4000000) * / 9007199254740992); [apply Rmult_le_compat_r; lra|lra]. }
  destruct (stored_number L x (b64_of_Z 1) p F (550 * (101 / 100 * F) * C) HG HF Fp Pp Bp) as [Fx Ex]; try assumption.
  - rewrite E1. lra.
  - rewrite E1, Rmult_1_l. exact W.
  - split; [exact Fx|]. rewrite E1, Rmult_1_l in Ex. apply Rle_trans with (1 := Ex). apply Rmult_le_compat_r; [apply Rabs_pos|].
    apply Rmult_le_compat_r; [fold u; lra|]. lra.
Qed.

(** Tabulating an opacity. If at the nodes the constructor asks the source answers numbers
    between 10^-F and 10^F, the table is built, and asked at its own nodes it gives back the
    answers of the source, up to roundings. The absorption coefficients are those of the source
    at the temperature in MeV instead of kelvin (finding C40). *)
Lemma C64_tabulated_proof :
  forall (L : Libm) (o : NuOpac b64) (F : R) (lr0 lr1 lt0 lt1 y0 y1 le0 le1 : b64) (NR NT NY NE : Z) (gR gT gY ge : Grid b64)
    (A Jn : nat -> nat -> nat -> RadiationType -> nat -> b64) (J N : nat -> nat -> nat -> RadiationType -> b64),
  let O := B64_ops L in
  let pc := @PhysicalConstantsCGS b64 O in
  let t0 := @Oadd b64 O lt0 (@Olog10 b64 O (@sp_K2MeV b64 O)) in
  let t1 := @Oadd b64 O lt1 (@Olog10 b64 O (@sp_K2MeV b64 O)) in
  let rho := fun a => @sp_fromLog b64 O (@g_x b64 O gR (Z.of_nat a)) in
  let MeV := fun b => @sp_fromLog b64 O (@g_x b64 O gT (Z.of_nat b)) in
  let temp := fun b => @Omul b64 O (MeV b) (@sp_MeV2K b64 O) in
  let Ye := fun y => @g_x b64 O gY (Z.of_nat y) in
  let nu := fun e => @Omul b64 O (@sp_MeV2Hz b64 O pc) (@sp_fromLog b64 O (@g_x b64 O ge (Z.of_nat e))) in
  let total := cells (real_grid lr0 lr1 NR) + cells (real_grid t0 t1 NT) + cells (real_grid y0 y1 NY) in
  let all := total + cells (real_grid le0 le1 NE) in
  let inside := fun a b y (type : RadiationType) =>
    (Z.of_nat a < NR)%Z /\ (Z.of_nat b < NT)%Z /\ (Z.of_nat y < NY)%Z /\ (0 <= RadType2Idx type < 3)%Z in
  accurate_libm L -> accurate_log10 L -> 1 <= F <= 240 ->
  ordinary lr0 lr1 NR -> ordinary t0 t1 NT -> ordinary y0 y1 NY -> ordinary le0 le1 NE ->
  extent (real_grid lr0 lr1 NR) <= 29 -> extent (real_grid t0 t1 NT) <= 18 -> extent (real_grid le0 le1 NE) <= 8 ->
  @mk_grid b64 O lr0 lr1 NR = Ok gR -> @mk_grid b64 O t0 t1 NT = Ok gT -> @mk_grid b64 O y0 y1 NY = Ok gY -> @mk_grid b64 O le0 le1 NE = Ok ge ->
  (forall a b y type, inside a b y type ->
     (nu_Emissivity o (rho a) (temp b) (Ye y) type = Ok (J a b y type) /\ storable F (J a b y type)) /\
     (nu_NumberEmissivity o (rho a) (temp b) (Ye y) type = Ok (N a b y type) /\ storable F (N a b y type)) /\
     forall e, (Z.of_nat e < NE)%Z ->
     (nu_Absorption o (rho a) (MeV b) (Ye y) type (nu e) = Ok (A a b y type e) /\ storable F (A a b y type e)) /\
     (nu_EmissivityPerNuOmega o (rho a) (temp b) (Ye y) type (nu e) = Ok (Jn a b y type e) /\ storable F (Jn a b y type e))) ->
  exists t, @sp_tabulate b64 O pc o lr0 lr1 NR lt0 lt1 NT y0 y1 NY le0 le1 NE = Ok t /\
  forall a b y type, inside a b y type ->
    returns (@sp_Emissivity b64 O t (rho a) (temp b) (Ye y) type) (570 * F * total) (B2R (J a b y type)) /\
    returns (@sp_NumberEmissivity b64 O t (rho a) (temp b) (Ye y) type) (570 * F * total) (B2R (N a b y type)) /\
    forall e, (Z.of_nat e < NE)%Z ->
      returns (@sp_Absorption b64 O pc t (rho a) (temp b) (Ye y) type (nu e)) (570 * F * all) (B2R (A a b y type e)) /\
      returns (@sp_EmissivityPerNuOmega b64 O pc t (rho a) (temp b) (Ye y) type (nu e)) (570 * F * all) (B2R (Jn a b y type e)) /\
      returns (@sp_EmissivityPerNu b64 O pc t (rho a) (temp b) (Ye y) type (nu e)) (570 * F * all + 4) (4 * PI * B2R (Jn a b y type e)).
Proof.
  intros L o F lr0 lr1 lt0 lt1 y0 y1 le0 le1 NR NT NY NE gR gT gY ge A Jn J N O pc t0 t1 rho MeV temp Ye nu total all inside
    HL HG HF OR OT OY OE XR XT XE GR GT GY GE SRC.
  pose proof (n_two _ _ _ OR) as N1. pose proof (n_two _ _ _ OT) as N2. pose proof (n_two _ _ _ OY) as N3. pose proof (n_two _ _ _ OE) as N4.
  assert (TYPE : forall s type, Idx2RadType (Z.of_nat s) = Ok type -> (Z.of_nat s < 3)%Z -> type = kind s /\ RadType2Idx (kind s) = Z.of_nat s).
  { intros s type Et Hs. destruct s as [|[|[|s]]]; [injection Et as <-; split; reflexivity..|lia]. }
  assert (KIND : forall s, (Z.of_nat s < 3)%Z -> RadType2Idx (kind s) = Z.of_nat s).
  { intros s Hs. destruct s as [|[|[|s]]]; [reflexivity..|lia]. }
  assert (KTYPE : forall type, (0 <= RadType2Idx type < 3)%Z -> kind (Z.to_nat (RadType2Idx type)) = type).
  { intros type Ht. destruct type; cbn in Ht; try lia; reflexivity. }
  destruct (fun X Y => @sp_fill_writes b64 O pc o gR gT gY ge NR NT NY NE A Jn J N X Y (@sp_zeros b64 O NR NT NY NEUTRINO_NTYPES NE)) as (d & Ed & Sd & Gd & _).
  { intros i j y s type e Et (H1 & H2 & H3 & H4 & H5). change NEUTRINO_NTYPES with 3%Z in H4. destruct (TYPE s type Et H4) as [-> Ek].
    destruct (SRC i j y (kind s)) as (_ & _ & Q); [unfold inside; rewrite Ek; lia|]. destruct (Q e H5) as ((Q1 & _) & (Q2 & _)). split; [exact Q1|exact Q2]. }
  { intros i j y s type Et (H1 & H2 & H3 & H4). change NEUTRINO_NTYPES with 3%Z in H4. destruct (TYPE s type Et H4) as [-> Ek].
    destruct (SRC i j y (kind s)) as ((Q1 & _) & (Q2 & _) & _); [unfold inside; rewrite Ek; lia|]. split; [exact Q1|exact Q2]. }
  { apply sized_zeros; unfold NEUTRINO_NTYPES; lia. }
  eexists. split.
  { unfold sp_tabulate. cbv zeta. fold t0 t1. rewrite GE, GY, GT, GR. cbn [bind]. rewrite Ed. cbn [bind]. reflexivity. }
  change NEUTRINO_NTYPES with 3%Z in *. cbn [sp_boxes].
  (* what is stored *)
  assert (C4 : forall a b y s, valid_cell NR NT NY 3 NE (C4 a b y s) -> let c := sp_cell4 NT NY 3 a b y s in (0 <= c)%Z /\
    at_flat (d_J d) c = Ok (@ToLog b64 O (J a b y (kind s))) /\ fin (@ToLog b64 O (J a b y (kind s))) /\ Rabs (V (@ToLog b64 O (J a b y (kind s)))) <= 101 / 100 * F /\
    at_flat (d_JYe d) c = Ok (@ToLog b64 O (N a b y (kind s))) /\ fin (@ToLog b64 O (N a b y (kind s))) /\ Rabs (V (@ToLog b64 O (N a b y (kind s)))) <= 101 / 100 * F).
  { intros a b y s Hv. pose proof (Gd _ Hv Hv) as G. cbn [get_cell cell_index tab_value] in G. apply get2_nth in G. destruct G as (G1 & G2 & G3).
    destruct Hv as (H1 & H2 & H3 & H4).
    destruct (SRC a b y (kind s)) as ((_ & Q1) & (_ & Q2) & _); [unfold inside; rewrite (KIND s H4); lia|].
    destruct (storable_log L F _ HG HF Q1) as (E1 & F1 & B1). destruct (storable_log L F _ HG HF Q2) as (E2 & F2 & B2).
    fold O in E1, E2, F1, F2, B1, B2. rewrite E1 in *. rewrite E2 in *. cbv zeta. auto 10. }
  assert (C5 : forall a b y s e, valid_cell NR NT NY 3 NE (C5 a b y s e) -> let c := sp_cell5 NT NY 3 NE a b y s e in (0 <= c)%Z /\
    at_flat (d_alpha d) c = Ok (@ToLog b64 O (A a b y (kind s) e)) /\ fin (@ToLog b64 O (A a b y (kind s) e)) /\ Rabs (V (@ToLog b64 O (A a b y (kind s) e))) <= 101 / 100 * F /\
    at_flat (d_jnu d) c = Ok (@ToLog b64 O (Jn a b y (kind s) e)) /\ fin (@ToLog b64 O (Jn a b y (kind s) e)) /\ Rabs (V (@ToLog b64 O (Jn a b y (kind s) e))) <= 101 / 100 * F).
  { intros a b y s e Hv. pose proof (Gd _ Hv Hv) as G. cbn [get_cell cell_index tab_value] in G. apply get2_nth in G. destruct G as (G1 & G2 & G3).
    destruct Hv as (H1 & H2 & H3 & H4 & H5).
    destruct (SRC a b y (kind s)) as (_ & _ & Q); [unfold inside; rewrite (KIND s H4); lia|]. destruct (Q e H5) as ((_ & Q1) & (_ & Q2)).
    destruct (storable_log L F _ HG HF Q1) as (E1 & F1 & B1). destruct (storable_log L F _ HG HF Q2) as (E2 & F2 & B2).
    fold O in E1, E2, F1, F2, B1, B2. rewrite E1 in *. rewrite E2 in *. cbv zeta. auto 10. }
  destruct Sd as (LJ & LN & LA & LE).
  assert (LT : forall (l : list b64) i x, nth_error l i = Some x -> (Z.of_nat i < Z.of_nat (List.length l))%Z).
  { intros l i x Hx. assert (i < List.length l)%nat by (apply nth_error_Some; rewrite Hx; discriminate). lia. }
  assert (B4 : bounded (101 / 100 * F) (d_J d) /\ bounded (101 / 100 * F) (d_JYe d)).
  { split; intros i x Hx; pose proof (LT _ _ _ Hx) as Hi; rewrite ?LJ, ?LN in Hi;
      destruct (index_cells NR NT NY 1 (Z.of_nat i) ltac:(lia) ltac:(lia) ltac:(lia) ltac:(lia)) as (a & b & y & s & e & (H1 & H2 & H3 & H4 & H5) & Ei);
      unfold sp_cell5 in Ei; assert (e = 0)%nat by lia; subst e; rewrite Z.mul_1_r, Z.add_0_r in Ei;
      destruct (C4 a b y s ltac:(cbn; lia)) as (P0 & P1 & P2 & P3 & P4 & P5 & P6).
    - pose proof (at_flat_nth _ _ _ i x P1 P0 Ei Hx) as <-. auto.
    - pose proof (at_flat_nth _ _ _ i x P4 P0 Ei Hx) as <-. auto. }
  assert (B5 : bounded (101 / 100 * F) (d_alpha d) /\ bounded (101 / 100 * F) (d_jnu d)).
  { split; intros i x Hx; pose proof (LT _ _ _ Hx) as Hi; rewrite ?LA, ?LE in Hi;
      destruct (index_cells NR NT NY NE (Z.of_nat i) ltac:(lia) ltac:(lia) ltac:(lia) ltac:(lia)) as (a & b & y & s & e & Hv & Ei);
      destruct (C5 a b y s e Hv) as (P0 & P1 & P2 & P3 & P4 & P5 & P6).
    - pose proof (at_flat_nth _ _ _ i x P1 P0 Ei Hx) as <-. auto.
    - pose proof (at_flat_nth _ _ _ i x P4 P0 Ei Hx) as <-. auto. }
  pose proof (cells_half _ _ _ OR) as K1. pose proof (cells_half _ _ _ OT) as K2. pose proof (cells_half _ _ _ OY) as K3. pose proof (cells_half _ _ _ OE) as K4.
  pose proof (cells_le _ _ _ OR) as M1. pose proof (cells_le _ _ _ OT) as M2. pose proof (cells_le _ _ _ OY) as M3. pose proof (cells_le _ _ _ OE) as M4.
  assert (HT : 1 <= total <= 4000000) by (unfold total; lra). assert (HA : 1 <= all <= 4000000) by (unfold all, total; lra).
  intros a b y type (Ha & Hb & Hy & Hk). destruct (SRC a b y type (conj Ha (conj Hb (conj Hy Hk)))) as ((_ & SJ) & (_ & SN) & SE).
  assert (V4 : valid_cell NR NT NY 3 NE (SpinerFacts.C4 a b y (Z.to_nat (RadType2Idx type)))) by (cbn; lia).
  destruct (C4 _ _ _ _ V4) as (_ & P1 & _ & _ & P4 & _ & _). unfold sp_cell4 in P1, P4. rewrite Z2Nat.id, KTYPE in P1, P4 by lia.
  split; [|split].
  - destruct (node4 L HL HG lr0 lr1 t0 t1 y0 y1 NR NT NY OR OT OY XR XT gR gT gY GR GT GY (101 / 100 * F) (d_J d) (Z.of_nat a) (Z.of_nat b) (Z.of_nat y) type _
      ltac:(lra) (proj1 B4) LJ ltac:(lia) ltac:(lia) ltac:(lia) Hk P1) as (x & Ex & Wx).
    exists x. split; [exact Ex|]. exact (storable_answer L F total x _ HG HF HT SJ Wx).
  - destruct (node4 L HL HG lr0 lr1 t0 t1 y0 y1 NR NT NY OR OT OY XR XT gR gT gY GR GT GY (101 / 100 * F) (d_JYe d) (Z.of_nat a) (Z.of_nat b) (Z.of_nat y) type _
      ltac:(lra) (proj2 B4) LN ltac:(lia) ltac:(lia) ltac:(lia) Hk P4) as (x & Ex & Wx).
    exists x. split; [exact Ex|]. exact (storable_answer L F total x _ HG HF HT SN Wx).
  - intros e He. destruct (SE e He) as ((_ & SA) & (_ & SJn)).
    assert (V5 : valid_cell NR NT NY 3 NE (SpinerFacts.C5 a b y (Z.to_nat (RadType2Idx type)) e)) by (cbn; lia).
    destruct (C5 _ _ _ _ _ V5) as (_ & Q1 & _ & _ & Q4 & _ & _). unfold sp_cell5, sp_cell4 in Q1, Q4. rewrite Z2Nat.id, KTYPE in Q1, Q4 by lia.
    destruct (node5 L HL HG lr0 lr1 t0 t1 y0 y1 le0 le1 NR NT NY NE OR OT OY OE XR XT XE gR gT gY ge GR GT GY GE (101 / 100 * F) (d_alpha d)
      (Z.of_nat a) (Z.of_nat b) (Z.of_nat y) type (Z.of_nat e) _ ltac:(lra) (proj1 B5) LA ltac:(lia) ltac:(lia) ltac:(lia) Hk ltac:(lia) Q1) as (x & Ex & Wx).
    destruct (node5 L HL HG lr0 lr1 t0 t1 y0 y1 le0 le1 NR NT NY NE OR OT OY OE XR XT XE gR gT gY ge GR GT GY GE (101 / 100 * F) (d_jnu d)
      (Z.of_nat a) (Z.of_nat b) (Z.of_nat y) type (Z.of_nat e) _ ltac:(lra) (proj2 B5) LE ltac:(lia) ltac:(lia) ltac:(lia) Hk ltac:(lia) Q4) as (z & Ez & Wz).
    pose proof (storable_answer L F all z _ HG HF HA SJn Wz) as WZ.
    split; [exists x; split; [exact Ex|exact (storable_answer L F all x _ HG HF HA SA Wx)]|].
    split; [exists z; split; [exact Ez|exact WZ]|].
    exists (@Omul b64 O (@Omul b64 O (@OofZ b64 O 4) (@Opi b64 O)) z). split.
    + transitivity (bind (Ok z) (fun j => Ok (@Omul b64 O (@Omul b64 O (@OofZ b64 O 4) (@Opi b64 O)) j))); [rewrite <- Ez; reflexivity|reflexivity].
    + assert (FC : 0 <= F * all <= 240 * 4000000) by (split; [apply Rmult_le_pos; lra|apply Rmult_le_compat; lra]).
      apply four_pi; [exact WZ|lra| |].
      * rewrite u_lit. apply Rle_trans with (570 * (240 * 4000000) * / 9007199254740992); [apply Rmult_le_compat_r; lra|lra].
      * destruct SJn as (_ & Pz & Bz). rewrite <- (pow10_log _ Pz). apply abs_both in Bz.
        destruct (pow10_range (log10 (B2R (Jn a b y type e))) ltac:(lra)) as [R1 R2].
        split; [apply Rle_trans with (2 := R1)|apply Rle_trans with (1 := R2)]; apply bpow_le; lia.
Qed.

(** ** Examples *)
Definition grid01 : rgrid := real_grid (ex_z 0) (ex_z 1) 2.
Lemma self_coordinate x : 0 <= x <= 1 -> coordinate 14 grid01 x x.
Proof.
  intros H. destruct (ex_zv 0 ltac:(lia)) as [_ V0]. destruct (ex_zv 1 ltac:(lia)) as [_ V1]. split.
  - unfold rg_inside, grid01. cbn [real_grid rg_lo rg_hi]. fold (V (ex_z 0)) (V (ex_z 1)). rewrite V0, V1. exact H.
  - rewrite Rminus_diag_eq, Rabs_R0 by reflexivity. apply Rmult_le_pos; [apply Rmult_le_pos; [lra|left; apply Rinv_0_lt_compat, pow_lt; lra]|].
    apply Rle_trans with 1; [lra|]. apply Rmax_l.
Qed.
Lemma log01 x : 1 <= x <= 10 -> 0 <= log10 x <= 1.
Proof.
  intros H. pose proof ln10 as L10. assert (A : log10 1 = 0) by (unfold log10; rewrite ln_1; unfold Rdiv; ring).
  assert (B : log10 10 = 1) by (unfold log10; field; lra). split.
  - rewrite <- A. apply log_up; lra.
  - rewrite <- B. apply log_up; lra.
Qed.
Definition ex_list (n : nat) : list b64 := map (fun k => ex_z (Z.of_nat k mod 4)) (seq 0 n).
Lemma ex_list_bounded n : bounded 4 (ex_list n).
Proof.
  intros i x H. apply nth_error_In in H. unfold ex_list in H. apply in_map_iff in H. destruct H as (k & <- & _).
  pose proof (Z.mod_pos_bound (Z.of_nat k) 4 ltac:(lia)) as K. destruct (ex_zv (Z.of_nat k mod 4) ltac:(lia)) as [F E]. split; [exact F|].
  rewrite E, <- abs_IZR. apply IZR_le. lia.
Qed.

(** Forty-eight numbers on two densities, temperatures, electron fractions and energies, and the
    three species, asked at density 5, at 3*2^34 kelvin (4.4 MeV), electron fraction 1/4 and
    2^70 hertz (4.9 MeV), between the nodes: C64_by_energy, and C64_per_frequency for the tables
    holding this one. *)
Lemma C64_by_energy_example :
  exists L F b gR gT gY gE f (rho temp Ye : b64) type (nu : b64) yR yT yY yE r,
  let dims := [Axis gR; Axis gT; Axis gY; Index 3; Axis gE] in
  accurate_libm L /\ accurate_log10 L /\ 1 <= F <= 250 /\
  holds64 L F b dims f /\ physical rho /\ physical temp /\ is_finite Ye = true /\ physical nu /\
  coordinate 14 gR (log10 (B2R rho)) yR /\ coordinate 14 gT (log10 (temp_MeV (B2R temp))) yT /\
  coordinate 14 gY (B2R Ye) yY /\ coordinate 14 gE (log10 (energy_MeV (B2R nu))) yE /\
  interpolates [Pos yR; Pos yT; Pos yY; Num (RadType2Idx type); Pos yE] dims f r /\
  B2R rho = 5 /\ B2R temp = 3 * 2 ^ 34 /\ B2R Ye = 1 / 4 /\ B2R nu = 2 ^ 70 /\ List.length (db_data b) = 48%nat.
Proof.
  destruct (ex_axis 0 1 ltac:(lia) ltac:(lia) ltac:(lia)) as [OR _]. destruct (ex_grid 0 1 ltac:(lia) ltac:(lia)) as [g GR].
  destruct (ex_zv 5 ltac:(lia)) as [F5 V5]. destruct (V_lit 3 34) as [Et Ft]; try lia. destruct (V_lit 1 (-2)) as [Ey Fy]; try lia. destruct (V_lit 1 70) as [En Fn]; try lia.
  change (bp 34) with (IZR (2 ^ 34)) in Et. change (bp 70) with (IZR (2 ^ 70)) in En. change (bp (-2)) with (/ 4) in Ey.
  set (temp := b64_ldexp 3 34) in *. set (ye := b64_ldexp 1 (-2)) in *. set (nu := b64_ldexp 1 70) in *. clearbody temp ye nu.
  set (d := ex_list 48).
  set (dims := [Axis grid01; Axis grid01; Axis grid01; Index 3; Axis grid01]).
  set (f := fun is => value d (flat [2%Z; 2%Z; 2%Z; 3%Z; 2%Z] is 0)).
  assert (AX : dim64 nearest_libm (2%Z, Some g) (Axis grid01)).
  { exists (ex_z 0), (ex_z 1), g. split; [reflexivity|]. split; [exact OR|]. split; [exact GR|reflexivity]. }
  assert (HH : holds64 nearest_libm 4 {| db_dims := [2%Z; 3%Z; 2%Z; 2%Z; 2%Z]; db_ranges := [Some g; None; Some g; Some g; Some g]; db_data := d |} dims f).
  { split.
    - cbn [db_dims db_ranges combine rev app]. unfold dims. constructor; [exact AX|]. constructor; [exact AX|]. constructor; [exact AX|]. constructor; [reflexivity|]. constructor; [exact AX|constructor].
    - apply (full_stores 4 dims); [repeat constructor; cbn; lia|apply ex_list_bounded|lia|cbn [total dims grid01 rd_size real_grid rg_n db_data]; vm_compute; congruence]. }
  assert (PH : forall x : b64, fin x -> 1 <= V x <= IZR (2 ^ 100) -> physical x).
  { intros x Fx Hx. split; [exact Fx|]. fold (V x). rewrite two_pow_bp. change (bp (Z.of_nat 100)) with (IZR (2 ^ 100)). split; [|apply Hx].
    apply Rle_trans with 1; [|apply Hx]. rewrite <- Rinv_1. apply Rinv_le_contravar; [lra|]. apply IZR_le. vm_compute. congruence. }
  assert (CR : coordinate 14 grid01 (log10 (V (ex_z 5))) (log10 (V (ex_z 5)))) by (apply self_coordinate, log01; rewrite V5; lra).
  assert (CT : coordinate 14 grid01 (log10 (temp_MeV (V temp))) (log10 (temp_MeV (V temp)))).
  { apply self_coordinate, log01. rewrite Et. unfold temp_MeV, kelvin_per_MeV. change (2 ^ 34)%Z with 17179869184%Z. lra. }
  assert (CE : coordinate 14 grid01 (log10 (energy_MeV (V nu))) (log10 (energy_MeV (V nu)))).
  { apply self_coordinate, log01. rewrite En. unfold energy_MeV, h_cgs, eV_cgs. change (2 ^ 70)%Z with 1180591620717411303424%Z. simpl. lra. }
  assert (CY : coordinate 14 grid01 (V ye) (V ye)) by (apply self_coordinate; rewrite Ey; lra).
  set (yR := log10 (V (ex_z 5))) in *. set (yT := log10 (temp_MeV (V temp))) in *. set (yE := log10 (energy_MeV (V nu))) in *.
  assert (INS : inside [Pos yR; Pos yT; Pos (V ye); Num 2%Z; Pos yE] dims).
  { cbn [inside dims]. split; [apply CR|]. split; [apply CT|]. split; [apply CY|]. split; [lia|]. split; [apply CE|exact I]. }
  destruct (interpolant_exists dims _ f ltac:(eapply dims64_ok; apply HH) INS) as [r Er].
  exists nearest_libm, 4. eexists. exists grid01, grid01, grid01, grid01, f, (ex_z 5), temp, ye, NU_HEAVY, nu, yR, yT, (V ye), yE, r. cbv zeta.
  split; [apply nearest_accurate|]. split; [apply nearest_log10_accurate|]. split; [lra|]. split; [exact HH|].
  split; [apply ex_phys; lia|].
  split; [apply PH; [exact Ft|rewrite Et; change (2 ^ 34)%Z with 17179869184%Z; split; [lra|]; rewrite <- mult_IZR; apply IZR_le; vm_compute; congruence]|].
  split; [exact Fy|].
  split; [apply PH; [exact Fn|rewrite En, Rmult_1_l; split; apply IZR_le; vm_compute; congruence]|].
  split; [exact CR|]. split; [exact CT|]. split; [exact CY|]. split; [exact CE|]. split; [exact Er|].
  split; [exact V5|]. split; [fold (V temp); rewrite Et; f_equal; rewrite two_pow_bp; reflexivity|].
  split; [fold (V ye); rewrite Ey; lra|]. split; [|reflexivity]. fold (V nu). rewrite En, Rmult_1_l, two_pow_bp. reflexivity.
Qed.

(** Twenty-four numbers, the same without the energy: C64_totals. *)
Lemma C64_totals_example :
  exists L F b gR gT gY f (rho temp Ye : b64) type yR yT yY r,
  let dims := [Axis gR; Axis gT; Axis gY; Index 3] in
  accurate_libm L /\ accurate_log10 L /\ 1 <= F <= 250 /\
  holds64 L F b dims f /\ physical rho /\ physical temp /\ is_finite Ye = true /\
  coordinate 14 gR (log10 (B2R rho)) yR /\ coordinate 14 gT (log10 (temp_MeV (B2R temp))) yT /\ coordinate 14 gY (B2R Ye) yY /\
  interpolates [Pos yR; Pos yT; Pos yY; Num (RadType2Idx type)] dims f r /\
  B2R rho = 5 /\ B2R temp = 3 * 2 ^ 34 /\ B2R Ye = 1 / 4 /\ List.length (db_data b) = 24%nat.
Proof.
  destruct (ex_axis 0 1 ltac:(lia) ltac:(lia) ltac:(lia)) as [OR _]. destruct (ex_grid 0 1 ltac:(lia) ltac:(lia)) as [g GR].
  destruct (ex_zv 5 ltac:(lia)) as [F5 V5]. destruct (V_lit 3 34) as [Et Ft]; try lia. destruct (V_lit 1 (-2)) as [Ey Fy]; try lia.
  change (bp 34) with (IZR (2 ^ 34)) in Et. change (bp (-2)) with (/ 4) in Ey.
  set (temp := b64_ldexp 3 34) in *. set (ye := b64_ldexp 1 (-2)) in *. clearbody temp ye.
  set (d := ex_list 24).
  set (dims := [Axis grid01; Axis grid01; Axis grid01; Index 3]).
  set (f := fun is => value d (flat [2%Z; 2%Z; 2%Z; 3%Z] is 0)).
  assert (AX : dim64 nearest_libm (2%Z, Some g) (Axis grid01)).
  { exists (ex_z 0), (ex_z 1), g. split; [reflexivity|]. split; [exact OR|]. split; [exact GR|reflexivity]. }
  assert (HH : holds64 nearest_libm 4 {| db_dims := [3%Z; 2%Z; 2%Z; 2%Z]; db_ranges := [None; Some g; Some g; Some g]; db_data := d |} dims f).
  { split.
    - cbn [db_dims db_ranges combine rev app]. unfold dims. constructor; [exact AX|]. constructor; [exact AX|]. constructor; [exact AX|]. constructor; [reflexivity|constructor].
    - apply (full_stores 4 dims); [repeat constructor; cbn; lia|apply ex_list_bounded|lia|cbn [total dims grid01 rd_size real_grid rg_n db_data]; vm_compute; congruence]. }
  assert (CR : coordinate 14 grid01 (log10 (V (ex_z 5))) (log10 (V (ex_z 5)))) by (apply self_coordinate, log01; rewrite V5; lra).
  assert (CT : coordinate 14 grid01 (log10 (temp_MeV (V temp))) (log10 (temp_MeV (V temp)))).
  { apply self_coordinate, log01. rewrite Et. unfold temp_MeV, kelvin_per_MeV. change (2 ^ 34)%Z with 17179869184%Z. lra. }
  assert (CY : coordinate 14 grid01 (V ye) (V ye)) by (apply self_coordinate; rewrite Ey; lra).
  set (yR := log10 (V (ex_z 5))) in *. set (yT := log10 (temp_MeV (V temp))) in *.
  assert (INS : inside [Pos yR; Pos yT; Pos (V ye); Num 2%Z] dims).
  { cbn [inside dims]. split; [apply CR|]. split; [apply CT|]. split; [apply CY|]. split; [lia|exact I]. }
  destruct (interpolant_exists dims _ f ltac:(eapply dims64_ok; apply HH) INS) as [r Er].
  exists nearest_libm, 4. eexists. exists grid01, grid01, grid01, f, (ex_z 5), temp, ye, NU_HEAVY, yR, yT, (V ye), r. cbv zeta.
  split; [apply nearest_accurate|]. split; [apply nearest_log10_accurate|]. split; [lra|]. split; [exact HH|].
  split; [apply ex_phys; lia|].
  split.
  { split; [exact Ft|]. fold (V temp). rewrite Et, two_pow_bp. change (bp (Z.of_nat 100)) with (IZR (2 ^ 100)). change (2 ^ 34)%Z with 17179869184%Z. split.
    - apply Rle_trans with 1; [|lra]. rewrite <- Rinv_1. apply Rinv_le_contravar; [lra|]. apply IZR_le. vm_compute. congruence.
    - rewrite <- mult_IZR. apply IZR_le. vm_compute. congruence. }
  split; [exact Fy|]. split; [exact CR|]. split; [exact CT|]. split; [exact CY|]. split; [exact Er|].
  split; [exact V5|]. split; [fold (V temp); rewrite Et; f_equal; rewrite two_pow_bp; reflexivity|].
  split; [fold (V ye); rewrite Ey; lra|reflexivity].
Qed.

(** The double nearest to lt + log10(8.617e-11), for whole lt. *)
Lemma ex_t k : (0 <= k <= 30)%Z -> let O := B64_ops nearest_libm in let t := @Oadd b64 O (ex_z k) (@Olog10 b64 O (@sp_K2MeV b64 O)) in
  fin t /\ IZR k - 11 - 1 / 10 <= V t <= IZR k - 10 + 1 / 10.
Proof.
  intros Hk O t. destruct (ex_zv k ltac:(lia)) as [Fk Vk]. pose proof (c_K2MeV nearest_libm) as N. pose proof N as (Fz & _ & R & Bz).
  pose proof (log_near _ _ _ _ _ N) as LN. assert (U := u_lit).
  assert (Pz : 0 < V (@sp_K2MeV b64 (B64_ops nearest_libm))).
  { apply Rlt_le_trans with (2 := proj1 Bz). apply Rmult_lt_0_compat; [|apply exp_pos]. pose proof (bpow_gt_0 radix2 (-34)). lra. }
  destruct (nearest_log10_accurate _ Fz Pz) as [Fl Bl].
  assert (LG : - (11) <= log10 (/ kelvin_per_MeV) <= - (10)).
  { assert (P : forall n, log10 (/ 10 ^ n) = - INR n).
    { intros n. unfold log10. rewrite ln_Rinv by (apply pow_lt; lra). rewrite <- Rpower_pow by lra. unfold Rpower. rewrite ln_exp. pose proof ln10. field. lra. }
    pose proof (P 11%nat) as P11. pose proof (P 10%nat) as P10. rewrite INR_IZR_INZ in P11, P10. cbn [Z.of_nat] in P11, P10. simpl Z.of_nat in P11, P10.
    unfold kelvin_per_MeV. split.
    - replace (- (11)) with (log10 (/ 10 ^ 11)) by (rewrite P11; reflexivity). apply log_up; [apply Rinv_0_lt_compat, pow_lt; lra|]. simpl. lra.
    - replace (- (10)) with (log10 (/ 10 ^ 10)) by (rewrite P10; reflexivity). apply log_up; [lra|]. simpl. lra. }
  fold O in N, LN, Pz, Bl, Fl. change (lm_log10 nearest_libm) with (@Olog10 b64 O) in Bl, Fl.
  set (z := @sp_K2MeV b64 O) in *. fold (V z) in Bl. set (l := @Olog10 b64 O z) in *. fold (V l) in Bl. fold u in Bl.
  assert (Rl : - (11) - 1 / 1000 <= V l <= - (10) + 1 / 1000).
  { apply Rabs_le_inv in LN. rewrite U in LN, Bl. assert (A : Rabs (log10 (V z)) <= 12) by (apply Rabs_le; lra).
    assert (B : Rabs (V l - log10 (V z)) <= 2 * / 9007199254740992 * 12) by (apply Rle_trans with (1 := Bl); apply Rmult_le_compat_l; lra).
    apply Rabs_le_inv in B. lra. }
  pose proof (IZR_le _ _ (proj1 Hk)) as K0. pose proof (IZR_le _ _ (proj2 Hk)) as K1.
  destruct (op_add (ex_z k) l 50 Fk Fl) as [Ft Bt].
  - rewrite Vk. apply Rabs_le. lra.
  - apply small_900. lra.
  - apply big_1000. lra.
  - split; [exact Ft|]. change (Bplus mode_NE (ex_z k) l) with t in Bt. rewrite Vk, U in Bt. apply Rabs_le_inv in Bt. lra.
Qed.

(** Tables on two densities from 1 to 10, two temperatures from 10^10 to 10^13 kelvin, electron
    fractions 0 and 1 and two energies from 1 to 10 MeV, of a source whose absorption is the
    density, whose totals are the temperature and whose emissivity is the frequency. *)
Definition ex_source : NuOpac b64 :=
  let O := B64_ops nearest_libm in {|
  nu_Absorption := fun rho temp Ye type nu => Ok rho;
  nu_Absorption_v := fun rho temp Ye type xs ys n m => Error;
  nu_AngleAvgAbsorption := fun rho temp Ye type nu => Ok rho;
  nu_AngleAvgAbsorption_v := fun rho temp Ye type xs ys n m => Error;
  nu_EmissivityPerNuOmega := fun rho temp Ye type nu => Ok nu;
  nu_EmissivityPerNuOmega_v := fun rho temp Ye type xs ys n m => Error;
  nu_EmissivityPerNu := fun rho temp Ye type nu => Ok nu;
  nu_EmissivityPerNu_v := fun rho temp Ye type xs ys n m => Error;
  nu_Emissivity := fun rho temp Ye type => Ok temp;
  nu_NumberEmissivity := fun rho temp Ye type => Ok temp;
  nu_ThermalDistributionOfTNu := fun temp type nu => Error;
  nu_DThermalDistributionOfTNuDT := fun temp type nu => Error;
  nu_ThermalDistributionOfT := fun temp type => Error;
  nu_ThermalNumberDistributionOfT := fun temp type => Error;
  nu_EnergyDensityFromTemperature := fun temp type => Error;
  nu_TemperatureFromEnergyDensity := fun er type => Error;
  nu_NumberDensityFromTemperature := fun temp type => Error;
  nu_RuntimePC := @RuntimePC_of b64 O (@PhysicalConstantsCGS b64 O);
  nu_nlambda := 0%Z |}.
Lemma physical_storable x : physical x -> storable 31 x.
Proof.
  intros (Fx & L1 & L2). rewrite two_pow_bp in L1, L2. change (bp (Z.of_nat 100)) with (IZR (2 ^ 100)) in L1, L2.
  assert (P0 : 0 < IZR (2 ^ 100)) by (apply (IZR_lt 0); reflexivity).
  assert (Px : 0 < B2R x) by (apply Rlt_le_trans with (2 := L1); apply Rinv_0_lt_compat; exact P0).
  split; [exact Fx|]. split; [exact Px|].
  assert (PN : log10 (10 ^ 31) = 31).
  { unfold log10. rewrite <- Rpower_pow by lra. unfold Rpower. rewrite ln_exp, INR_IZR_INZ. change (Z.of_nat 31) with 31%Z. pose proof ln10. field. lra. }
  assert (BIG : IZR (2 ^ 100) <= 10 ^ 31) by (rewrite pow_IZR; apply IZR_le; vm_compute; congruence).
  assert (UP : forall y, 0 < y <= IZR (2 ^ 100) -> log10 y <= 31) by (intros y Hy; rewrite <- PN; apply log_up; lra).
  apply Rabs_le. split; [|apply UP; lra].
  assert (E : log10 (/ B2R x) = - log10 (B2R x)) by (unfold log10; rewrite ln_Rinv by exact Px; unfold Rdiv; ring).
  assert (Q : log10 (/ B2R x) <= 31).
  { apply UP. split; [now apply Rinv_0_lt_compat|]. rewrite <- (Rinv_inv (IZR (2 ^ 100))). apply Rinv_le_contravar; [now apply Rinv_0_lt_compat|exact L1]. }
  lra.
Qed.
Lemma C64_tabulated_example :
  exists (L : Libm) (o : NuOpac b64) (F : R) (lr0 lr1 lt0 lt1 y0 y1 le0 le1 : b64) (NR NT NY NE : Z) (gR gT gY ge : Grid b64)
    (A Jn : nat -> nat -> nat -> RadiationType -> nat -> b64) (J N : nat -> nat -> nat -> RadiationType -> b64),
  let O := B64_ops L in
  let pc := @PhysicalConstantsCGS b64 O in
  let t0 := @Oadd b64 O lt0 (@Olog10 b64 O (@sp_K2MeV b64 O)) in
  let t1 := @Oadd b64 O lt1 (@Olog10 b64 O (@sp_K2MeV b64 O)) in
  let rho := fun a => @sp_fromLog b64 O (@g_x b64 O gR (Z.of_nat a)) in
  let MeV := fun b => @sp_fromLog b64 O (@g_x b64 O gT (Z.of_nat b)) in
  let temp := fun b => @Omul b64 O (MeV b) (@sp_MeV2K b64 O) in
  let Ye := fun y => @g_x b64 O gY (Z.of_nat y) in
  let nu := fun e => @Omul b64 O (@sp_MeV2Hz b64 O pc) (@sp_fromLog b64 O (@g_x b64 O ge (Z.of_nat e))) in
  let inside := fun a b y (type : RadiationType) =>
    (Z.of_nat a < NR)%Z /\ (Z.of_nat b < NT)%Z /\ (Z.of_nat y < NY)%Z /\ (0 <= RadType2Idx type < 3)%Z in
  accurate_libm L /\ accurate_log10 L /\ 1 <= F <= 240 /\
  ordinary lr0 lr1 NR /\ ordinary t0 t1 NT /\ ordinary y0 y1 NY /\ ordinary le0 le1 NE /\
  extent (real_grid lr0 lr1 NR) <= 29 /\ extent (real_grid t0 t1 NT) <= 18 /\ extent (real_grid le0 le1 NE) <= 8 /\
  @mk_grid b64 O lr0 lr1 NR = Ok gR /\ @mk_grid b64 O t0 t1 NT = Ok gT /\ @mk_grid b64 O y0 y1 NY = Ok gY /\ @mk_grid b64 O le0 le1 NE = Ok ge /\
  (forall a b y type, inside a b y type ->
     (nu_Emissivity o (rho a) (temp b) (Ye y) type = Ok (J a b y type) /\ storable F (J a b y type)) /\
     (nu_NumberEmissivity o (rho a) (temp b) (Ye y) type = Ok (N a b y type) /\ storable F (N a b y type)) /\
     forall e, (Z.of_nat e < NE)%Z ->
     (nu_Absorption o (rho a) (MeV b) (Ye y) type (nu e) = Ok (A a b y type e) /\ storable F (A a b y type e)) /\
     (nu_EmissivityPerNuOmega o (rho a) (temp b) (Ye y) type (nu e) = Ok (Jn a b y type e) /\ storable F (Jn a b y type e))) /\
  B2R lt0 = 10 /\ B2R lt1 = 13 /\ (forall r t y ty n, nu_Absorption o r t y ty n = Ok r).
Proof.
  destruct (ex_axis 0 1 ltac:(lia) ltac:(lia) ltac:(lia)) as [OR _]. destruct (ex_grid 0 1 ltac:(lia) ltac:(lia)) as [g GR].
  destruct (ex_zv 0 ltac:(lia)) as [F0 V0]. destruct (ex_zv 1 ltac:(lia)) as [F1 V1].
  assert (X0 : extent (real_grid (ex_z 0) (ex_z 1) 2) <= 8).
  { unfold extent. cbn [real_grid rg_lo rg_hi]. fold (V (ex_z 0)) (V (ex_z 1)). rewrite V0, V1, Rabs_R0, Rabs_R1. repeat apply Rmax_lub; lra. }
  destruct (ex_t 10 ltac:(lia)) as [Ft0 Bt0]. destruct (ex_t 13 ltac:(lia)) as [Ft1 Bt1].
  set (t0 := @Oadd b64 (B64_ops nearest_libm) (ex_z 10) (@Olog10 b64 (B64_ops nearest_libm) (@sp_K2MeV b64 (B64_ops nearest_libm)))) in *.
  set (t1 := @Oadd b64 (B64_ops nearest_libm) (ex_z 13) (@Olog10 b64 (B64_ops nearest_libm) (@sp_K2MeV b64 (B64_ops nearest_libm)))) in *.
  assert (XT : extent (real_grid t0 t1 2) <= 4).
  { unfold extent. cbn [real_grid rg_lo rg_hi]. fold (V t0) (V t1). repeat apply Rmax_lub; [lra|apply Rabs_le; lra..]. }
  assert (OT : ordinary t0 t1 2).
  { split; [exact Ft0|]. split; [exact Ft1|]. fold (V t0) (V t1). split; [lra|]. split; [lia|]. split; [lra|].
    unfold cells, rg_dx. cbn [real_grid rg_lo rg_hi rg_n]. fold (V t0) (V t1). change (IZR (2 - 1)) with 1. rewrite Rdiv_1.
    apply Rle_trans with (4 / 1); [|lra]. unfold Rdiv. pose proof (extent_1 t0 t1 2).
    apply Rmult_le_compat; [lra|left; apply Rinv_0_lt_compat; lra|lra|]. apply Rinv_le_contravar; lra. }
  assert (GT : exists g, @mk_grid b64 (B64_ops nearest_libm) t0 t1 2 = Ok g).
  { unfold mk_grid. change (@Oltb b64 (B64_ops nearest_libm) t0 t1) with (Bltb t0 t1). rewrite Bltb_correct by assumption. fold (V t0) (V t1).
    rewrite Rlt_bool_true by lra. now eexists. }
  destruct GT as [gT GT].
  pose proof (fun a Ha => proj1 (rho_node nearest_libm nearest_accurate (ex_z 0) (ex_z 1) 2 OR ltac:(lra) g GR a Ha)) as PR.
  pose proof (fun a Ha => proj1 (temp_node nearest_libm nearest_accurate t0 t1 2 OT ltac:(lra) gT GT a Ha)) as PT.
  pose proof (fun a Ha => proj1 (nu_node nearest_libm nearest_accurate (ex_z 0) (ex_z 1) 2 OR ltac:(lra) g GR a Ha)) as PN.
  exists nearest_libm, ex_source, 31, (ex_z 0), (ex_z 1), (ex_z 10), (ex_z 13), (ex_z 0), (ex_z 1), (ex_z 0), (ex_z 1), 2%Z, 2%Z, 2%Z, 2%Z, g, gT, g, g.
  exists (fun a b y type e => @sp_fromLog b64 (B64_ops nearest_libm) (@g_x b64 (B64_ops nearest_libm) g (Z.of_nat a))).
  exists (fun a b y type e => @Omul b64 (B64_ops nearest_libm) (@sp_MeV2Hz b64 (B64_ops nearest_libm) (@PhysicalConstantsCGS b64 (B64_ops nearest_libm))) (@sp_fromLog b64 (B64_ops nearest_libm) (@g_x b64 (B64_ops nearest_libm) g (Z.of_nat e)))).
  exists (fun a b y type => @Omul b64 (B64_ops nearest_libm) (@sp_fromLog b64 (B64_ops nearest_libm) (@g_x b64 (B64_ops nearest_libm) gT (Z.of_nat b))) (@sp_MeV2K b64 (B64_ops nearest_libm))).
  exists (fun a b y type => @Omul b64 (B64_ops nearest_libm) (@sp_fromLog b64 (B64_ops nearest_libm) (@g_x b64 (B64_ops nearest_libm) gT (Z.of_nat b))) (@sp_MeV2K b64 (B64_ops nearest_libm))).
  cbv zeta. fold t0 t1.
  split; [apply nearest_accurate|]. split; [apply nearest_log10_accurate|]. split; [lra|].
  split; [exact OR|]. split; [exact OT|]. split; [exact OR|]. split; [exact OR|]. split; [lra|]. split; [lra|]. split; [lra|].
  split; [exact GR|]. split; [exact GT|]. split; [exact GR|]. split; [exact GR|].
  split.
  { intros a b y type (Ha & Hb & Hy & Hs). 
    pose proof (physical_storable _ (PR (Z.of_nat a) ltac:(lia))) as SR. pose proof (physical_storable _ (PT (Z.of_nat b) ltac:(lia))) as ST.
    split; [split; [reflexivity|exact ST]|]. split; [split; [reflexivity|exact ST]|]. intros e He.
    pose proof (physical_storable _ (PN (Z.of_nat e) ltac:(lia))) as SN. split; (split; [reflexivity|]); [exact SR|exact SN]. }
  destruct (ex_zv 10 ltac:(lia)) as [_ E10]. destruct (ex_zv 13 ltac:(lia)) as [_ E13].
  split; [exact E10|]. split; [exact E13|]. reflexivity.
Qed.
