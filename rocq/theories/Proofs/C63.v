(** C63: lookups in tables of logarithms, in double precision. *)
From Coquelicot Require Import Coquelicot.
From Coq Require Import Reals ZArith List Lra Lia Bool.
From Flocq Require Import Core IEEE754.BinarySingleNaN.
From Verif Require Import Base.Outcome Base.Ops Inst.B64 Model.RadTypes Model.Constants Model.Indexers Model.MeanUtils Model.Spiner
  Model.MeanPhotons Model.MeanNeutrinos Spec.Physics Spec.Arrays Spec.Means Spec.Tables Spec.DoublePrecision Spec.DoubleMeans Spec.DoubleTables Proofs.B64Facts
  Proofs.MeanFacts Proofs.BuildTable Proofs.Near Proofs.NearRules Proofs.NearPhotons Proofs.DoubleMeans Proofs.Weights Proofs.C20 Proofs.NarrowGroup Proofs.DoubleTables Proofs.DoubleLookup Proofs.C56 Proofs.C62.
Import ListNotations.
Open Scope R_scope.

Lemma phys_range x : physical x -> bp (-900) <= V x <= bp 900.
Proof.
  intros [F H]. fold (V x) in H. rewrite two_pow_bp, <- bpow_opp in H. split.
  - apply Rle_trans with (2 := proj1 H). apply bpow_le. vm_compute. congruence.
  - apply Rle_trans with (1 := proj2 H). apply bpow_le. vm_compute. congruence.
Qed.

(** the common end: from the interpolated logarithm to the answer *)
Lemma answer L F b dims cs rs f r rho : accurate_libm L -> 1 <= F <= 250 -> (length dims <= 5)%nat -> 1 <= all_cells dims ->
  holds64 L F b dims f -> query64 cs rs dims -> interpolates rs dims f r -> physical rho ->
  exists v, interpToReal (O := B64_ops L) b cs = Ok v /\
    within (550 * F * all_cells dims) (Bmult mode_NE rho (@FromLog b64 (B64_ops L) v)) (V rho * pow10 r).
Proof.
  intros HL HF Hl Hc HH HQ HI Hr.
  destruct (lookup64 L F ltac:(lra) b dims cs rs f r ltac:(lia) HH HQ HI) as (v & Ev & Fv & Rv & Br).
  exists v. split; [exact Ev|]. set (C := all_cells dims) in *.
  assert (HC : C <= 1000000 * 5).
  { apply Rle_trans with (1 := proj2 (all_cells_bound dims (dims64_ok _ _ _ (proj1 HH)))). apply Rmult_le_compat_l; [lra|].
    apply (le_INR _ 5) in Hl. simpl in Hl. lra. }
  assert (FC : 1 <= F * C <= 250 * 5000000).
  { split; [rewrite <- (Rmult_1_l 1); apply Rmult_le_compat; lra|apply Rmult_le_compat; lra]. }
  destruct (scaled64 L HL rho v r (230 * F * C) Hr Fv Rv) as [Fm Em].
  - rewrite u_lit. replace (230 * F * C) with (230 * (F * C)) by ring.
    apply Rle_trans with (230 * (250 * 5000000) * / 9007199254740992); [apply Rmult_le_compat_r; lra|lra].
  - lra.
  - split; [exact Fm|]. apply Rle_trans with (1 := Em). apply Rmult_le_compat_r; [apply Rabs_pos|].
    apply Rmult_le_compat_r; [left; apply u_pos|]. lra.
Qed.

Lemma axis_of L p g : dim64 L p (Axis g) -> exists lo hi, g = real_grid lo hi (rg_n g) /\ ordinary lo hi (rg_n g) /\ 1 / 2 <= cells g.
Proof.
  intros (lo & hi & G & E & H & _). exists lo, hi. split; [exact E|]. split; [exact H|].
  pose proof (cells_half _ _ _ H) as C. now rewrite <- E in C.
Qed.

Lemma along_log L g p x y : accurate_log10 L -> dim64 L p (Axis g) -> physical x -> coordinate 16 g (log10 (B2R x)) y ->
  fin (@ToLog b64 (B64_ops L) x) /\ coordinate 20 g (B2R (@ToLog b64 (B64_ops L) x)) y.
Proof.
  intros HG HD Hx Hc. destruct (axis_of _ _ _ HD) as (lo & hi & E & Ho & _). rewrite E in *.
  destruct (ToLog64 L HG x (proj1 Hx) (phys_range x Hx)) as [F R]. split; [exact F|].
  exact (coordinate64 lo hi _ (V x) _ y Ho R Hc).
Qed.

(** A photon mean opacity table. If the logarithms of density and temperature are coordinates
    of the table, up to sixteen units of 2^-53 of their extent, the answer is the density times
    ten to the interpolant there, up to roundings: 550 times the largest stored number times
    the numbers of cells. *)
Lemma C63_photon_proof :
  forall (L : Libm) (F : R) (b : DataBox b64) (gR gT : rgrid) (ng : Z) (f : list Z -> R) (rho temp : b64) (group : Z) (yR yT r : R),
  accurate_libm L -> accurate_log10 L -> 1 <= F <= 250 ->
  holds64 L F b [Axis gR; Axis gT; Index ng] f -> physical rho -> physical temp ->
  coordinate 16 gR (log10 (B2R rho)) yR -> coordinate 16 gT (log10 (B2R temp)) yT ->
  interpolates [Pos yR; Pos yT; Num group] [Axis gR; Axis gT; Index ng] f r ->
  returns (@group_coefficient b64 (B64_ops L) b rho temp group) (550 * F * (cells gR + cells gT)) (B2R rho * pow10 r).
Proof.
  intros L F b gR gT ng f rho temp group yR yT r HL HG HF HH Hr Ht CR CT HI.
  pose proof (proj1 HH) as HD. inversion HD as [|p1 ? ps1 ? D1 HD1 Eps]. inversion HD1 as [|p2 ? ps2 ? D2 HD2 Eps2]. subst.
  destruct (axis_of _ _ _ D1) as (_ & _ & _ & _ & C1). destruct (axis_of _ _ _ D2) as (_ & _ & _ & _ & C2).
  destruct (along_log L gR p1 rho yR HG D1 Hr CR) as [F1 K1]. destruct (along_log L gT p2 temp yT HG D2 Ht CT) as [F2 K2].
  assert (Hg : (0 <= group < ng)%Z).
  { cbn in HI. destruct HI as (i & a & b' & _ & _ & (i' & a' & b'' & _ & _ & (Hg & _) & _) & _). exact Hg. }
  assert (HQ : query64 [Along (@ToLog b64 (B64_ops L) rho); Along (@ToLog b64 (B64_ops L) temp); At group] [Pos yR; Pos yT; Num group]
    [Axis gR; Axis gT; Index ng]) by (cbn; auto 10).
  destruct (answer L F b [Axis gR; Axis gT; Index ng] _ _ f r rho HL HF ltac:(cbn; lia) ltac:(cbn; lra) HH HQ HI Hr) as (v & Ev & W).
  eexists. split.
  - unfold group_coefficient. rewrite Ev. cbn [bind]. reflexivity.
  - cbn [all_cells] in W. rewrite Rplus_0_r in W. exact W.
Qed.

(** A neutrino mean opacity table, the same; the electron fraction is a coordinate. *)
Lemma C63_neutrino_proof :
  forall (L : Libm) (F : R) (b : DataBox b64) (gR gT gY : rgrid) (f : list Z -> R) (rho temp Ye : b64) (type : RadiationType) (yR yT yY r : R),
  accurate_libm L -> accurate_log10 L -> 1 <= F <= 250 ->
  holds64 L F b [Axis gR; Axis gT; Axis gY; Index 3] f -> physical rho -> physical temp -> is_finite Ye = true ->
  coordinate 16 gR (log10 (B2R rho)) yR -> coordinate 16 gT (log10 (B2R temp)) yT -> coordinate 16 gY (B2R Ye) yY ->
  interpolates [Pos yR; Pos yT; Pos yY; Num (RadType2Idx type)] [Axis gR; Axis gT; Axis gY; Index 3] f r ->
  returns (@nm_lookup b64 (B64_ops L) b rho temp Ye type) (550 * F * (cells gR + cells gT + cells gY)) (B2R rho * pow10 r).
Proof.
  intros L F b gR gT gY f rho temp Ye type yR yT yY r HL HG HF HH Hr Ht HY CR CT CY HI.
  pose proof (proj1 HH) as HD. inversion HD as [|p1 ? ps1 ? D1 HD1 Eps]. inversion HD1 as [|p2 ? ps2 ? D2 HD2 Eps2].
  inversion HD2 as [|p3 ? ps3 ? D3 HD3 Eps3]. subst.
  destruct (axis_of _ _ _ D1) as (_ & _ & _ & _ & C1). destruct (axis_of _ _ _ D2) as (_ & _ & _ & _ & C2).
  destruct (axis_of _ _ _ D3) as (_ & _ & _ & _ & C3).
  destruct (along_log L gR p1 rho yR HG D1 Hr CR) as [F1 K1]. destruct (along_log L gT p2 temp yT HG D2 Ht CT) as [F2 K2].
  assert (K3 : coordinate 20 gY (B2R Ye) yY).
  { destruct CY as [A B]. split; [exact A|]. apply Rle_trans with (1 := B). fold u. pose proof u_pos.
    assert (1 <= extent gY) by apply Rmax_l. apply Rmult_le_compat_r; lra. }
  assert (Hg : (0 <= RadType2Idx type < 3)%Z).
  { cbn [interpolates] in HI. destruct HI as (i & a & b1 & _ & _ & (i' & a' & b2 & _ & _ & (i'' & a'' & b3 & _ & _ & (Hg & _) & _) & _) & _). exact Hg. }
  assert (HQ : query64 [Along (@ToLog b64 (B64_ops L) rho); Along (@ToLog b64 (B64_ops L) temp); Along Ye; At (RadType2Idx type)]
    [Pos yR; Pos yT; Pos yY; Num (RadType2Idx type)] [Axis gR; Axis gT; Axis gY; Index 3]) by (cbn [query64]; auto 12).
  destruct (answer L F b [Axis gR; Axis gT; Axis gY; Index 3] _ _ f r rho HL HF ltac:(cbn; lia) ltac:(cbn; lra) HH HQ HI Hr) as (v & Ev & W).
  eexists. split.
  - unfold nm_lookup. cbv zeta. rewrite Ev. cbn [bind]. reflexivity.
  - cbn [all_cells] in W. replace (cells gR + cells gT + cells gY) with (cells gR + (cells gT + (cells gY + 0))) by ring. exact W.
Qed.

(** The answers between nodes: if the stored logarithms at the corners of the cell lie between
    [m] and [M], the answer lies between the density times the powers of ten. *)
Lemma C63_between_proof :
  forall (L : Libm) (F : R) (b : DataBox b64) (gR gT : rgrid) (ng : Z) (f : list Z -> R) (rho temp : b64) (group : Z) (yR yT m M : R),
  accurate_libm L -> accurate_log10 L -> 1 <= F <= 250 ->
  holds64 L F b [Axis gR; Axis gT; Index ng] f -> physical rho -> physical temp -> (0 <= group < ng)%Z ->
  coordinate 16 gR (log10 (B2R rho)) yR -> coordinate 16 gT (log10 (B2R temp)) yT ->
  (forall is, Tables.near [Pos yR; Pos yT; Num group] [Axis gR; Axis gT; Index ng] is -> m <= f is <= M) ->
  exists x, @group_coefficient b64 (B64_ops L) b rho temp group = Ok x /\
    between (550 * F * (cells gR + cells gT)) (B2R rho * pow10 m) (B2R rho * pow10 M) x.
Proof.
  intros L F b gR gT ng f rho temp group yR yT m M HL HG HF HH Hr Ht Hg CR CT HB.
  pose proof (dims64_ok _ _ _ (proj1 HH)) as Hok.
  destruct (interpolant_exists [Axis gR; Axis gT; Index ng] [Pos yR; Pos yT; Num group] f Hok) as [r HI].
  { cbn. repeat split; try apply CR; try apply CT; lia. }
  destruct (C63_photon_proof L F b gR gT ng f rho temp group yR yT r HL HG HF HH Hr Ht CR CT HI) as (x & Ex & Fx & Rx).
  destruct (corners_bound m M _ _ f r Hok HB HI) as [Bm BM].
  exists x. split; [exact Ex|]. split; [exact Fx|]. pose proof (physical_V _ Hr) as Pr. change (B2R rho) with (V rho) in *. change (B2R x) with (V x) in *. fold u in *.
  pose proof (pow10_pos r) as P. rewrite (Rabs_pos_eq (V rho * pow10 r)) in Rx by (apply Rmult_le_pos; lra).
  apply abs_both in Rx.
  assert (A : V rho * pow10 m <= V rho * pow10 r) by (apply Rmult_le_compat_l; [lra|now apply pow10_mono]).
  assert (B : V rho * pow10 r <= V rho * pow10 M) by (apply Rmult_le_compat_l; [lra|now apply pow10_mono]).
  set (n := 550 * F * (cells gR + cells gT)) in *.
  assert (C1 : 0 <= cells gR <= 1000000 /\ 0 <= cells gT <= 1000000).
  { inversion Hok as [|? ? H1 H2]; subst. inversion H2 as [|? ? H3 H4]; subst.
    destruct H1 as (l1 & h1 & E1 & O1). destruct H3 as (l2 & h2 & E2 & O2).
    pose proof (cells_half _ _ _ O1) as A1. pose proof (cells_le _ _ _ O1) as A2. pose proof (cells_half _ _ _ O2) as A3. pose proof (cells_le _ _ _ O2) as A4.
    rewrite <- E1 in *. rewrite <- E2 in *. lra. }
  assert (N : 0 <= n * u <= 1).
  { assert (FC : 0 <= F * (cells gR + cells gT) <= 250 * 2000000) by (split; [apply Rmult_le_pos; lra|apply Rmult_le_compat; lra]).
    unfold n. replace (550 * F * (cells gR + cells gT)) with (550 * (F * (cells gR + cells gT))) by ring. rewrite u_lit. split.
    - apply Rmult_le_pos; lra.
    - apply Rle_trans with (550 * (250 * 2000000) * / 9007199254740992); [apply Rmult_le_compat_r; lra|lra]. }
  split.
  - apply Rle_trans with (V rho * pow10 r * (1 - n * u)); [apply Rmult_le_compat_r; lra|lra].
  - apply Rle_trans with (V rho * pow10 r * (1 + n * u)); [lra|apply Rmult_le_compat_r; lra].
Qed.

(** ** Tables asked at their own nodes *)
Section Nodes.
  Variable L : Libm.
  Notation O := (B64_ops L).
  Hypothesis HL : accurate_libm L.
  Hypothesis HG : accurate_log10 L.
  Variables lr0 lr1 lt0 lt1 : b64.
  Variables NRho NT : Z.
  Hypothesis OR : ordinary lr0 lr1 NRho.
  Hypothesis OT : ordinary lt0 lt1 NT.
  Hypothesis XR : extent (real_grid lr0 lr1 NRho) <= 30.
  Hypothesis XT : extent (real_grid lt0 lt1 NT) <= 30.
  Variables gT gRho : Grid b64.
  Hypothesis GT : @mk_grid b64 O lt0 lt1 NT = Ok gT.
  Hypothesis GR : @mk_grid b64 O lr0 lr1 NRho = Ok gRho.
  Notation rR := (real_grid lr0 lr1 NRho).
  Notation rT := (real_grid lt0 lt1 NT).

  Lemma photon_node F ng d a b c x : 1 <= F <= 250 -> bounded F d -> Z.of_nat (List.length d) = (NRho * NT * ng)%Z ->
    (0 <= a < NRho)%Z -> (0 <= b < NT)%Z -> (0 <= c < ng)%Z -> at_flat d ((a * NT + b) * ng + c) = Ok x ->
    returns (@group_coefficient b64 O {| db_dims := [ng; NT; NRho]; db_ranges := [None; Some gT; Some gRho]; db_data := d |}
      (@FromLog b64 O (@g_x b64 O gRho a)) (@FromLog b64 O (@g_x b64 O gT b)) c) (550 * F * (cells rR + cells rT))
      (V (@FromLog b64 O (@g_x b64 O gRho a)) * pow10 (V x)).
  Proof.
    intros HF HB Hlen Ha Hb Hc Ex. pose proof (n_two _ _ _ OR) as N1. pose proof (n_two _ _ _ OT) as N2.
    destruct (node_log64 L lr0 lr1 NRho gRho a HL OR XR GR ltac:(lia)) as [PR CR].
    destruct (node_log64 L lt0 lt1 NT gT b HL OT XT GT ltac:(lia)) as [PT CT].
    set (dims := [Axis rR; Axis rT; Index ng]).
    set (f := fun is => value d (flat (map rd_size dims) is 0)).
    assert (HH : holds64 L F {| db_dims := [ng; NT; NRho]; db_ranges := [None; Some gT; Some gRho]; db_data := d |} dims f).
    { split.
      - cbn [db_dims db_ranges combine rev app]. unfold dims. constructor; [|constructor; [|constructor; [reflexivity|constructor]]].
        + exists lr0, lr1, gRho. auto.
        + exists lt0, lt1, gT. auto.
      - apply full_stores; try assumption; try lia.
        + unfold dims. repeat (constructor; [cbn; lia|]). constructor.
        + cbn [total dims rd_size db_data]. cbn [rg_n real_grid]. rewrite Hlen. lia. }
    assert (HI : interpolates [Pos (rg_node rR a); Pos (rg_node rT b); Num c] dims f (f [a; b; c])).
    { apply node_interpolates; [apply (dims64_ok L _ _ (proj1 HH))|]. cbn. repeat split; try lia. }
    pose proof (C63_photon_proof L F _ rR rT ng f _ _ c _ _ _ HL HG HF HH PR PT CR CT HI) as Q.
    replace (f [a; b; c]) with (V x) in Q; [exact Q|].
    unfold f, value. cbn [map dims rd_size rg_n real_grid flat]. replace (((0 * NRho + a) * NT + b) * ng + c)%Z with ((a * NT + b) * ng + c)%Z by ring.
    now rewrite Ex.
  Qed.

  Variables y0 y1 : b64.
  Variable NYe : Z.
  Hypothesis OY : ordinary y0 y1 NYe.
  Variable gYe : Grid b64.
  Hypothesis GY : @mk_grid b64 O y0 y1 NYe = Ok gYe.
  Notation rY := (real_grid y0 y1 NYe).
  Lemma neutrino_node F d a b y type x : 1 <= F <= 250 -> bounded F d -> Z.of_nat (List.length d) = (NRho * NT * NYe * 3)%Z ->
    (0 <= a < NRho)%Z -> (0 <= b < NT)%Z -> (0 <= y < NYe)%Z -> (0 <= RadType2Idx type < 3)%Z ->
    at_flat d (((a * NT + b) * NYe + y) * 3 + RadType2Idx type) = Ok x ->
    returns (@nm_lookup b64 O {| db_dims := [3%Z; NYe; NT; NRho]; db_ranges := [None; Some gYe; Some gT; Some gRho]; db_data := d |}
      (@FromLog b64 O (@g_x b64 O gRho a)) (@FromLog b64 O (@g_x b64 O gT b)) (@g_x b64 O gYe y) type) (550 * F * (cells rR + cells rT + cells rY))
      (V (@FromLog b64 O (@g_x b64 O gRho a)) * pow10 (V x)).
  Proof.
    intros HF HB Hlen Ha Hb Hy Hc Ex. pose proof (n_two _ _ _ OR) as N1. pose proof (n_two _ _ _ OT) as N2. pose proof (n_two _ _ _ OY) as N3.
    destruct (node_log64 L lr0 lr1 NRho gRho a HL OR XR GR ltac:(lia)) as [PR CR].
    destruct (node_log64 L lt0 lt1 NT gT b HL OT XT GT ltac:(lia)) as [PT CT].
    set (dims := [Axis rR; Axis rT; Axis rY; Index 3]).
    set (f := fun is => value d (flat (map rd_size dims) is 0)).
    assert (HH : holds64 L F {| db_dims := [3%Z; NYe; NT; NRho]; db_ranges := [None; Some gYe; Some gT; Some gRho]; db_data := d |} dims f).
    { split.
      - cbn [db_dims db_ranges combine rev app]. unfold dims. constructor; [|constructor; [|constructor; [|constructor; [reflexivity|constructor]]]].
        + exists lr0, lr1, gRho. auto.
        + exists lt0, lt1, gT. auto.
        + exists y0, y1, gYe. auto.
      - apply full_stores; try assumption; try lia.
        + unfold dims. repeat (constructor; [cbn; lia|]). constructor.
        + cbn [total dims rd_size db_data]. cbn [rg_n real_grid]. rewrite Hlen. lia. }
    assert (HI : interpolates [Pos (rg_node rR a); Pos (rg_node rT b); Pos (rg_node rY y); Num (RadType2Idx type)] dims f (f [a; b; y; RadType2Idx type])).
    { apply node_interpolates; [apply (dims64_ok L _ _ (proj1 HH))|]. cbn [at_node rg_n real_grid dims]. repeat split; try lia. }
    assert (FY : fin (@g_x b64 O gYe y) /\ coordinate 16 rY (B2R (@g_x b64 O gYe y)) (rg_node rY y)).
    { pose proof GY as EG. rewrite (grid64 L y0 y1 NYe OY) in EG. injection EG as <-.
      destruct (node64 y0 y1 NYe OY y ltac:(lia)) as [A B]. split; [exact A|]. split; [apply node_in; [exact OY|lia]|].
      apply Rle_trans with (1 := B). fold u. pose proof u_pos. pose proof (extent_1 y0 y1 NYe). apply Rmult_le_compat_r; lra. }
    destruct FY as [FY CY].
    pose proof (C63_neutrino_proof L F _ rR rT rY f _ _ _ type _ _ _ _ HL HG HF HH PR PT FY CR CT CY HI) as Q.
    replace (f [a; b; y; RadType2Idx type]) with (V x) in Q; [exact Q|].
    unfold f, value. cbn [map dims rd_size rg_n real_grid flat].
    replace ((((0 * NRho + a) * NT + b) * NYe + y) * 3 + RadType2Idx type)%Z with (((a * NT + b) * NYe + y) * 3 + RadType2Idx type)%Z by ring.
    now rewrite Ex.
  Qed.
End Nodes.

(** A photon table of logarithms of doubles between 10^-F and 10^F, asked at one of its nodes:
    the answer is the density times the double of the node. *)
Lemma C63_stored_proof :
  forall (L : Libm) (F : R) (lr0 lr1 lt0 lt1 : b64) (NRho NT ng : Z) (gT gRho : Grid b64) (ps : list b64),
  let O := B64_ops L in
  accurate_libm L -> accurate_log10 L -> 1 <= F <= 240 ->
  ordinary lr0 lr1 NRho -> ordinary lt0 lt1 NT -> extent (real_grid lr0 lr1 NRho) <= 30 -> extent (real_grid lt0 lt1 NT) <= 30 ->
  @mk_grid b64 O lt0 lt1 NT = Ok gT -> @mk_grid b64 O lr0 lr1 NRho = Ok gRho ->
  Z.of_nat (List.length ps) = (NRho * NT * ng)%Z ->
  (forall p, In p ps -> is_finite p = true /\ 0 < B2R p /\ Rabs (log10 (B2R p)) <= F) ->
  forall a b c p, (0 <= a < NRho)%Z -> (0 <= b < NT)%Z -> (0 <= c < ng)%Z ->
  nth_error ps (Z.to_nat ((a * NT + b) * ng + c)) = Some p ->
  let rho := @FromLog b64 O (@g_x b64 O gRho a) in
  let temp := @FromLog b64 O (@g_x b64 O gT b) in
  returns (@group_coefficient b64 O
      {| db_dims := [ng; NT; NRho]; db_ranges := [None; Some gT; Some gRho]; db_data := map (@ToLog b64 O) ps |} rho temp c)
    (570 * F * (cells (real_grid lr0 lr1 NRho) + cells (real_grid lt0 lt1 NT))) (B2R rho * B2R p).
Proof.
  intros L F lr0 lr1 lt0 lt1 NRho NT ng gT gRho ps O HL HG HF OR OT XR XT GT GR Hlen HP a b c p Ha Hb Hc Ep rho temp.
  assert (U : 0 < u <= / 9000000000000000).
  { rewrite u_lit. split; [apply Rinv_0_lt_compat; lra|apply Rinv_le_contravar; lra]. }
  assert (TL : forall p, In p ps -> fin (@ToLog b64 O p) /\ Rabs (V (@ToLog b64 O p)) <= 101 / 100 * F).
  { intros q Hq. destruct (HP q Hq) as (Fq & Pq & Bq). fold (V q) in Pq, Bq. pose proof (abs_both _ _ Bq) as Bq'.
    destruct (ToLog64 L HG q Fq) as [Fl El].
    { rewrite <- (pow10_log (V q) Pq). destruct (pow10_range (log10 (V q)) ltac:(lra)) as [A B]. split.
      - apply Rle_trans with (2 := A). apply bpow_le. lia.
      - apply Rle_trans with (1 := B). apply bpow_le. lia. }
    split; [exact Fl|]. pose proof (abs_size _ _ _ _ El Bq) as Z.
    pose proof (Rabs_pos (log10 (V q))).
    assert (u * (2 * Rabs (log10 (V q)) + 13 / 10) <= / 9000000000000000 * (34 / 10 * F)) by (apply Rmult_le_compat; lra). unfold O. lra. }
  assert (Ex : at_flat (map (@ToLog b64 O) ps) ((a * NT + b) * ng + c) = Ok (@ToLog b64 O p)).
  { unfold at_flat. destruct (Z.ltb_spec ((a * NT + b) * ng + c) 0); [exfalso; assert (0 <= a * NT)%Z by (apply Z.mul_nonneg_nonneg; lia); assert (0 <= (a * NT + b) * ng)%Z by (apply Z.mul_nonneg_nonneg; lia); lia|]. unfold load. rewrite nth_error_map, Ep. reflexivity. }
  pose proof (cells_half _ _ _ OR) as C1. pose proof (cells_half _ _ _ OT) as C2. pose proof (cells_le _ _ _ OR) as C3. pose proof (cells_le _ _ _ OT) as C4.
  set (C := cells (real_grid lr0 lr1 NRho) + cells (real_grid lt0 lt1 NT)) in *. assert (HC : 1 <= C <= 2000000) by (unfold C; lra).
  assert (FC : F * 1 <= F * C <= 240 * 2000000) by (split; [apply Rmult_le_compat_l; lra|apply Rmult_le_compat; lra]).
  assert (BD : bounded (101 / 100 * F) (map (@ToLog b64 O) ps)).
  { intros i z Hz. rewrite nth_error_map in Hz. destruct (nth_error ps i) as [q|] eqn:Eq; [|discriminate]. cbn in Hz. injection Hz as <-.
    apply TL. now apply nth_error_In with i. }
  assert (LN : Z.of_nat (List.length (map (@ToLog b64 O) ps)) = (NRho * NT * ng)%Z) by (now rewrite map_length).
  destruct (photon_node L HL HG lr0 lr1 lt0 lt1 NRho NT OR OT XR XT gT gRho GT GR (101 / 100 * F) ng (map (@ToLog b64 O) ps) a b c (@ToLog b64 O p)
    ltac:(lra) BD LN Ha Hb Hc Ex) as (x & E & W).
  exists x. split; [exact E|]. destruct (HP p (nth_error_In _ _ Ep)) as (Fp & Pp & Bp).
    destruct (node_log64 L lr0 lr1 NRho gRho a HL OR XR GR ltac:(pose proof (n_two _ _ _ OR); lia)) as [PR _].
    fold C in W. destruct (stored_number L x rho p F (550 * (101 / 100 * F) * C) HG HF Fp Pp Bp) as [Fx Wx]; try exact W.
    + apply (physical_V _ PR).
    + rewrite u_lit. replace (550 * (101 / 100 * F) * C) with (5555 / 10 * (F * C)) by field. split; [apply Rmult_le_pos; lra|].
      apply Rle_trans with (5555 / 10 * (240 * 2000000) * / 9007199254740992); [apply Rmult_le_compat_r; lra|lra].
    + split; [exact Fx|]. apply Rle_trans with (1 := Wx). apply Rmult_le_compat_r; [apply Rabs_pos|]. apply Rmult_le_compat_r; [fold u; lra|]. lra.
Qed.

(** ** Tables built by averaging *)
Lemma quotient_range alpha rho : physical alpha -> physical rho -> bp (-200) <= B2R alpha / B2R rho <= bp 200.
Proof.
  intros (_ & A) (_ & Q). rewrite two_pow_bp in A, Q.
  change (Z.of_nat 100) with 100%Z in *. rewrite <- bpow_opp in A, Q. change (- (100))%Z with (-100)%Z in *.
  pose proof (bpow_gt_0 radix2 (-100)) as P. assert (Pr : 0 < B2R rho) by lra. unfold Rdiv. split.
  - change (-200)%Z with (-100 + -100)%Z. rewrite bpow_plus. apply Rmult_le_compat; try lra.
    change (-100)%Z with (- (100))%Z. rewrite bpow_opp. apply Rinv_le_contravar; lra.
  - change (200)%Z with (100 + 100)%Z. rewrite bpow_plus. apply Rmult_le_compat; try lra.
    + left. now apply Rinv_0_lt_compat.
    + change (100)%Z with (- (-100))%Z at 1. rewrite bpow_opp. apply Rinv_le_contravar; lra.
Qed.
Lemma mean_size n M x : INR n <= 500000000 -> bp (-200) <= M <= bp 200 -> within (mean_roundings n) x M ->
  0 < M /\ 0 < V x /\ Rabs (log10 (V x)) <= 61.
Proof.
  intros HN HM W. destruct (roundings_small n HN) as [Q0 Q1]. fold u in Q1.
  destruct (within_between (mean_roundings n) x M (bp (-200)) (bp 200) (bpow_gt_0 _ _) HM Q0 ltac:(fold u; lra) W) as [_ Hx]. fold u (V x) in Hx.
  pose proof (bpow_gt_0 radix2 (-200)) as P1. pose proof (bpow_gt_0 radix2 200) as P2. pose proof u_pos.
  assert (0 <= mean_roundings n * u) by (apply Rmult_le_pos; lra).
  assert (L1 : bp (-200) * / 2 <= V x) by (apply Rle_trans with (2 := proj1 Hx); apply Rmult_le_compat_l; lra).
  assert (L2 : V x <= bp 200 * 2) by (apply Rle_trans with (1 := proj2 Hx); apply Rmult_le_compat_l; lra).
  split; [lra|]. split; [lra|].
  assert (T1 : bp 200 * 2 <= 10 ^ 61).
  { change (bp 200) with (IZR (2 ^ 200)). rewrite pow_IZR, <- mult_IZR. apply IZR_le. vm_compute. congruence. }
  assert (T2 : / 10 ^ 61 <= bp (-200) * / 2).
  { change (-200)%Z with (- (200))%Z. rewrite bpow_opp, <- Rinv_mult. apply Rinv_le_contravar; lra. }
  assert (P61 : 0 < 10 ^ 61) by (apply pow_lt; lra).
  assert (G : log10 (10 ^ 61) = 61). { rewrite <- pow10_nat, log10_pow10. simpl. lra. }
  assert (G' : log10 (/ 10 ^ 61) = -61).
  { replace (-61) with (- log10 (10 ^ 61)) by (rewrite G; lra). unfold log10. rewrite ln_Rinv by exact P61. pose proof ln10. field. lra. }
  apply abs_bound. split.
  - apply Rle_trans with (log10 (/ 10 ^ 61)); [rewrite G'; lra|]. apply log_up; [now apply Rinv_0_lt_compat|lra].
  - rewrite <- G. apply log_up; lra.
Qed.
Lemma within_mean n m x rho p Q : 0 < V rho -> 0 < Q -> 0 <= n -> 0 <= m -> n * u <= 1 -> within n x (V rho * V p) -> 0 < V p -> within m p Q ->
  within (n + 2 * m) x (V rho * Q).
Proof.
  intros Pr PQ Hn Hm Hu [Fx Ex] Pp [_ Ep]. split; [exact Fx|]. fold u (V x) (V p) in *. pose proof u_pos as U.
  rewrite (Rabs_pos_eq Q) in Ep by lra. rewrite (Rabs_pos_eq (V rho * V p)) in Ex by (apply Rmult_le_pos; lra).
  rewrite (Rabs_pos_eq (V rho * Q)) by (apply Rmult_le_pos; lra). pose proof (abs_both _ _ Ep) as Ep'.
  assert (S2 : Rabs (V rho * V p - V rho * Q) <= V rho * (m * u * Q)).
  { rewrite <- Rmult_minus_distr_l, Rabs_mult, (Rabs_pos_eq (V rho)) by lra. apply Rmult_le_compat_l; [lra|exact Ep]. }
  apply Rle_trans with (1 := abs_near _ _ _ _ _ Ex S2).
  assert (NU : 0 <= n * u) by (apply Rmult_le_pos; lra).
  assert (A : V rho * V p <= V rho * (Q + m * u * Q)) by (apply Rmult_le_compat_l; lra).
  assert (B : n * u * (V rho * V p) <= n * u * (V rho * (Q + m * u * Q))) by (apply Rmult_le_compat_l; lra).
  assert (P : 0 <= V rho * (m * u * Q)) by (apply Rmult_le_pos; [lra|]; apply Rmult_le_pos; [apply Rmult_le_pos; lra|lra]).
  assert (C : n * u * (V rho * (m * u * Q)) <= 1 * (V rho * (m * u * Q))) by (apply Rmult_le_compat_r; lra). lra.
Qed.

(** from the stored mean to the answer *)
Lemma end_to_end L n C x rho p M : accurate_log10 L -> INR n <= 500000000 -> 1 <= C <= 3000000 -> 0 < V rho ->
  bp (-200) <= M <= bp 200 -> fin p -> within (mean_roundings n) p M ->
  within (550 * 62 * C) x (V rho * pow10 (V (@ToLog b64 (B64_ops L) p))) ->
  within (35000 * C + 2 * mean_roundings n) x (V rho * M).
Proof.
  intros HG HN HC Pr HM Fp Wp W. destruct (mean_size n M p HN HM Wp) as (PM & Pp & Bp). destruct (roundings_small n HN) as [Q0 _].
  assert (U0 : 0 < u) by apply u_pos.
  assert (CU : 0 <= 35000 * C * u <= 1 / 1000).
  { rewrite u_lit. split; [apply Rmult_le_pos; lra|].
    apply Rle_trans with (35000 * 3000000 * / 9007199254740992); [apply Rmult_le_compat_r; lra|lra]. }
  assert (CU2 : 0 <= C * u) by lra.
  pose proof (stored_number L x rho p 61 (550 * 62 * C) HG ltac:(lra) Fp Pp Bp Pr ltac:(lra) W) as W2.
  assert (W3 : within (35000 * C) x (V rho * V p)).
  { destruct W2 as [Fx Ex]. split; [exact Fx|]. apply Rle_trans with (1 := Ex). apply Rmult_le_compat_r; [apply Rabs_pos|].
    apply Rmult_le_compat_r; [fold u; lra|]. lra. }
  apply (within_mean (35000 * C) (mean_roundings n) x rho p M); try assumption; lra.
Qed.
Lemma mean_bounded L n x M : accurate_log10 L -> INR n <= 500000000 -> bp (-200) <= M <= bp 200 -> within (mean_roundings n) x M ->
  fin (@ToLog b64 (B64_ops L) x) /\ Rabs (V (@ToLog b64 (B64_ops L) x)) <= 62.
Proof.
  intros HG HN HM W. destruct (mean_size n M x HN HM W) as (_ & Px & Bx). pose proof (abs_both _ _ Bx) as Bx'.
  assert (U : 0 < u <= / 9000000000000000).
  { rewrite u_lit. split; [apply Rinv_0_lt_compat; lra|apply Rinv_le_contravar; lra]. }
  destruct (ToLog64 L HG x (proj1 W)) as [Fl El].
  { rewrite <- (pow10_log (V x) Px). destruct (pow10_range (log10 (V x)) ltac:(lra)) as [A B]. split.
    - apply Rle_trans with (2 := A). apply bpow_le. lia.
    - apply Rle_trans with (1 := B). apply bpow_le. lia. }
  split; [exact Fl|]. pose proof (abs_size _ _ _ _ El Bx) as Z. pose proof (Rabs_pos (log10 (V x))).
  assert (u * (2 * Rabs (log10 (V x)) + 13 / 10) <= / 9000000000000000 * 200) by (apply Rmult_le_compat; lra). lra.
Qed.

Lemma flat_index NT ng k : (0 <= k)%Z -> (0 < NT)%Z -> (0 < ng)%Z ->
  exists a b c, k = Z.of_nat ((a * Z.to_nat NT + b) * Z.to_nat ng + c) /\ (Z.of_nat b < NT)%Z /\ (Z.of_nat c < ng)%Z.
Proof.
  intros Hk HT Hg. exists (Z.to_nat (k / ng / NT)), (Z.to_nat ((k / ng) mod NT)), (Z.to_nat (k mod ng)).
  pose proof (Z.mod_pos_bound k ng Hg). pose proof (Z.mod_pos_bound (k / ng) NT HT).
  assert (0 <= k / ng)%Z by (apply Z.div_pos; lia). assert (0 <= k / ng / NT)%Z by (apply Z.div_pos; lia).
  rewrite Nat2Z.inj_add, Nat2Z.inj_mul, Nat2Z.inj_add, Nat2Z.inj_mul, !Z2Nat.id by lia.
  split; [|lia]. rewrite (Z.mul_comm (k / ng / NT)), <- Z.div_mod by lia. rewrite (Z.mul_comm (k / ng)), <- Z.div_mod by lia. reflexivity.
Qed.

Lemma means_range n rho alpha r1 r2 : physical rho -> (forall i, (i < n)%nat -> physical (alpha i)) ->
  (forall i, (i < n)%nat -> 0 <= r1 i /\ 0 <= r2 i) -> heavy n r1 -> heavy n r2 ->
  let k := fun i => B2R (alpha i) / B2R rho in
  bp (-200) <= arithmetic_mean n r1 k <= bp 200 /\ bp (-200) <= harmonic_mean n r2 k <= bp 200.
Proof.
  intros Hr HA HR H1 H2 k. split.
  - apply arithmetic_between; [|exact H1]. intros i Hi. split; [apply HR, Hi|apply quotient_range; [apply HA, Hi|exact Hr]].
  - apply harmonic_between; [apply bpow_gt_0| |exact H2]. intros i Hi. split; [apply HR, Hi|apply quotient_range; [apply HA, Hi|exact Hr]].
Qed.

(** A photon table built by averaging, asked at its own nodes: if the samples of every group at
    every node are regular, it answers the density times the means of the sampled opacities. *)
Lemma C63_table_proof :
  forall (L : Libm) (pc : PhysConst b64) (dbg : bool) (opc : RuntimePC b64) (coef : b64 -> b64 -> b64 -> result b64)
    (lr0 lr1 lt0 lt1 : b64) (NRho NT ng N : Z) (gb : list b64) (m : @MeanTable b64) (gT gRho : Grid b64)
    (alpha : nat -> nat -> nat -> nat -> b64),
  let O := B64_ops L in
  let n := Z.to_nat N in
  let rho := fun a => @FromLog b64 O (@g_x b64 O gRho (Z.of_nat a)) in
  let temp := fun b => @FromLog b64 O (@g_x b64 O gT (Z.of_nat b)) in
  let win := fun b lo hi => @sample_window b64 O pc (temp b) lo hi in
  let nu := fun b lo hi => @sample_nu b64 O (win b lo hi) N in
  let B := fun b lo hi i => fst (@ThermalWeightsAtNu b64 O pc (temp b) (nu b lo hi i)) in
  let D := fun b lo hi i => snd (@ThermalWeightsAtNu b64 O pc (temp b) (nu b lo hi i)) in
  let d := fun b lo hi i => @Omul b64 O (nu b lo hi i) (@sample_dlnu b64 O (win b lo hi) N) in
  let roundings := 35000 * (cells (real_grid lr0 lr1 NRho) + cells (real_grid lt0 lt1 NT)) + 2 * mean_roundings n in
  accurate_libm L -> accurate_log10 L ->
  ordinary lr0 lr1 NRho -> ordinary lt0 lt1 NT -> extent (real_grid lr0 lr1 NRho) <= 30 -> extent (real_grid lt0 lt1 NT) <= 30 ->
  @mk_grid b64 O lt0 lt1 NT = Ok gT -> @mk_grid b64 O lr0 lr1 NRho = Ok gRho ->
  @MeanImpl b64 O pc dbg opc coef lr0 lr1 NRho lt0 lt1 NT gb ng N = Ok m ->
  (forall a b c lo hi, (Z.of_nat a < NRho)%Z -> (Z.of_nat b < NT)%Z -> (Z.of_nat c < ng)%Z ->
     nth_error gb c = Some lo -> nth_error gb (S c) = Some hi ->
     (forall i, (i < n)%nat -> coef (rho a) (temp b) (nu b lo hi i) = Ok (alpha a b c i)) /\
     regular n (alpha a b c) (B b lo hi) (D b lo hi) (d b lo hi)) ->
  forall a b c, (Z.of_nat a < NRho)%Z -> (Z.of_nat b < NT)%Z -> (Z.of_nat c < ng)%Z ->
  exists lo hi, nth_error gb c = Some lo /\ nth_error gb (S c) = Some hi /\
    let k := fun i => B2R (alpha a b c i) / B2R (rho a) in
    returns (@mt_Coefficient b64 O m (rho a) (temp b) (Z.of_nat c) Planck) roundings
      (B2R (rho a) * arithmetic_mean n (fun i => B2R (B b lo hi i) * B2R (d b lo hi i)) k) /\
    returns (@mt_Coefficient b64 O m (rho a) (temp b) (Z.of_nat c) Rosseland) roundings
      (B2R (rho a) * harmonic_mean n (fun i => B2R (D b lo hi i) * B2R (d b lo hi i)) k).
Proof.
  intros L pc dbg opc coef lr0 lr1 lt0 lt1 NRho NT ng N gb m gT gRho alpha O n rho temp win nu B D d roundings HL HG OR OT XR XT GT GR EM REG a b c Ha Hb Hc.
  destruct (MeanImpl_cells pc coef dbg opc lr0 lr1 NRho lt0 lt1 NT gb ng N m EM)
    as (gT' & gRho' & dp & dr & GT' & GR' & _ & _ & EP & ER & _ & LP & LR & _).
  destruct (C62_table_proof L pc dbg opc coef lr0 lr1 lt0 lt1 NRho NT ng N gb m EM) as (gT2 & gRho2 & GT2 & GR2 & HT).
  pose proof (eq_trans (eq_sym GT') GT) as Q1. injection Q1 as ->. pose proof (eq_trans (eq_sym GR') GR) as Q2. injection Q2 as ->.
  pose proof (eq_trans (eq_sym GT2) GT) as Q3. injection Q3 as ->. pose proof (eq_trans (eq_sym GR2) GR) as Q4. injection Q4 as ->.
  clear GT' GR' GT2 GR2. fold rho temp in HT.
  pose proof (n_two _ _ _ OR) as N1. pose proof (n_two _ _ _ OT) as N2.
  assert (PR : forall a, (Z.of_nat a < NRho)%Z -> physical (rho a)).
  { intros a' Ha'. apply (node_log64 L lr0 lr1 NRho gRho (Z.of_nat a') HL OR XR GR ltac:(lia)). }
  (* every cell *)
  assert (CELL : forall a b c, (Z.of_nat a < NRho)%Z -> (Z.of_nat b < NT)%Z -> (Z.of_nat c < ng)%Z ->
    exists lo hi p r, nth_error gb c = Some lo /\ nth_error gb (S c) = Some hi /\
      nth_error dp (Z.to_nat ((Z.of_nat a * NT + Z.of_nat b) * ng + Z.of_nat c)) = Some (@ToLog b64 O p) /\
      nth_error dr (Z.to_nat ((Z.of_nat a * NT + Z.of_nat b) * ng + Z.of_nat c)) = Some (@ToLog b64 O r) /\ INR n <= 500000000 /\
      let k := fun i => B2R (alpha a b c i) / B2R (rho a) in
      let MP := arithmetic_mean n (fun i => B2R (B b lo hi i) * B2R (d b lo hi i)) k in
      let MR := harmonic_mean n (fun i => B2R (D b lo hi i) * B2R (d b lo hi i)) k in
      bp (-200) <= MP <= bp 200 /\ bp (-200) <= MR <= bp 200 /\ within (mean_roundings n) p MP /\ within (mean_roundings n) r MR).
  { intros a' b' c' Ha' Hb' Hc'. destruct (HT a' b' c' Ha' Hb' Hc') as (lo & hi & p & r & E1 & E2 & E3 & E4 & M).
    rewrite EP in E3. rewrite ER in E4. cbn [db_data] in E3, E4.
    exists lo, hi, p, r. split; [exact E1|]. split; [exact E2|]. split; [exact E3|]. split; [exact E4|].
    destruct (REG a' b' c' lo hi Ha' Hb' Hc' E1 E2) as [HA RG].
    specialize (M (alpha a' b' c') (PR a' Ha') HA RG). destruct M as [M1 M2]. pose proof RG as (HN & HS & W1 & W2).
    split; [exact HN|]. cbv zeta.
    destruct (means_range n (rho a') (alpha a' b' c') (fun i => B2R (B b' lo hi i) * B2R (d b' lo hi i)) (fun i => B2R (D b' lo hi i) * B2R (d b' lo hi i)) (PR a' Ha')) as [R1 R2];
      try assumption; [intros i Hi; apply (HS i Hi)| |].
    - intros i Hi. destruct (HS i Hi) as (_ & (_ & A1 & _) & (_ & A2 & _) & (_ & A3 & _)). split; apply Rmult_le_pos; assumption.
    - split; [exact R1|]. split; [exact R2|]. split; [exact M1|exact M2]. }
  assert (LNp : Z.of_nat (List.length dp) = (NRho * NT * ng)%Z /\ Z.of_nat (List.length dr) = (NRho * NT * ng)%Z).
  { rewrite LP, LR. assert (0 <= NRho * NT * ng)%Z by (apply Z.mul_nonneg_nonneg; [apply Z.mul_nonneg_nonneg|]; lia). lia. }
  assert (BD : bounded 62 dp /\ bounded 62 dr).
  { assert (X : forall i, (Z.of_nat i < NRho * NT * ng)%Z -> exists a b c, i = Z.to_nat ((Z.of_nat a * NT + Z.of_nat b) * ng + Z.of_nat c) /\
      (Z.of_nat a < NRho)%Z /\ (Z.of_nat b < NT)%Z /\ (Z.of_nat c < ng)%Z).
    { intros i Hi. assert (Pg : (0 < ng)%Z) by lia. assert (PT : (0 < NT)%Z) by lia.
      exists (Z.to_nat (Z.of_nat i / ng / NT)), (Z.to_nat ((Z.of_nat i / ng) mod NT)), (Z.to_nat (Z.of_nat i mod ng)).
      pose proof (Z.mod_pos_bound (Z.of_nat i) ng Pg). pose proof (Z.mod_pos_bound (Z.of_nat i / ng) NT PT).
      assert (0 <= Z.of_nat i / ng)%Z by (apply Z.div_pos; lia). assert (0 <= Z.of_nat i / ng / NT)%Z by (apply Z.div_pos; lia).
      rewrite !Z2Nat.id by lia. split; [|split; [|lia]].
      - rewrite (Z.mul_comm (Z.of_nat i / ng / NT)), <- Z.div_mod by lia. rewrite (Z.mul_comm (Z.of_nat i / ng)), <- Z.div_mod by lia. now rewrite Nat2Z.id.
      - rewrite Z.div_div by lia. apply Z.div_lt_upper_bound; [nia|]. lia. }
    split; intros i x Hx.
    - assert (Hi : (Z.of_nat i < NRho * NT * ng)%Z) by (assert (i < List.length dp)%nat by (apply nth_error_Some; rewrite Hx; discriminate); lia).
      destruct (X i Hi) as (a' & b' & c' & -> & A1 & A2 & A3). destruct (CELL a' b' c' A1 A2 A3) as (lo & hi & p & r & _ & _ & E3 & _ & HN & R1 & _ & W1 & _).
      rewrite Hx in E3. injection E3 as ->. exact (mean_bounded L n p _ HG HN R1 W1).
    - assert (Hi : (Z.of_nat i < NRho * NT * ng)%Z) by (assert (i < List.length dr)%nat by (apply nth_error_Some; rewrite Hx; discriminate); lia).
      destruct (X i Hi) as (a' & b' & c' & -> & A1 & A2 & A3). destruct (CELL a' b' c' A1 A2 A3) as (lo & hi & p & r & _ & _ & _ & E4 & HN & _ & R2 & _ & W2).
      rewrite Hx in E4. injection E4 as ->. exact (mean_bounded L n r _ HG HN R2 W2). }
  destruct (CELL a b c Ha Hb Hc) as (lo & hi & p & r & E1 & E2 & E3 & E4 & HN & R1 & R2 & W1 & W2).
  exists lo, hi. split; [exact E1|]. split; [exact E2|]. cbv zeta.
  assert (POS : (0 <= (Z.of_nat a * NT + Z.of_nat b) * ng + Z.of_nat c)%Z).
  { assert (0 <= Z.of_nat a * NT)%Z by (apply Z.mul_nonneg_nonneg; lia).
    assert (0 <= (Z.of_nat a * NT + Z.of_nat b) * ng)%Z by (apply Z.mul_nonneg_nonneg; lia). lia. }
  assert (AT : forall (l : list b64) x, nth_error l (Z.to_nat ((Z.of_nat a * NT + Z.of_nat b) * ng + Z.of_nat c)) = Some x ->
    at_flat l ((Z.of_nat a * NT + Z.of_nat b) * ng + Z.of_nat c) = Ok x).
  { intros l x Hx. unfold at_flat. destruct (Z.ltb_spec ((Z.of_nat a * NT + Z.of_nat b) * ng + Z.of_nat c) 0); [lia|]. unfold load. now rewrite Hx. }
  pose proof (cells_half _ _ _ OR) as C1. pose proof (cells_half _ _ _ OT) as C2. pose proof (cells_le _ _ _ OR) as C3. pose proof (cells_le _ _ _ OT) as C4.
  pose proof (physical_V _ (PR a Ha)) as Pr.
  split.
  - destruct (photon_node L HL HG lr0 lr1 lt0 lt1 NRho NT OR OT XR XT gT gRho GT GR 62 ng dp (Z.of_nat a) (Z.of_nat b) (Z.of_nat c) (@ToLog b64 O p)
      ltac:(lra) (proj1 BD) (proj1 LNp) ltac:(lia) ltac:(lia) ltac:(lia) (AT _ _ E3)) as (x & Ex & Wx).
    exists x. split; [unfold mt_Coefficient, mt_PlanckGroup; cbn [Z.eqb Planck]; rewrite EP; exact Ex|].
    apply (end_to_end L n (cells (real_grid lr0 lr1 NRho) + cells (real_grid lt0 lt1 NT)) x (rho a) p _ HG HN ltac:(lra) Pr R1 (proj1 W1) W1 Wx).
  - destruct (photon_node L HL HG lr0 lr1 lt0 lt1 NRho NT OR OT XR XT gT gRho GT GR 62 ng dr (Z.of_nat a) (Z.of_nat b) (Z.of_nat c) (@ToLog b64 O r)
      ltac:(lra) (proj2 BD) (proj2 LNp) ltac:(lia) ltac:(lia) ltac:(lia) (AT _ _ E4)) as (x & Ex & Wx).
    exists x. split; [unfold mt_Coefficient, mt_RosselandGroup; cbn [Z.eqb Planck Rosseland]; rewrite ER; exact Ex|].
    apply (end_to_end L n (cells (real_grid lr0 lr1 NRho) + cells (real_grid lt0 lt1 NT)) x (rho a) r _ HG HN ltac:(lra) Pr R2 (proj1 W2) W2 Wx).
Qed.

Lemma fin_not_nan L (x : b64) : fin x -> @Oisnan b64 (B64_ops L) x = false.
Proof. intros F. destruct x; try discriminate F; reflexivity. Qed.

(** If the group bounds are accepted and the samples of every group at every node are regular,
    the photon table is built. *)
Lemma C63_builds_proof :
  forall (L : Libm) (pc : PhysConst b64) (dbg : bool) (opc : RuntimePC b64) (coef : b64 -> b64 -> b64 -> result b64)
    (lr0 lr1 lt0 lt1 : b64) (NRho NT ng N : Z) (gb : list b64) (gT gRho : Grid b64)
    (alpha : nat -> nat -> nat -> nat -> b64),
  let O := B64_ops L in
  let n := Z.to_nat N in
  let rho := fun a => @FromLog b64 O (@g_x b64 O gRho (Z.of_nat a)) in
  let temp := fun b => @FromLog b64 O (@g_x b64 O gT (Z.of_nat b)) in
  let win := fun b lo hi => @sample_window b64 O pc (temp b) lo hi in
  let nu := fun b lo hi => @sample_nu b64 O (win b lo hi) N in
  let B := fun b lo hi i => fst (@ThermalWeightsAtNu b64 O pc (temp b) (nu b lo hi i)) in
  let D := fun b lo hi i => snd (@ThermalWeightsAtNu b64 O pc (temp b) (nu b lo hi i)) in
  let d := fun b lo hi i => @Omul b64 O (nu b lo hi i) (@sample_dlnu b64 O (win b lo hi) N) in
  accurate_libm L -> accurate_log10 L -> (dbg = false \/ @RuntimePC_eqb b64 O (@RuntimePC_of b64 O pc) opc = true) -> (2 <= N)%Z -> @ValidateGroupBounds b64 O gb ng = Ok tt ->
  ordinary lr0 lr1 NRho -> extent (real_grid lr0 lr1 NRho) <= 30 ->
  @mk_grid b64 O lt0 lt1 NT = Ok gT -> @mk_grid b64 O lr0 lr1 NRho = Ok gRho ->
  (forall a b c lo hi, (Z.of_nat a < NRho)%Z -> (Z.of_nat b < NT)%Z -> (Z.of_nat c < ng)%Z ->
     nth_error gb c = Some lo -> nth_error gb (S c) = Some hi ->
     (forall i, (i < n)%nat -> coef (rho a) (temp b) (nu b lo hi i) = Ok (alpha a b c i)) /\
     regular n (alpha a b c) (B b lo hi) (D b lo hi) (d b lo hi)) ->
  exists m, @MeanImpl b64 O pc dbg opc coef lr0 lr1 NRho lt0 lt1 NT gb ng N = Ok m.
Proof.
  intros L pc dbg opc coef lr0 lr1 lt0 lt1 NRho NT ng N gb gT gRho alpha O n rho temp win nu B D d HL HG H1 HN HV OR XR GT GR REG.
  pose proof (n_two _ _ _ OR) as N1.
  apply (MeanImpl_ok pc coef dbg opc lr0 lr1 NRho lt0 lt1 NT gb ng N gT gRho); try assumption; [| |lia].
  - destruct H1 as [->|H1]; [reflexivity|]. rewrite H1. apply andb_false_r.
  - intros a b c lo hi Ha Hb Hc E1 E2. destruct (REG a b c lo hi Ha Hb Hc E1 E2) as [HA RG].
    assert (PR : physical (rho a)) by apply (node_log64 L lr0 lr1 NRho gRho (Z.of_nat a) HL OR XR GR ltac:(lia)).
    destruct (C62_photons_proof L pc coef (rho a) (temp b) lo hi N (alpha a b c) PR HA RG) as (x & y & Ex & Ey & M1 & M2).
    exists x, y. split; [exact Ex|]. split; [exact Ey|]. pose proof RG as (HN' & HS & W1 & W2).
    destruct (means_range n (rho a) (alpha a b c) (fun i => B2R (B b lo hi i) * B2R (d b lo hi i)) (fun i => B2R (D b lo hi i) * B2R (d b lo hi i)) PR) as [R1 R2];
      try assumption; [intros i Hi; apply (HS i Hi)| |].
    + intros i Hi. destruct (HS i Hi) as (_ & (_ & A1 & _) & (_ & A2 & _) & (_ & A3 & _)). split; apply Rmult_le_pos; assumption.
    + split; apply fin_not_nan; [apply (mean_bounded L n _ _ HG HN' R1 M1)|apply (mean_bounded L n _ _ HG HN' R2 M2)].
Qed.

(** The same for neutrinos: the absorption table is built, and at its own nodes it answers the
    density times the means of the sampled opacities. *)
Lemma C63_nu_table_proof :
  forall (L : Libm) (pc : PhysConst b64) (coef : b64 -> b64 -> b64 -> RadiationType -> b64 -> result b64)
    (dist ddist : b64 -> RadiationType -> b64 -> result b64) (lr0 lr1 lt0 lt1 y0 y1 : b64) (NRho NT NYe N : Z)
    (range : option (b64 * b64)) (gYe gT gRho : Grid b64)
    (alpha : nat -> nat -> nat -> RadiationType -> nat -> b64) (B D : nat -> RadiationType -> nat -> b64),
  let O := B64_ops L in
  let n := Z.to_nat N in
  let lims := match range with Some r => r | None => @auto_range b64 O pc lt0 lt1 end in
  let dl := @Odiv b64 O (@Osub b64 O (snd lims) (fst lims)) (@OofZ b64 O N) in
  let nu := fun i => @FromLog b64 O (@Oadd b64 O (fst lims) (@Omul b64 O (@Oadd b64 O (@OofZ b64 O (Z.of_nat i)) (@Odec b64 O 5 (-1))) dl)) in
  let rho := fun a => @FromLog b64 O (@g_x b64 O gRho (Z.of_nat a)) in
  let temp := fun b => @FromLog b64 O (@g_x b64 O gT (Z.of_nat b)) in
  let Ye := fun y => @g_x b64 O gYe (Z.of_nat y) in
  let roundings := 35000 * (cells (real_grid lr0 lr1 NRho) + cells (real_grid lt0 lt1 NT) + cells (real_grid y0 y1 NYe)) + 2 * mean_roundings n in
  accurate_libm L -> accurate_log10 L ->
  ordinary lr0 lr1 NRho -> ordinary lt0 lt1 NT -> ordinary y0 y1 NYe ->
  extent (real_grid lr0 lr1 NRho) <= 30 -> extent (real_grid lt0 lt1 NT) <= 30 ->
  @mk_grid b64 O y0 y1 NYe = Ok gYe -> @mk_grid b64 O lt0 lt1 NT = Ok gT -> @mk_grid b64 O lr0 lr1 NRho = Ok gRho ->
  (forall a b y type, (Z.of_nat a < NRho)%Z -> (Z.of_nat b < NT)%Z -> (Z.of_nat y < NYe)%Z -> (0 <= RadType2Idx type < 3)%Z ->
     (forall i, (i < n)%nat -> coef (rho a) (temp b) (Ye y) type (nu i) = Ok (alpha a b y type i) /\
        dist (temp b) type (nu i) = Ok (B b type i) /\ ddist (temp b) type (nu i) = Ok (D b type i)) /\
     nu_regular n (alpha a b y type) (B b type) (D b type) nu dl) ->
  exists m, @nu_impl b64 O pc coef dist ddist false lr0 lr1 NRho lt0 lt1 NT y0 y1 NYe range N = Ok m /\
  forall a b y type, (Z.of_nat a < NRho)%Z -> (Z.of_nat b < NT)%Z -> (Z.of_nat y < NYe)%Z -> (0 <= RadType2Idx type < 3)%Z ->
    let k := fun i => B2R (alpha a b y type i) / B2R (rho a) in
    returns (@nm_Planck b64 O m (rho a) (temp b) (Ye y) type) roundings
      (B2R (rho a) * arithmetic_mean n (fun i => B2R (B b type i) * B2R (nu i) * B2R dl) k) /\
    returns (@nm_Rosseland b64 O m (rho a) (temp b) (Ye y) type) roundings
      (B2R (rho a) * harmonic_mean n (fun i => B2R (D b type i) * B2R (nu i) * B2R dl) k).
Proof.
  intros L pc coef dist ddist lr0 lr1 lt0 lt1 y0 y1 NRho NT NYe N range gYe gT gRho alpha B D O n lims dl nu rho temp Ye roundings HL HG OR OT OY XR XT GY GT GR REG.
  pose proof (n_two _ _ _ OR) as N1. pose proof (n_two _ _ _ OT) as N2. pose proof (n_two _ _ _ OY) as N3.
  assert (PR : forall a, (Z.of_nat a < NRho)%Z -> physical (rho a)).
  { intros a' Ha'. apply (node_log64 L lr0 lr1 NRho gRho (Z.of_nat a') HL OR XR GR ltac:(lia)). }
  set (MP := fun a b y type => arithmetic_mean n (fun i => B2R (B b type i) * B2R (nu i) * B2R dl) (fun i => B2R (alpha a b y type i) / B2R (rho a))).
  set (MR := fun a b y type => harmonic_mean n (fun i => B2R (D b type i) * B2R (nu i) * B2R dl) (fun i => B2R (alpha a b y type i) / B2R (rho a))).
  assert (SUM : forall a b y type, (Z.of_nat a < NRho)%Z -> (Z.of_nat b < NT)%Z -> (Z.of_nat y < NYe)%Z -> (0 <= RadType2Idx type < 3)%Z ->
    exists s, @MeanFacts.nu_sums b64 O coef dist ddist (rho a) (temp b) (Ye y) type (fst lims) (snd lims) N = Ok s /\ INR n <= 500000000 /\
      bp (-200) <= MP a b y type <= bp 200 /\ bp (-200) <= MR a b y type <= bp 200 /\
      within (mean_roundings n) (fst (@nu_means b64 O s)) (MP a b y type) /\ within (mean_roundings n) (snd (@nu_means b64 O s)) (MR a b y type)).
  { intros a b y type Ha Hb Hy Hk. destruct (REG a b y type Ha Hb Hy Hk) as [HA RG].
    destruct (C62_neutrinos_proof L coef dist ddist (rho a) (temp b) (Ye y) type (fst lims) dl N (alpha a b y type) (B b type) (D b type) nu (fun i => eq_refl) (PR a Ha) HA RG)
      as (s & Es & M1 & M2).
    pose proof RG as (HN & (_ & U0 & _) & HS & W1 & W2).
    destruct (means_range n (rho a) (alpha a b y type) (fun i => B2R (B b type i) * B2R (nu i) * B2R dl) (fun i => B2R (D b type i) * B2R (nu i) * B2R dl) (PR a Ha)) as [R1 R2];
      try assumption; [intros i Hi; apply (HS i Hi)| |].
    - intros i Hi. destruct (HS i Hi) as (_ & (_ & A1 & _) & (_ & A2 & _) & (_ & A3 & _)).
      split; (apply Rmult_le_pos; [apply Rmult_le_pos|]); assumption.
    - exists s. split; [exact Es|]. split; [exact HN|]. split; [exact R1|]. split; [exact R2|]. split; [exact M1|exact M2]. }
  assert (TYPE : forall k type, (Z.of_nat k < 3)%Z -> Idx2RadType (Z.of_nat k) = Ok type -> RadType2Idx type = Z.of_nat k).
  { intros k type Hk E. destruct k as [|[|[|k]]]; [injection E as <-; reflexivity..|lia]. }
  assert (EX : exists m, @nu_impl b64 O pc coef dist ddist false lr0 lr1 NRho lt0 lt1 NT y0 y1 NYe range N = Ok m).
  { apply (nu_impl_ok pc coef dist ddist lr0 lr1 NRho lt0 lt1 NT y0 y1 NYe range N gYe gT gRho); try assumption.
    intros a b y k type Ha Hb Hy Hk Et. destruct (SUM a b y type Ha Hb Hy ltac:(rewrite (TYPE k type Hk Et); lia)) as (s & Es & HN & R1 & R2 & M1 & M2).
    exists s. split; [exact Es|]. split; apply fin_not_nan; [apply (mean_bounded L n _ _ HG HN R1 M1)|apply (mean_bounded L n _ _ HG HN R2 M2)]. }
  destruct EX as [m EM]. exists m. split; [exact EM|].
  destruct (nu_impl_cells pc coef dist ddist false lr0 lr1 NRho lt0 lt1 NT y0 y1 NYe range N m (or_introl eq_refl) EM)
    as (gYe' & gT' & gRho' & dp & dr & GY' & GT' & GR' & EP & ER & LP & LR & HC).
  pose proof (eq_trans (eq_sym GT') GT) as Q1. injection Q1 as ->. pose proof (eq_trans (eq_sym GR') GR) as Q2. injection Q2 as ->.
  pose proof (eq_trans (eq_sym GY') GY) as Q3. injection Q3 as ->. clear GT' GR' GY'. fold lims in HC.
  change NEUTRINO_NTYPES with 3%Z in *.
  assert (CELL : forall a b y type, (Z.of_nat a < NRho)%Z -> (Z.of_nat b < NT)%Z -> (Z.of_nat y < NYe)%Z -> (0 <= RadType2Idx type < 3)%Z ->
    exists p r, let k := Z.to_nat (((Z.of_nat a * NT + Z.of_nat b) * NYe + Z.of_nat y) * 3 + RadType2Idx type) in
      nth_error dp k = Some (@ToLog b64 O p) /\ nth_error dr k = Some (@ToLog b64 O r) /\ INR n <= 500000000 /\
      bp (-200) <= MP a b y type <= bp 200 /\ bp (-200) <= MR a b y type <= bp 200 /\
      within (mean_roundings n) p (MP a b y type) /\ within (mean_roundings n) r (MR a b y type)).
  { intros a b y type Ha Hb Hy Hk. destruct (SUM a b y type Ha Hb Hy Hk) as (s & Es & REST).
    destruct (HC a b y (Z.to_nat (RadType2Idx type))) as (v & Gv & type' & s' & Et & Es' & Ev & _).
    { split; [exact Ha|]. split; [exact Hb|]. split; [exact Hy|]. change NEUTRINO_NTYPES with 3%Z. lia. }
    assert (type' = type). { rewrite Z2Nat.id in Et by lia. destruct type; cbn in Hk; try lia; injection Et as <-; reflexivity. }
    subst type'. change (MeanFacts.nu_sums coef dist ddist (FromLog (g_x gRho (Z.of_nat a))) (FromLog (g_x gT (Z.of_nat b))) (g_x gYe (Z.of_nat y)) type (fst lims) (snd lims) N)
      with (@MeanFacts.nu_sums b64 O coef dist ddist (rho a) (temp b) (Ye y) type (fst lims) (snd lims) N) in Es'.
    rewrite Es in Es'. injection Es' as <-. apply cell_entries in Gv. destruct Gv as [G1 G2]. unfold nu_cell in G1, G2.
    change NEUTRINO_NTYPES with 3%Z in G1, G2. rewrite Z2Nat.id in G1, G2 by lia. subst v. cbn [fst snd] in G1, G2.
    exists (fst (@nu_means b64 O s)), (snd (@nu_means b64 O s)). cbv zeta. split; [exact G1|]. split; [exact G2|]. exact REST. }
  assert (LN : Z.of_nat (List.length dp) = (NRho * NT * NYe * 3)%Z /\ Z.of_nat (List.length dr) = (NRho * NT * NYe * 3)%Z).
  { rewrite LP, LR. assert (0 <= NRho * NT * NYe)%Z by (apply Z.mul_nonneg_nonneg; [apply Z.mul_nonneg_nonneg|]; lia). lia. }
  assert (X : forall i, (Z.of_nat i < NRho * NT * NYe * 3)%Z -> exists a b y type,
    i = Z.to_nat (((Z.of_nat a * NT + Z.of_nat b) * NYe + Z.of_nat y) * 3 + RadType2Idx type) /\
    (Z.of_nat a < NRho)%Z /\ (Z.of_nat b < NT)%Z /\ (Z.of_nat y < NYe)%Z /\ (0 <= RadType2Idx type < 3)%Z).
  { intros i Hi. assert (IT : exists type, RadType2Idx type = (Z.of_nat i mod 3)%Z).
    { pose proof (Z.mod_pos_bound (Z.of_nat i) 3 ltac:(lia)) as M.
      assert (M' : (Z.of_nat i mod 3 = 0 \/ Z.of_nat i mod 3 = 1 \/ Z.of_nat i mod 3 = 2)%Z) by lia.
      destruct M' as [->|[->| ->]]; [now exists NU_ELECTRON|now exists NU_ELECTRON_ANTI|now exists NU_HEAVY]. }
    destruct IT as [type Et]. set (q := (Z.of_nat i / 3)%Z). assert (Hq : (0 <= q < NRho * NT * NYe)%Z).
    { unfold q. split; [apply Z.div_pos; lia|]. apply Z.div_lt_upper_bound; lia. }
    exists (Z.to_nat (q / NYe / NT)), (Z.to_nat ((q / NYe) mod NT)), (Z.to_nat (q mod NYe)), type.
    assert (PY : (0 < NYe)%Z) by lia. assert (PT : (0 < NT)%Z) by lia.
    pose proof (Z.mod_pos_bound q NYe PY). pose proof (Z.mod_pos_bound (q / NYe) NT PT). pose proof (Z.mod_pos_bound (Z.of_nat i) 3 ltac:(lia)).
    assert (0 <= q / NYe)%Z by (apply Z.div_pos; lia). assert (0 <= q / NYe / NT)%Z by (apply Z.div_pos; lia).
    rewrite !Z2Nat.id by lia. rewrite Et. split; [|split; [|lia]].
    - rewrite (Z.mul_comm (q / NYe / NT)), <- Z.div_mod by lia. rewrite (Z.mul_comm (q / NYe)), <- Z.div_mod by lia.
      unfold q. rewrite (Z.mul_comm (Z.of_nat i / 3)), <- Z.div_mod by lia. now rewrite Nat2Z.id.
    - rewrite Z.div_div by lia. apply Z.div_lt_upper_bound; [nia|]. lia. }
  assert (BD : bounded 62 dp /\ bounded 62 dr).
  { split; intros i x Hx.
    - assert (Hi : (Z.of_nat i < NRho * NT * NYe * 3)%Z) by (assert (i < List.length dp)%nat by (apply nth_error_Some; rewrite Hx; discriminate); lia).
      destruct (X i Hi) as (a' & b' & y' & t' & -> & A1 & A2 & A3 & A4). destruct (CELL a' b' y' t' A1 A2 A3 A4) as (p & r & E3 & _ & HN & R1 & _ & W1 & _).
      rewrite Hx in E3. injection E3 as ->. exact (mean_bounded L n p _ HG HN R1 W1).
    - assert (Hi : (Z.of_nat i < NRho * NT * NYe * 3)%Z) by (assert (i < List.length dr)%nat by (apply nth_error_Some; rewrite Hx; discriminate); lia).
      destruct (X i Hi) as (a' & b' & y' & t' & -> & A1 & A2 & A3 & A4). destruct (CELL a' b' y' t' A1 A2 A3 A4) as (p & r & _ & E4 & HN & _ & R2 & _ & W2).
      rewrite Hx in E4. injection E4 as ->. exact (mean_bounded L n r _ HG HN R2 W2). }
  intros a b y type Ha Hb Hy Hk. cbv zeta.
  destruct (CELL a b y type Ha Hb Hy Hk) as (p & r & E3 & E4 & HN & R1 & R2 & W1 & W2).
  assert (AT : forall (l : list b64) x, nth_error l (Z.to_nat (((Z.of_nat a * NT + Z.of_nat b) * NYe + Z.of_nat y) * 3 + RadType2Idx type)) = Some x ->
    at_flat l (((Z.of_nat a * NT + Z.of_nat b) * NYe + Z.of_nat y) * 3 + RadType2Idx type) = Ok x).
  { assert (0 <= Z.of_nat a * NT)%Z by (apply Z.mul_nonneg_nonneg; lia).
    assert (0 <= (Z.of_nat a * NT + Z.of_nat b) * NYe)%Z by (apply Z.mul_nonneg_nonneg; lia).
    intros l x Hx. unfold at_flat. destruct (Z.ltb_spec (((Z.of_nat a * NT + Z.of_nat b) * NYe + Z.of_nat y) * 3 + RadType2Idx type) 0); [lia|]. unfold load. now rewrite Hx. }
  pose proof (cells_half _ _ _ OR) as C1. pose proof (cells_half _ _ _ OT) as C2. pose proof (cells_le _ _ _ OR) as C3. pose proof (cells_le _ _ _ OT) as C4.
  pose proof (cells_half _ _ _ OY) as C5. pose proof (cells_le _ _ _ OY) as C6.
  pose proof (physical_V _ (PR a Ha)) as Pr.
  split.
  - destruct (neutrino_node L HL HG lr0 lr1 lt0 lt1 NRho NT OR OT XR XT gT gRho GT GR y0 y1 NYe OY gYe GY 62 dp (Z.of_nat a) (Z.of_nat b) (Z.of_nat y) type (@ToLog b64 O p)
      ltac:(lra) (proj1 BD) (proj1 LN) ltac:(lia) ltac:(lia) ltac:(lia) Hk (AT _ _ E3)) as (x & Ex & Wx).
    exists x. split; [unfold nm_Planck; rewrite EP; exact Ex|].
    apply (end_to_end L n (cells (real_grid lr0 lr1 NRho) + cells (real_grid lt0 lt1 NT) + cells (real_grid y0 y1 NYe)) x (rho a) p _ HG HN ltac:(lra) Pr R1 (proj1 W1) W1 Wx).
  - destruct (neutrino_node L HL HG lr0 lr1 lt0 lt1 NRho NT OR OT XR XT gT gRho GT GR y0 y1 NYe OY gYe GY 62 dr (Z.of_nat a) (Z.of_nat b) (Z.of_nat y) type (@ToLog b64 O r)
      ltac:(lra) (proj2 BD) (proj2 LN) ltac:(lia) ltac:(lia) ltac:(lia) Hk (AT _ _ E4)) as (x & Ex & Wx).
    exists x. split; [unfold nm_Rosseland; rewrite ER; exact Ex|].
    apply (end_to_end L n (cells (real_grid lr0 lr1 NRho) + cells (real_grid lt0 lt1 NT) + cells (real_grid y0 y1 NYe)) x (rho a) r _ HG HN ltac:(lra) Pr R2 (proj1 W2) W2 Wx).
Qed.


(** *** A library that rounds correctly has an accurate log10 *)
Lemma fmt_near_one x : generic_format radix2 bexp x -> x <> 1 -> 0 < x -> bp (-55) <= Rabs (log10 x).
Proof.
  intros Fx N1 Px. assert (L10 : 0 < ln 10 <= 234 / 100) by (split; [rewrite <- ln_1; apply ln_increasing; lra|apply ln10_up]).
  assert (G : bp (-52) <= x - 1 \/ x <= 1 - bp (-53)).
  { destruct (Rle_lt_dec 2 x) as [H2|H2]; [left; apply Rle_trans with 1; [change 1 with (bp 0); apply bpow_le; lia|lra]|].
    destruct (Rlt_le_dec x (/ 2)) as [H3|H3]; [right; apply Rle_trans with (/ 2); [lra|]; assert (bp (-53) <= bp (-1)) by (apply bpow_le; lia); change (bp (-1)) with (/ 2) in *; lra|].
    assert (S : forall e, bp (e - 1) <= x < bp e -> exists m, x = IZR m * bp (bexp e)).
    { intros e He. exists (Ztrunc (scaled_mantissa radix2 bexp x)). rewrite Fx at 1. unfold F2R. cbn [Fnum Fexp]. f_equal.
      unfold cexp. f_equal. f_equal. apply mag_unique. rewrite Rabs_pos_eq by lra. exact He. }
    destruct (Rle_lt_dec 1 x) as [H1|H1].
    - left. destruct (S 1%Z) as [m Em]; [change (bp (1 - 1)) with 1; change (bp 1) with 2; lra|]. change (bexp 1) with (-52)%Z in Em.
      assert (E1 : 1 = IZR (2 ^ 52) * bp (-52)) by (change 1 with (bp (52 + -52)); rewrite bpow_plus; reflexivity).
      assert (B : 0 < bp (-52)) by apply bpow_gt_0.
      assert (Hm : (2 ^ 52 < m)%Z). { apply lt_IZR. apply Rmult_lt_reg_r with (bp (-52)); [exact B|]. rewrite <- E1, <- Em. lra. }
      assert (Hm' : IZR (2 ^ 52) + 1 <= IZR m) by (change 1 with (IZR 1); rewrite <- plus_IZR; apply IZR_le; lia).
      rewrite Em, E1 at 1. replace (IZR m * bp (-52) - IZR (2 ^ 52) * bp (-52)) with ((IZR m - IZR (2 ^ 52)) * bp (-52)) by ring.
      rewrite <- (Rmult_1_l (bp (-52))) at 1. apply Rmult_le_compat_r; lra.
    - right. destruct (S 0%Z) as [m Em]; [change (bp (0 - 1)) with (/ 2); change (bp 0) with 1; lra|]. change (bexp 0) with (-53)%Z in Em.
      assert (E1 : 1 = IZR (2 ^ 53) * bp (-53)) by (change 1 with (bp (53 + -53)); rewrite bpow_plus; reflexivity).
      assert (B : 0 < bp (-53)) by apply bpow_gt_0.
      assert (Hm : (m < 2 ^ 53)%Z). { apply lt_IZR. apply Rmult_lt_reg_r with (bp (-53)); [exact B|]. rewrite <- E1, <- Em. lra. }
      assert (Hm' : IZR m <= IZR (2 ^ 53) - 1) by (change 1 with (IZR 1); rewrite <- minus_IZR; apply IZR_le; lia).
      rewrite Em. rewrite E1 at 1. replace (IZR (2 ^ 53) * bp (-53) - bp (-53)) with ((IZR (2 ^ 53) - 1) * bp (-53)) by ring.
      apply Rmult_le_compat_r; lra. }
  assert (LN : bp (-55) * ln 10 <= Rabs (ln x)).
  { assert (I : forall z, z <= exp z - 1) by (intros z; pose proof (exp_ineq1_le z); lra).
    assert (B55 : bp (-55) = / 8 * bp (-52) /\ bp (-53) = / 2 * bp (-52)) by (split; [change (-55)%Z with (-3 + -52)%Z|change (-53)%Z with (-1 + -52)%Z]; rewrite bpow_plus; reflexivity).
    assert (B0 : 0 < bp (-52) <= / 1000) by (split; [apply bpow_gt_0|apply Rle_trans with (bp (-10)); [apply bpow_le; lia|change (bp (-10)) with (/ 1024); lra]]).
    destruct G as [G|G].
    - rewrite Rabs_pos_eq by (rewrite <- ln_1; apply Rlt_le, ln_increasing; lra).
      pose proof (I (- ln x)) as J. rewrite exp_Ropp, exp_ln in J by exact Px.
      assert (Q : / x <= 1 - 9 / 10 * bp (-52)).
      { apply Rle_trans with (/ (1 + bp (-52))); [apply Rinv_le_contravar; lra|].
        apply Rmult_le_reg_r with (1 + bp (-52)); [lra|]. rewrite Rinv_l by lra.
        assert (0 <= bp (-52) * (/ 1000 - bp (-52))) by (apply Rmult_le_pos; lra). lra. }
      assert (bp (-52) * ln 10 <= bp (-52) * (234 / 100)) by (apply Rmult_le_compat_l; lra).
      destruct B55 as [-> _]. lra.
    - pose proof (I (ln x)) as J. rewrite exp_ln in J by exact Px. rewrite Rabs_left1 by lra.
      assert (bp (-52) * ln 10 <= bp (-52) * (234 / 100)) by (apply Rmult_le_compat_l; lra).
      destruct B55 as [-> B53]. rewrite B53 in G.
      lra. }
  unfold log10, Rdiv. rewrite Rabs_mult, (Rabs_pos_eq (/ ln 10)) by (left; apply Rinv_0_lt_compat; lra).
  apply Rmult_le_reg_r with (ln 10); [lra|]. rewrite Rmult_assoc, Rinv_l, Rmult_1_r by lra. exact LN.
Qed.

Lemma nearest_log10_accurate : accurate_log10 nearest_libm.
Proof.
  intros x F P. cbn [nearest_libm lm_log10]. pose proof (log10_size x F P) as S. destruct (nearest_V _ S) as [A B].
  split; [exact A|]. change (B2R x) with (V x) in *. fold (V (nearest (log10 (V x)))). rewrite B. fold u.
  destruct (Req_dec (V x) 1) as [E|E].
  - rewrite E. unfold log10. rewrite ln_1. unfold Rdiv. rewrite Rmult_0_l. unfold rnd. rewrite round_0 by apply valid_rnd_N.
    rewrite Rminus_0_r, Rabs_R0. lra.
  - pose proof (fmt_near_one (V x) (V_fmt x) E P) as G. pose proof u_pos as U.
    assert (G' : bp (-900) <= Rabs (log10 (V x))) by (apply Rle_trans with (2 := G); apply bpow_le; lia).
    pose proof (rerr (log10 (V x)) (Rabs (log10 (V x))) (Rle_refl _) G') as Q. pose proof (Rabs_pos (log10 (V x))).
    apply Rle_trans with (1 := Q). apply Rmult_le_compat_r; lra.
Qed.

(** *** Small tables *)
Definition ex_z (k : Z) : b64 := b64_of_Z k.
Lemma ex_zv k : (Z.abs k < 2 ^ 31)%Z -> fin (ex_z k) /\ V (ex_z k) = IZR k.
Proof. intros H. destruct (of_Z_exact k H). split; assumption. Qed.
Lemma ex_axis lo hi : (Z.abs lo <= 30)%Z -> (Z.abs hi <= 30)%Z -> (lo + 1 = hi)%Z -> ordinary (ex_z lo) (ex_z hi) 2 /\ extent (real_grid (ex_z lo) (ex_z hi) 2) <= 30.
Proof.
  intros H1 H2 H3. destruct (ex_zv lo ltac:(lia)) as [F1 V1]. destruct (ex_zv hi ltac:(lia)) as [F2 V2].
  assert (X : extent (real_grid (ex_z lo) (ex_z hi) 2) <= 30).
  { unfold extent. cbn [real_grid rg_lo rg_hi]. fold (V (ex_z lo)) (V (ex_z hi)). rewrite V1, V2, <- !abs_IZR.
    repeat apply Rmax_lub; [lra|apply IZR_le; lia..]. }
  split; [|exact X]. split; [exact F1|]. split; [exact F2|]. fold (V (ex_z lo)) (V (ex_z hi)). rewrite V1, V2.
  split; [apply IZR_lt; lia|]. split; [lia|]. split; [lra|].
  assert (Y : rg_dx (real_grid (ex_z lo) (ex_z hi) 2) = 1).
  { unfold rg_dx. cbn [real_grid rg_lo rg_hi rg_n]. fold (V (ex_z lo)) (V (ex_z hi)). rewrite V1, V2.
    replace (IZR hi - IZR lo) with 1 by (rewrite <- H3, plus_IZR; ring). change (IZR (2 - 1)) with 1. apply Rdiv_1. }
  unfold cells. rewrite Y, Rdiv_1. lra.
Qed.
Lemma ex_grid lo hi : (lo + 1 = hi)%Z -> (Z.abs lo <= 30)%Z -> exists G, @mk_grid b64 (B64_ops nearest_libm) (ex_z lo) (ex_z hi) 2 = Ok G.
Proof.
  intros H H1. unfold mk_grid. change (@Oltb b64 (B64_ops nearest_libm) (ex_z lo) (ex_z hi)) with (Bltb (ex_z lo) (ex_z hi)).
  destruct (ex_zv lo ltac:(lia)) as [F1 V1]. destruct (ex_zv hi ltac:(lia)) as [F2 V2].
  rewrite Bltb_correct by assumption. fold (V (ex_z lo)) (V (ex_z hi)). rewrite V1, V2. rewrite Rlt_bool_true by (apply IZR_lt; lia). cbn [andb Z.ltb Z.compare]. now eexists.
Qed.

Lemma ex_stores L lr hr lt ht d F : (Z.of_nat (List.length d) = 4)%Z -> bounded F d ->
  ordinary (ex_z lr) (ex_z hr) 2 -> ordinary (ex_z lt) (ex_z ht) 2 ->
  forall gR gT, @mk_grid b64 (B64_ops L) (ex_z lr) (ex_z hr) 2 = Ok gR -> @mk_grid b64 (B64_ops L) (ex_z lt) (ex_z ht) 2 = Ok gT ->
  holds64 L F {| db_dims := [1%Z; 2%Z; 2%Z]; db_ranges := [None; Some gT; Some gR]; db_data := d |}
    [Axis (real_grid (ex_z lr) (ex_z hr) 2); Axis (real_grid (ex_z lt) (ex_z ht) 2); Index 1] (fun is => value d (flat [2%Z; 2%Z; 1%Z] is 0)).
Proof.
  intros Hd HB OR OT gR gT GR GT. split.
  - cbn [db_dims db_ranges combine rev app]. repeat constructor.
    + exists (ex_z lr), (ex_z hr), gR. repeat split; try apply OR; exact GR.
    + exists (ex_z lt), (ex_z ht), gT. repeat split; try apply OT; exact GT.
  - apply (full_stores F [Axis (real_grid (ex_z lr) (ex_z hr) 2); Axis (real_grid (ex_z lt) (ex_z ht) 2); Index 1]);
      [repeat constructor; cbn; lia|exact HB|lia|cbn [total rd_size real_grid rg_n db_data]; lia].
Qed.
Definition ex_data : list b64 := map ex_z [0; 1; 2; 4]%Z.
Lemma ex_data_bounded : bounded 4 ex_data.
Proof.
  intros i x H. apply nth_error_In in H. unfold ex_data in H. apply in_map_iff in H. destruct H as (k & <- & H).
  assert (K : (0 <= k <= 4)%Z) by (cbn in H; lia). destruct (ex_zv k ltac:(lia)) as [F E]. split; [exact F|].
  rewrite E, <- abs_IZR. apply IZR_le. lia.
Qed.
Lemma log_inside lo hi x k : (Z.of_nat hi <= 30)%Z -> (lo <= hi)%nat -> fin x -> 10 ^ lo <= V x <= 10 ^ hi -> 0 <= k ->
  coordinate k (real_grid (ex_z (Z.of_nat lo)) (ex_z (Z.of_nat hi)) 2) (log10 (V x)) (log10 (V x)).
Proof.
  intros Hh Hl F H Hk. destruct (ex_zv (Z.of_nat lo) ltac:(lia)) as [_ V1]. destruct (ex_zv (Z.of_nat hi) ltac:(lia)) as [_ V2].
  assert (P : 0 < 10 ^ lo) by (apply pow_lt; lra). assert (L10 : 0 < ln 10) by (rewrite <- ln_1; apply ln_increasing; lra).
  assert (M : forall a b, 0 < a -> a <= b -> log10 a <= log10 b).
  { intros a b Pa Hab. unfold log10, Rdiv. apply Rmult_le_compat_r; [left; apply Rinv_0_lt_compat, L10|]. destruct Hab as [Hab| ->]; [left; now apply ln_increasing|right; reflexivity]. }
  split.
  - unfold rg_inside. cbn [real_grid rg_lo rg_hi]. fold (V (ex_z (Z.of_nat lo))) (V (ex_z (Z.of_nat hi))). rewrite V1, V2, <- !INR_IZR_INZ, <- !log10_pow.
    split; apply M; lra.
  - rewrite Rminus_diag_eq, Rabs_R0 by reflexivity. apply Rmult_le_pos; [apply Rmult_le_pos; [exact Hk|left; apply Rinv_0_lt_compat, pow_lt; lra]|].
    apply Rle_trans with 1; [lra|]. apply Rmax_l.
Qed.
Lemma ex_phys k : (1 <= k < 2 ^ 31)%Z -> physical (ex_z k).
Proof.
  intros H. destruct (ex_zv k ltac:(lia)) as [F E]. split; [exact F|]. fold (V (ex_z k)). rewrite E, two_pow_bp, <- bpow_opp. split.
  - apply Rle_trans with 1; [change 1 with (bp 0); apply bpow_le; vm_compute; congruence|apply IZR_le; lia].
  - apply Rle_trans with (bp 31); [|apply bpow_le; vm_compute; congruence]. change (bp 31) with (IZR (2 ^ 31)). apply IZR_le. lia.
Qed.

(** A table with two densities, two temperatures and one group, asked at density 5 and
    temperature 2*10^7, between the nodes: C63_photon and C63_between. *)
Lemma C63_photon_example :
  exists L F b gR gT ng f rho temp group yR yT r m M,
  accurate_libm L /\ accurate_log10 L /\ 1 <= F <= 250 /\ holds64 L F b [Axis gR; Axis gT; Index ng] f /\ physical rho /\ physical temp /\
  (0 <= group < ng)%Z /\ coordinate 16 gR (log10 (B2R rho)) yR /\ coordinate 16 gT (log10 (B2R temp)) yT /\
  interpolates [Pos yR; Pos yT; Num group] [Axis gR; Axis gT; Index ng] f r /\
  (forall is, Tables.near [Pos yR; Pos yT; Num group] [Axis gR; Axis gT; Index ng] is -> m <= f is <= M) /\
  B2R rho = 5 /\ B2R temp = 20000000.
Proof.
  destruct (ex_axis 0 1 ltac:(lia) ltac:(lia) ltac:(lia)) as [OR _]. destruct (ex_axis 7 8 ltac:(lia) ltac:(lia) ltac:(lia)) as [OT _].
  destruct (ex_grid 0 1 ltac:(lia) ltac:(lia)) as [gR GR]. destruct (ex_grid 7 8 ltac:(lia) ltac:(lia)) as [gT GT].
  pose proof (ex_stores nearest_libm 0 1 7 8 ex_data 4 eq_refl ex_data_bounded OR OT gR gT GR GT) as HH.
  destruct (ex_zv 5 ltac:(lia)) as [F5 V5]. destruct (ex_zv 20000000 ltac:(lia)) as [F2 V2].
  pose proof (log_inside 0 1 (ex_z 5) 16 ltac:(lia) ltac:(lia) F5 ltac:(rewrite V5; simpl; lra) ltac:(lra)) as CR.
  pose proof (log_inside 7 8 (ex_z 20000000) 16 ltac:(lia) ltac:(lia) F2 ltac:(rewrite V2; simpl; lra) ltac:(lra)) as CT.
  cbn [Z.of_nat Pos.of_succ_nat Pos.succ] in CR, CT.
  set (yR := log10 (V (ex_z 5))) in *. set (yT := log10 (V (ex_z 20000000))) in *.
  set (dims := [Axis (real_grid (ex_z 0) (ex_z 1) 2); Axis (real_grid (ex_z 7) (ex_z 8) 2); Index 1]) in *.
  set (f := fun is => value ex_data (flat [2%Z; 2%Z; 1%Z] is 0)) in *.
  assert (INS : inside [Pos yR; Pos yT; Num 0%Z] dims).
  { cbn. repeat split; try apply CR; try apply CT; lia. }
  destruct (interpolant_exists dims [Pos yR; Pos yT; Num 0%Z] f) as [r Er]; [eapply dims64_ok; apply HH|exact INS|].
  exists nearest_libm, 4. eexists. exists (real_grid (ex_z 0) (ex_z 1) 2), (real_grid (ex_z 7) (ex_z 8) 2), 1%Z, f, (ex_z 5), (ex_z 20000000), 0%Z, yR, yT, r, (-4), 4.
  split; [apply nearest_accurate|]. split; [apply nearest_log10_accurate|]. split; [lra|]. split; [exact HH|].
  split; [apply ex_phys; lia|]. split; [apply ex_phys; lia|]. split; [lia|]. split; [exact CR|]. split; [exact CT|]. split; [exact Er|].
  split; [|split; [exact V5|exact V2]].
  intros is _. unfold f, value. assert (Z : 0 <= 4) by lra. unfold at_flat.
  destruct (flat [2%Z; 2%Z; 1%Z] is 0 <? 0)%Z; [lra|]. unfold load. destruct (nth_error ex_data _) as [x|] eqn:E; [|lra].
  apply Rabs_le_inv. exact (proj2 (ex_data_bounded _ _ E)).
Qed.

(** Four stored numbers 1, 10, 3 and 7 on that grid: C63_stored. *)
Lemma C63_stored_example :
  exists L F lr0 lr1 lt0 lt1 NRho NT ng gT gRho ps,
  let O := B64_ops L in
  accurate_libm L /\ accurate_log10 L /\ 1 <= F <= 240 /\
  ordinary lr0 lr1 NRho /\ ordinary lt0 lt1 NT /\ extent (real_grid lr0 lr1 NRho) <= 30 /\ extent (real_grid lt0 lt1 NT) <= 30 /\
  @mk_grid b64 O lt0 lt1 NT = Ok gT /\ @mk_grid b64 O lr0 lr1 NRho = Ok gRho /\
  Z.of_nat (List.length ps) = (NRho * NT * ng)%Z /\
  (forall p, In p ps -> is_finite p = true /\ 0 < B2R p /\ Rabs (log10 (B2R p)) <= F) /\ map (fun p : b64 => B2R p) ps = [1; 10; 3; 7].
Proof.
  destruct (ex_axis 0 1 ltac:(lia) ltac:(lia) ltac:(lia)) as [OR XR]. destruct (ex_axis 7 8 ltac:(lia) ltac:(lia) ltac:(lia)) as [OT XT].
  destruct (ex_grid 0 1 ltac:(lia) ltac:(lia)) as [gR GR]. destruct (ex_grid 7 8 ltac:(lia) ltac:(lia)) as [gT GT].
  exists nearest_libm, 2, (ex_z 0), (ex_z 1), (ex_z 7), (ex_z 8), 2%Z, 2%Z, 1%Z, gT, gR, (map ex_z [1; 10; 3; 7]%Z). cbv zeta.
  split; [apply nearest_accurate|]. split; [apply nearest_log10_accurate|]. split; [lra|].
  repeat (split; [assumption|]). split; [reflexivity|]. split.
  - intros p Hp. apply in_map_iff in Hp. destruct Hp as (k & <- & Hk). assert (K : (1 <= k <= 10)%Z) by (cbn in Hk; lia).
    destruct (ex_zv k ltac:(lia)) as [F E]. split; [exact F|]. fold (V (ex_z k)). rewrite E. split; [apply (IZR_lt 0); lia|].
    destruct (log_inside 0 2 (ex_z k) 1 ltac:(lia) ltac:(lia) F) as [I _].
    + rewrite E. split; [simpl; apply IZR_le; lia|]. apply Rle_trans with 10; [apply IZR_le; lia|simpl; lra].
    + lra.
    + unfold rg_inside in I. cbn [real_grid rg_lo rg_hi] in I. rewrite E in I. apply Rabs_le.
      destruct (ex_zv 0 ltac:(lia)) as [_ V0]. destruct (ex_zv 2 ltac:(lia)) as [_ V2].
      change (B2R (ex_z (Z.of_nat 0))) with (V (ex_z 0)) in I. change (B2R (ex_z (Z.of_nat 2))) with (V (ex_z 2)) in I. rewrite V0, V2 in I. lra.
  - cbn [map]. destruct (ex_zv 1 ltac:(lia)) as [_ V1]. destruct (ex_zv 10 ltac:(lia)) as [_ V10]. destruct (ex_zv 3 ltac:(lia)) as [_ V3]. destruct (ex_zv 7 ltac:(lia)) as [_ V7].
    unfold V in *. rewrite V1, V10, V3, V7. reflexivity.
Qed.

(** Two densities, temperatures and electron fractions and the three species, asked at density
    5, temperature 2*10^7 and electron fraction 1/4: C63_neutrino. *)
Lemma C63_neutrino_example :
  exists L F b gR gT gY f (rho temp Ye : b64) type yR yT yY r,
  accurate_libm L /\ accurate_log10 L /\ 1 <= F <= 250 /\
  holds64 L F b [Axis gR; Axis gT; Axis gY; Index 3] f /\ physical rho /\ physical temp /\ is_finite Ye = true /\
  coordinate 16 gR (log10 (B2R rho)) yR /\ coordinate 16 gT (log10 (B2R temp)) yT /\ coordinate 16 gY (B2R Ye) yY /\
  interpolates [Pos yR; Pos yT; Pos yY; Num (RadType2Idx type)] [Axis gR; Axis gT; Axis gY; Index 3] f r /\
  B2R rho = 5 /\ B2R temp = 20000000 /\ B2R Ye = 1 / 4 /\ List.length (db_data b) = 24%nat.
Proof.
  destruct (ex_axis 0 1 ltac:(lia) ltac:(lia) ltac:(lia)) as [OR _]. destruct (ex_axis 7 8 ltac:(lia) ltac:(lia) ltac:(lia)) as [OT _].
  destruct (ex_grid 0 1 ltac:(lia) ltac:(lia)) as [gR GR]. destruct (ex_grid 7 8 ltac:(lia) ltac:(lia)) as [gT GT].
  set (d := ex_data ++ ex_data ++ ex_data ++ ex_data ++ ex_data ++ ex_data).
  assert (BD : bounded 4 d).
  { intros i x H. apply nth_error_In in H. assert (I : In x ex_data) by (unfold d in H; repeat (apply in_app_or in H; destruct H as [H|H]; [exact H|]); exact H).
    apply In_nth_error in I. destruct I as [j I]. exact (ex_data_bounded j x I). }
  destruct (ex_zv 5 ltac:(lia)) as [F5 V5]. destruct (ex_zv 20000000 ltac:(lia)) as [F2 V2].
  destruct (V_lit 1 (-2)) as [E4 F4]; [reflexivity|lia|lia|]. change (bp (-2)) with (/ 4) in E4. set (ye := b64_ldexp 1 (-2)) in *.
  pose proof (log_inside 0 1 (ex_z 5) 16 ltac:(lia) ltac:(lia) F5 ltac:(rewrite V5; simpl; lra) ltac:(lra)) as CR.
  pose proof (log_inside 7 8 (ex_z 20000000) 16 ltac:(lia) ltac:(lia) F2 ltac:(rewrite V2; simpl; lra) ltac:(lra)) as CT.
  cbn [Z.of_nat Pos.of_succ_nat Pos.succ] in CR, CT.
  set (yR := log10 (V (ex_z 5))) in *. set (yT := log10 (V (ex_z 20000000))) in *.
  set (dims := [Axis (real_grid (ex_z 0) (ex_z 1) 2); Axis (real_grid (ex_z 7) (ex_z 8) 2); Axis (real_grid (ex_z 0) (ex_z 1) 2); Index 3]).
  set (f := fun is => value d (flat [2%Z; 2%Z; 2%Z; 3%Z] is 0)).
  assert (HH : holds64 nearest_libm 4 {| db_dims := [3%Z; 2%Z; 2%Z; 2%Z]; db_ranges := [None; Some gR; Some gT; Some gR]; db_data := d |} dims f).
  { split.
    - cbn [db_dims db_ranges combine rev app]. repeat constructor.
      + exists (ex_z 0), (ex_z 1), gR. repeat split; try apply OR; exact GR.
      + exists (ex_z 7), (ex_z 8), gT. repeat split; try apply OT; exact GT.
      + exists (ex_z 0), (ex_z 1), gR. repeat split; try apply OR; exact GR.
    - apply (full_stores 4 dims); [repeat constructor; cbn; lia|exact BD|lia|cbn [total dims rd_size real_grid rg_n db_data]; vm_compute; congruence]. }
  assert (CY : coordinate 16 (real_grid (ex_z 0) (ex_z 1) 2) (V ye) (V ye)).
  { destruct (ex_zv 0 ltac:(lia)) as [_ V0]. destruct (ex_zv 1 ltac:(lia)) as [_ V1]. split.
    - unfold rg_inside. cbn [real_grid rg_lo rg_hi]. fold (V (ex_z 0)) (V (ex_z 1)). rewrite V0, V1, E4. lra.
    - rewrite Rminus_diag_eq, Rabs_R0 by reflexivity. apply Rmult_le_pos; [apply Rmult_le_pos; [lra|left; apply Rinv_0_lt_compat, pow_lt; lra]|].
      apply Rle_trans with 1; [lra|]. apply Rmax_l. }
  assert (INS : inside [Pos yR; Pos yT; Pos (V ye); Num 2%Z] dims).
  { cbn. repeat split; try apply CR; try apply CT; try apply CY; lia. }
  destruct (interpolant_exists dims _ f ltac:(eapply dims64_ok; apply HH) INS) as [r Er].
  exists nearest_libm, 4. eexists. exists (real_grid (ex_z 0) (ex_z 1) 2), (real_grid (ex_z 7) (ex_z 8) 2), (real_grid (ex_z 0) (ex_z 1) 2), f, (ex_z 5), (ex_z 20000000), ye, NU_HEAVY, yR, yT, (V ye), r.
  split; [apply nearest_accurate|]. split; [apply nearest_log10_accurate|]. split; [lra|]. split; [exact HH|].
  split; [apply ex_phys; lia|]. split; [apply ex_phys; lia|]. split; [exact F4|]. split; [exact CR|]. split; [exact CT|]. split; [exact CY|]. split; [exact Er|].
  split; [exact V5|]. split; [exact V2|]. split; [|reflexivity]. fold (V ye). rewrite E4. lra.
Qed.

Lemma ex_sample i : (i < 2)%nat ->
  physical (@FromLog b64 (B64_ops nearest_libm) (@Oadd b64 (B64_ops nearest_libm) (ex_z 17) (@Omul b64 (B64_ops nearest_libm)
    (@Oadd b64 (B64_ops nearest_libm) (@OofZ b64 (B64_ops nearest_libm) (Z.of_nat i)) (@Odec b64 (B64_ops nearest_libm) 5 (-1))) (ex_z 1)))) /\
  10 ^ 17 <= V (@FromLog b64 (B64_ops nearest_libm) (@Oadd b64 (B64_ops nearest_libm) (ex_z 17) (@Omul b64 (B64_ops nearest_libm)
    (@Oadd b64 (B64_ops nearest_libm) (@OofZ b64 (B64_ops nearest_libm) (Z.of_nat i)) (@Odec b64 (B64_ops nearest_libm) 5 (-1))) (ex_z 1)))).
Proof.
  intros Hi. destruct (ex_nus i Hi) as [P R]. destruct ex_logs as [E1 _]. unfold sample_nu in P, R. rewrite ex_dl, ex_win in P, R. cbn [fst] in P, R. rewrite E1 in P, R.
  split; [exact P|]. apply Rle_trans with (10 ^ (17 + i)); [apply Rle_pow; [lra|lia]|apply R].
Qed.

(** Neutrino absorption averaged over two frequencies between 10^17 and 10^19 Hz, constant
    distributions, an opacity equal to the frequency: C63_nu_table. *)
Lemma C63_nu_table_example :
  exists L coef dist ddist lr0 lr1 lt0 lt1 y0 y1 NRho NT NYe N l0 l1 gYe gT gRho alpha B D,
  let O := B64_ops L in
  let n := Z.to_nat N in
  let dl := @Odiv b64 O (@Osub b64 O l1 l0) (@OofZ b64 O N) in
  let nu := fun i => @FromLog b64 O (@Oadd b64 O l0 (@Omul b64 O (@Oadd b64 O (@OofZ b64 O (Z.of_nat i)) (@Odec b64 O 5 (-1))) dl)) in
  let rho := fun a => @FromLog b64 O (@g_x b64 O gRho (Z.of_nat a)) in
  let temp := fun b => @FromLog b64 O (@g_x b64 O gT (Z.of_nat b)) in
  let Ye := fun y => @g_x b64 O gYe (Z.of_nat y) in
  n = 2%nat /\ accurate_libm L /\ accurate_log10 L /\
  ordinary lr0 lr1 NRho /\ ordinary lt0 lt1 NT /\ ordinary y0 y1 NYe /\
  extent (real_grid lr0 lr1 NRho) <= 30 /\ extent (real_grid lt0 lt1 NT) <= 30 /\
  @mk_grid b64 O y0 y1 NYe = Ok gYe /\ @mk_grid b64 O lt0 lt1 NT = Ok gT /\ @mk_grid b64 O lr0 lr1 NRho = Ok gRho /\
  (forall a b y type, (Z.of_nat a < NRho)%Z -> (Z.of_nat b < NT)%Z -> (Z.of_nat y < NYe)%Z -> (0 <= RadType2Idx type < 3)%Z ->
     (forall i, (i < n)%nat -> coef (rho a) (temp b) (Ye y) type (nu i) = Ok (alpha a b y type i) /\
        dist (temp b) type (nu i) = Ok (B b type i) /\ ddist (temp b) type (nu i) = Ok (D b type i)) /\
     nu_regular n (alpha a b y type) (B b type) (D b type) nu dl).
Proof.
  destruct (ex_axis 0 1 ltac:(lia) ltac:(lia) ltac:(lia)) as [OR XR]. destruct (ex_axis 7 8 ltac:(lia) ltac:(lia) ltac:(lia)) as [OT XT].
  destruct (ex_grid 0 1 ltac:(lia) ltac:(lia)) as [gR GR]. destruct (ex_grid 7 8 ltac:(lia) ltac:(lia)) as [gT GT].
  set (O := B64_ops nearest_libm).
  set (dl := @Odiv b64 O (@Osub b64 O (ex_z 19) (ex_z 17)) (@OofZ b64 O 2)).
  assert (Edl : dl = ex_z 1) by (apply B2SF_inj; vm_compute; reflexivity).
  set (nu := fun i => @FromLog b64 O (@Oadd b64 O (ex_z 17) (@Omul b64 O (@Oadd b64 O (@OofZ b64 O (Z.of_nat i)) (@Odec b64 O 5 (-1))) dl))).
  assert (NU : forall i, (i < 2)%nat -> physical (nu i) /\ 10 ^ 17 <= V (nu i)) by (intros i Hi; unfold nu; rewrite Edl; exact (ex_sample i Hi)).
  exists nearest_libm, (fun _ _ _ _ v => Ok v), (fun _ _ _ => Ok (ex_z 1)), (fun _ _ _ => Ok (ex_z 1)),
    (ex_z 0), (ex_z 1), (ex_z 7), (ex_z 8), (ex_z 0), (ex_z 1), 2%Z, 2%Z, 2%Z, 2%Z, (ex_z 17), (ex_z 19), gR, gT, gR,
    (fun _ _ _ _ => nu), (fun _ _ _ => ex_z 1), (fun _ _ _ => ex_z 1).
  cbv zeta. change (Z.to_nat 2) with 2%nat. fold O. fold dl. fold nu. split; [reflexivity|]. split; [apply nearest_accurate|]. split; [apply nearest_log10_accurate|].
  repeat (split; [assumption|]). intros a b y type _ _ _ _. split; [intros i Hi; repeat split|].
  destruct (ex_zv 1 ltac:(lia)) as [F1 V1].
  assert (U : forall k x, (100 <= k)%nat -> physical x -> upto k x).
  { intros k x Hk P. pose proof (physical_V _ P). destruct P as [F [_ P]]. split; [exact F|]. fold (V x) in *. split; [lra|]. apply Rle_trans with (1 := P). apply Rle_pow; [lra|lia]. }
  assert (P1 : physical (ex_z 1)) by (apply ex_phys; lia).
  assert (HV : heavy 2 (fun i => B2R (ex_z 1) * B2R (nu i) * B2R dl)).
  { unfold heavy. cbn [rsum]. fold (V (ex_z 1)) (V (nu 0%nat)) (V (nu 1%nat)) (V dl). rewrite Edl, V1.
    destruct (NU 0%nat ltac:(lia)) as [_ A0]. destruct (NU 1%nat ltac:(lia)) as [_ A1].
    assert (1 <= 10 ^ 17) by (apply pow_R1_Rle; lra). assert (/ 2 ^ 500 <= 1) by (rewrite <- Rinv_1; apply Rinv_le_contravar; [lra|apply pow_R1_Rle; lra]). lra. }
  split; [simpl; lra|]. split; [rewrite Edl; apply U; [lia|exact P1]|]. split; [|split; exact HV].
  intros i Hi. destruct (NU i Hi) as [A _]. split; [exact A|]. split; [apply U; [lia|exact P1]|]. split; [apply U; [lia|exact P1]|]. apply U; [lia|exact A].
Qed.

(** *** A photon table: the same samples at 10^7 K and 10^8 K *)
Lemma pow10_node k : (0 <= k <= 9)%Z -> @FromLog b64 (B64_ops nearest_libm) (ex_z k) = ex_z (10 ^ k).
Proof.
  intros H. unfold FromLog. change (nearest (Rpower (B2R (b64_of_Z 10)) (V (ex_z k))) = ex_z (10 ^ k)).
  destruct (ex_zv k ltac:(lia)) as [_ E]. destruct (ex_zv 10 ltac:(lia)) as [_ E10]. fold (ex_z 10) (V (ex_z 10)). rewrite E, E10.
  assert (R : (1 <= 10 ^ k <= 10 ^ 9)%Z) by (split; [apply (Z.pow_le_mono_r 10 0)|apply Z.pow_le_mono_r]; lia). change (10 ^ 9)%Z with 1000000000%Z in R.
  destruct (ex_zv (10 ^ k) ltac:(lia)) as [F Ek].
  replace (Rpower 10 (IZR k)) with (V (ex_z (10 ^ k))); [apply nearest_id; [exact F|]|].
  - rewrite Ek. split; [apply (IZR_lt 0); lia|]. apply Rle_trans with (bp 30); [|apply bpow_le; lia]. change (bp 30) with 1073741824. apply IZR_le. lia.
  - rewrite Ek. replace (IZR k) with (INR (Z.to_nat k)) by (rewrite INR_IZR_INZ, Z2Nat.id by lia; reflexivity). rewrite Rpower_pow by lra.
    rewrite pow_IZR, Z2Nat.id by lia. reflexivity.
Qed.
Section PhotonExample.
  Local Notation O := (B64_ops nearest_libm).
  Local Notation pc := (@PhysicalConstantsCGS b64 O).
  Variable t : b64.
  Hypothesis PT : physical t.
  Hypothesis HT : 10 ^ 7 <= V t.
  Hypothesis HW : @sample_window b64 O pc t ex_lo ex_hi = (ex_lo, ex_hi).
  Local Notation win := (@sample_window b64 O pc t ex_lo ex_hi).
  Local Notation nu := (@sample_nu b64 O win 2).
  Lemma ex_weights : (forall i, (i < 2)%nat -> physical (nu i) /\ h_cgs * B2R (nu i) / (k_cgs * B2R t) <= 48) /\
    / 2 ^ 100 <= rsum 2 (fun i => planck_weight (B2R t) (B2R (nu i))) /\ / 2 ^ 100 <= rsum 2 (fun i => rosseland_weight (B2R t) (B2R (nu i))).
  Proof.
    assert (P7 : 1 <= 10 ^ 7) by (apply pow_R1_Rle; lra).
    assert (H1 : 1 <= B2R t) by (fold (V t); lra).
    pose proof (ex_nus 0 ltac:(lia)) as (N0 & R0). pose proof (ex_nus 1 ltac:(lia)) as (N1 & R1). cbn [Nat.add] in R0, R1. rewrite ex_win, <- HW in N0, N1, R0, R1.
    change (10 ^ 17 <= V (nu 0%nat) <= 10 ^ 18) in R0. change (10 ^ 18 <= V (nu 1%nat) <= 10 ^ 19) in R1.
    change (physical (nu 0%nat)) in N0. change (physical (nu 1%nat)) in N1.
    destruct consts_pos as (A & B & C). assert (KP : 0 < k_cgs * 10 ^ 7) by (apply Rmult_lt_0_compat; lra).
    assert (XX : forall v m, 0 <= v <= m -> h_cgs * v / (k_cgs * B2R t) <= h_cgs * m / (k_cgs * 10 ^ 7)).
    { intros v m Hv. fold (V t). unfold Rdiv. apply Rmult_le_compat; [apply Rmult_le_pos; lra|left; apply Rinv_0_lt_compat, Rmult_lt_0_compat; lra|apply Rmult_le_compat_l; lra|].
      apply Rinv_le_contravar; [exact KP|]. apply Rmult_le_compat_l; lra. }
    assert (X18 : h_cgs * 10 ^ 18 / (k_cgs * 10 ^ 7) <= 5).
    { apply Rmult_le_reg_r with (k_cgs * 10 ^ 7); [exact KP|]. replace (h_cgs * 10 ^ 18 / (k_cgs * 10 ^ 7) * (k_cgs * 10 ^ 7)) with (h_cgs * 10 ^ 18) by (field; lra).
      unfold h_cgs, k_cgs. cbn [pow]. lra. }
    assert (X19 : h_cgs * 10 ^ 19 / (k_cgs * 10 ^ 7) <= 48).
    { apply Rmult_le_reg_r with (k_cgs * 10 ^ 7); [exact KP|]. replace (h_cgs * 10 ^ 19 / (k_cgs * 10 ^ 7) * (k_cgs * 10 ^ 7)) with (h_cgs * 10 ^ 19) by (field; lra).
      unfold h_cgs, k_cgs. cbn [pow]. lra. }
    assert (T0 : 0 <= V (nu 0%nat)) by (apply Rle_trans with (10 ^ 17); [apply pow_le; lra|apply R0]).
    assert (T1 : 0 <= V (nu 1%nat)) by (apply Rle_trans with (10 ^ 18); [apply pow_le; lra|apply R1]).
    pose proof (rT t PT H1) as RT. pose proof (rN _ N0) as RN0. pose proof (rN _ N1) as RN1.
    assert (B56 : bp 56 <= V (nu 0%nat)) by (apply Rle_trans with (10 ^ 17); [change (bp 56) with 72057594037927936; simpl; lra|apply R0]).
    assert (XR : xr (V t) (V (nu 0%nat)) <= 40).
    { apply Rle_trans with (h_cgs * 10 ^ 18 / (k_cgs * 10 ^ 7)); [|lra]. apply XX. lra. }
    destruct (weight_below (V t) (V (nu 0%nat)) RT (conj B56 (proj2 RN0)) XR) as [Q1 Q2].
    pose proof (low_pos (V t) (V (nu 1%nat)) RN1) as LP. pose proof (BB_low _ _ RT RN1) as LB. pose proof (dB_low _ _ RT RN1) as LD.
    assert (DE : forall i, physical (nu i) -> rosseland_weight (B2R t) (B2R (nu i)) = dPlanck (V t) (V (nu i)) * V (nu i)).
    { intros i P. unfold rosseland_weight. f_equal. apply is_derive_unique. pose proof (physical_V _ P) as Pn. pose proof (physical_V _ PT) as Pt.
      pose proof (Planck_dT_value h_cgs k_cgs c_cgs (V t) (V (nu i)) A B C Pt Pn) as Z.
      rewrite <- (dPlanck_value _ _ _ Pt Pn Z). exact Z. }
    split; [|split].
    - intros i Hi. destruct i as [|[|i]]; [| |lia].
      + split; [exact N0|]. apply Rle_trans with (1 := XX (V (nu 0%nat)) (10 ^ 18) ltac:(lra)). lra.
      + split; [exact N1|]. apply Rle_trans with (1 := XX (V (nu 1%nat)) (10 ^ 19) ltac:(lra)). lra.
    - cbn [rsum]. assert (0 <= planck_weight (B2R t) (B2R (nu 1%nat))) by (unfold planck_weight; fold (V t) (V (nu 1%nat)); apply Rmult_le_pos; lra).
      unfold planck_weight in *. fold (V t) (V (nu 0%nat)) in *. lra.
    - cbn [rsum]. rewrite (DE _ N0), (DE _ N1). assert (0 <= dPlanck (V t) (V (nu 1%nat)) * V (nu 1%nat)) by (apply Rmult_le_pos; lra). lra.
  Qed.
  Lemma ex_regular rho : physical rho -> regular 2 nu (fun i => fst (@ThermalWeightsAtNu b64 O pc t (nu i))) (fun i => snd (@ThermalWeightsAtNu b64 O pc t (nu i)))
    (fun i => @Omul b64 O (nu i) (@sample_dlnu b64 O win 2)).
  Proof.
    intros Hr. destruct ex_weights as (A & B & D). assert (P7 : 1 <= 10 ^ 7) by (apply pow_R1_Rle; lra).
    assert (H1 : 1 <= B2R t) by (fold (V t); lra).
    assert (HD : physical (@sample_dlnu b64 O win 2)) by (rewrite HW, <- ex_win, ex_dl; apply (ex_phys 1); lia).
    refine (proj1 (planck_core nearest_libm (fun _ _ v => Ok v) rho t ex_lo ex_hi 2 _ 48 nearest_accurate nearest_graceful Hr PT H1 HD _ _ B D)).
    + simpl. lra.
    + intros i Hi. destruct (A i Hi) as [A1 A2]. repeat split; try assumption; apply A1.
  Qed.
End PhotonExample.

(** Two samples in the group from 10^17 to 10^19 Hz, densities 1 and 10, temperatures 10^7 and
    10^8 K, an opacity equal to the frequency: C63_builds and, with the table it builds,
    C63_table. *)
Lemma C63_builds_example :
  exists L pc opc coef lr0 lr1 lt0 lt1 NRho NT ng N gb gT gRho alpha,
  let O := B64_ops L in
  let n := Z.to_nat N in
  let rho := fun a => @FromLog b64 O (@g_x b64 O gRho (Z.of_nat a)) in
  let temp := fun b => @FromLog b64 O (@g_x b64 O gT (Z.of_nat b)) in
  let win := fun b lo hi => @sample_window b64 O pc (temp b) lo hi in
  let nu := fun b lo hi => @sample_nu b64 O (win b lo hi) N in
  let B := fun b lo hi i => fst (@ThermalWeightsAtNu b64 O pc (temp b) (nu b lo hi i)) in
  let D := fun b lo hi i => snd (@ThermalWeightsAtNu b64 O pc (temp b) (nu b lo hi i)) in
  let d := fun b lo hi i => @Omul b64 O (nu b lo hi i) (@sample_dlnu b64 O (win b lo hi) N) in
  accurate_libm L /\ accurate_log10 L /\ @RuntimePC_eqb b64 O (@RuntimePC_of b64 O pc) opc = true /\ N = 2%Z /\ @ValidateGroupBounds b64 O gb ng = Ok tt /\
  ordinary lr0 lr1 NRho /\ ordinary lt0 lt1 NT /\ extent (real_grid lr0 lr1 NRho) <= 30 /\ extent (real_grid lt0 lt1 NT) <= 30 /\
  @mk_grid b64 O lt0 lt1 NT = Ok gT /\ @mk_grid b64 O lr0 lr1 NRho = Ok gRho /\
  (forall a b c lo hi, (Z.of_nat a < NRho)%Z -> (Z.of_nat b < NT)%Z -> (Z.of_nat c < ng)%Z ->
     nth_error gb c = Some lo -> nth_error gb (S c) = Some hi ->
     (forall i, (i < n)%nat -> coef (rho a) (temp b) (nu b lo hi i) = Ok (alpha a b c i)) /\
     regular n (alpha a b c) (B b lo hi) (D b lo hi) (d b lo hi)) /\
  exists m, @MeanImpl b64 O pc true opc coef lr0 lr1 NRho lt0 lt1 NT gb ng N = Ok m.
Proof.
  destruct (ex_axis 0 1 ltac:(lia) ltac:(lia) ltac:(lia)) as [OR XR]. destruct (ex_axis 7 8 ltac:(lia) ltac:(lia) ltac:(lia)) as [OT XT].
  destruct (ex_grid 0 1 ltac:(lia) ltac:(lia)) as [gR GR]. destruct (ex_grid 7 8 ltac:(lia) ltac:(lia)) as [gT GT].
  set (O := B64_ops nearest_libm). set (pc := @PhysicalConstantsCGS b64 O).
  set (temp := fun b => @FromLog b64 O (@g_x b64 O gT (Z.of_nat b))).
  assert (RC : @RuntimePC_eqb b64 O (@RuntimePC_of b64 O pc) (@RuntimePC_of b64 O pc) = true) by (vm_compute; reflexivity).
  assert (VG : @ValidateGroupBounds b64 O [ex_lo; ex_hi] 1 = Ok tt) by (vm_compute; reflexivity).
  assert (TT : forall b, (Z.of_nat b < 2)%Z -> physical (temp b) /\ 10 ^ 7 <= V (temp b) /\ @sample_window b64 O pc (temp b) ex_lo ex_hi = (ex_lo, ex_hi)).
  { intros b Hb.
    assert (E : exists k, temp b = ex_z (10 ^ k) /\ (k = 7 \/ k = 8)%Z).
    { unfold temp. apply grid_values in GT; [|vm_compute; reflexivity]. subst gT.
      destruct b as [|[|b]]; [| |lia].
      - exists 7%Z. split; [|lia]. rewrite <- pow10_node by lia.
        match goal with |- @FromLog _ _ ?x = _ => assert (Q : B2SF (x : b64) = B2SF (ex_z 7)) by (vm_compute; reflexivity); apply B2SF_inj in Q; rewrite Q end. reflexivity.
      - exists 8%Z. split; [|lia]. rewrite <- pow10_node by lia.
        match goal with |- @FromLog _ _ ?x = _ => assert (Q : B2SF (x : b64) = B2SF (ex_z 8)) by (vm_compute; reflexivity); apply B2SF_inj in Q; rewrite Q end. reflexivity. }
    destruct E as (k & -> & Hk).
    assert (W : forall q, (q = 10000000 \/ q = 100000000)%Z -> @sample_window b64 O pc (ex_z q) ex_lo ex_hi = (ex_lo, ex_hi)).
    { intros q Hq. unfold sample_window. cbv zeta.
      destruct Hq as [-> | ->]; (match goal with |- (if ?c then _ else _) = _ => assert (C : c = false) by (vm_compute; reflexivity); rewrite C; clear C end);
        f_equal; apply B2SF_inj; vm_compute; reflexivity. }
    destruct Hk as [-> | ->]; change (10 ^ 7)%Z with 10000000%Z; change (10 ^ 8)%Z with 100000000%Z.
    - split; [apply ex_phys; lia|]. destruct (ex_zv 10000000 ltac:(lia)) as [_ E]. rewrite E. split; [simpl; lra|]. apply W. lia.
    - split; [apply ex_phys; lia|]. destruct (ex_zv 100000000 ltac:(lia)) as [_ E]. rewrite E. split; [simpl; lra|]. apply W. lia. }
  set (al := fun (_ b _ : nat) => @sample_nu b64 O (@sample_window b64 O pc (temp b) ex_lo ex_hi) 2).
  assert (REG : forall a b c lo hi, (Z.of_nat a < 2)%Z -> (Z.of_nat b < 2)%Z -> (Z.of_nat c < 1)%Z ->
     nth_error [ex_lo; ex_hi] c = Some lo -> nth_error [ex_lo; ex_hi] (S c) = Some hi ->
     (forall i, (i < 2)%nat -> Ok (@sample_nu b64 O (@sample_window b64 O pc (temp b) lo hi) 2 i) = Ok (al a b c i)) /\
     regular 2 (al a b c) (fun i => fst (@ThermalWeightsAtNu b64 O pc (temp b) (@sample_nu b64 O (@sample_window b64 O pc (temp b) lo hi) 2 i)))
       (fun i => snd (@ThermalWeightsAtNu b64 O pc (temp b) (@sample_nu b64 O (@sample_window b64 O pc (temp b) lo hi) 2 i)))
       (fun i => @Omul b64 O (@sample_nu b64 O (@sample_window b64 O pc (temp b) lo hi) 2 i) (@sample_dlnu b64 O (@sample_window b64 O pc (temp b) lo hi) 2))).
  { intros a b c lo hi Ha Hb Hc E1 E2. assert (c = 0)%nat by lia. subst c. injection E1 as <-. injection E2 as <-.
    destruct (TT b Hb) as (P & T & W). split; [reflexivity|]. unfold al.
    exact (ex_regular (temp b) P T W (ex_z 1) (ex_phys 1 ltac:(lia))). }
  exists nearest_libm, pc, (@RuntimePC_of b64 O pc), (fun _ _ v => Ok v), (ex_z 0), (ex_z 1), (ex_z 7), (ex_z 8), 2%Z, 2%Z, 1%Z, 2%Z, [ex_lo; ex_hi], gT, gR, al.
  cbv zeta. change (Z.to_nat 2) with 2%nat. fold O.
  split; [apply nearest_accurate|]. split; [apply nearest_log10_accurate|]. split; [exact RC|]. split; [reflexivity|]. split; [exact VG|].
  repeat (split; [assumption|]).
  apply (C63_builds_proof nearest_libm pc true _ (fun _ _ v => Ok v) (ex_z 0) (ex_z 1) (ex_z 7) (ex_z 8) 2 2 1 2 [ex_lo; ex_hi] gT gR al
    nearest_accurate nearest_log10_accurate (or_intror RC) ltac:(lia) VG OR XR GT GR REG).
Qed.
