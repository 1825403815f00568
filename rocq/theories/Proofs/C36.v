(** C36. Saving and reloading a mean-opacity table. *)
From Coq Require Import Reals ZArith List Lia Lra Bool.
From Verif Require Import Base.Outcome Base.Ops Inst.ER Inst.ERTac Model.Constants Model.Robust Model.RadTypes Model.Spiner
  Model.MeanUtils Model.MeanPhotons Model.MeanNeutrinos Model.MeanVariants Spec.Groups Spec.Tables Spec.TableShape Proofs.ArrayFacts
  Proofs.OrderLaws Proofs.GroupFacts Proofs.InterpFacts Proofs.TableFacts Proofs.LoadFacts Proofs.MeanFacts Proofs.C35 Proofs.C37.
Import ListNotations.
Open Scope R_scope.

(** a table object in order: compatible tables as the library makes them, and bounds that
    delimit as many groups as the tables have *)
Definition in_order {T} (val : T -> ER) (m : MeanTable T) : Prop :=
  compatible val (mt_lPlanck m) (mt_lRosseland m) /\ well_formed (mt_lPlanck m) /\ well_formed (mt_lRosseland m) /\
  mt_ngroups m = nth 0 (db_dims (mt_lPlanck m)) 0%Z /\ length (mt_bounds m) = Z.to_nat (mt_ngroups m + 1) /\
  partition (edge val (mt_bounds m)) (Z.to_nat (mt_ngroups m)).

(** one save and construction from the file; k of them *)
Definition cycle {T} {O : Ops T} (m : MeanTable T) : result (MeanTable T) :=
  f <- Save true m ;; LoadFile (Some f).
Fixpoint cycles {T} {O : Ops T} (k : nat) (m : MeanTable T) : result (MeanTable T) :=
  match k with 0%nat => Ok m | S k => m' <- cycle m ;; cycles k m' end.

(** the object with the entries of both tables changed by [h] *)
Definition remap {T} (h : T -> T) (m : MeanTable T) : MeanTable T := {|
  mt_lPlanck := {| db_dims := db_dims (mt_lPlanck m); db_ranges := db_ranges (mt_lPlanck m);
                   db_data := map h (db_data (mt_lPlanck m)) |};
  mt_lRosseland := {| db_dims := db_dims (mt_lRosseland m); db_ranges := db_ranges (mt_lRosseland m);
                      db_data := map h (db_data (mt_lRosseland m)) |};
  mt_bounds := mt_bounds m; mt_ngroups := mt_ngroups m |}.

Lemma remap_in_order {T} (val : T -> ER) h m : in_order val m -> in_order val (remap h m).
Proof.
  intros (C & (P1 & P2) & (R1 & R2) & N & L & P). repeat split; cbn; auto; try apply C; try (now rewrite map_length);
    try apply P.
Qed.

(** One cycle, in exact arithmetic and in binary64 with any libm: it succeeds; groups,
    bounds, dimensions and grids are the same, and every stored logarithm x has become
    ToLog(FromLog(x)). *)
Lemma C36_photon_cycle_proof :
  forall (T : Type) (O : Ops T) (val : T -> ER), values O val ->
  forall m : MeanTable T, in_order val m ->
  cycle m = Ok (remap (fun x => ToLog (FromLog x)) m) /\ in_order val (remap (fun x => ToLog (FromLog x)) m).
Proof.
  intros T O val V m H. split; [|now apply remap_in_order]. destruct H as (C & Wp & Wr & N & L & P).
  pose proof (proj1 P) as Hn. assert (Hn' : (0 < mt_ngroups m)%Z) by lia.
  assert (Le : length (db_data (mt_lPlanck m)) = length (db_data (mt_lRosseland m))).
  { destruct C as (_ & D & _), Wp as [_ Wp'], Wr as [_ Wr']. rewrite D in Wr'. lia. }
  unfold cycle, Save, ExportTables. unfold db_size. rewrite map_tables_self by exact Le. cbn [bind fst snd].
  rewrite Set_spec by lia. cbn [bind]. rewrite <- L, firstn_all. cbn [LoadFile].
  set (p := with_data (mt_lPlanck m) (map FromLog (db_data (mt_lPlanck m)))).
  set (r := with_data (mt_lRosseland m) (map FromLog (db_data (mt_lRosseland m)))).
  assert (C' : compatible val p r) by (repeat split; apply C).
  assert (Wp' : well_formed p) by (split; cbn; [apply Wp|rewrite map_length; apply Wp]).
  assert (Wr' : well_formed r) by (split; cbn; [apply Wr|rewrite map_length; apply Wr]).
  rewrite (LoadTables_compatible val V p r (mt_bounds m) C' Wp' Wr').
  assert (Ng : db_dim p 1 = mt_ngroups m) by (symmetry; exact N). rewrite Ng.
  rewrite (proj2 (proj1 (Validate_spec V (mt_bounds m) (mt_ngroups m) ltac:(lia))) P).
  f_equal. unfold loaded, remap. rewrite Ng, <- L, firstn_all. cbn. unfold with_data. cbn. rewrite !map_map. reflexivity.
Qed.

(** Whenever ToLog(FromLog(x)) = x for the stored numbers, the table comes back bit for bit. *)
Lemma C36_photon_identity_proof :
  forall (T : Type) (O : Ops T) (val : T -> ER), values O val ->
  forall m : MeanTable T, in_order val m ->
  (forall x, In x (db_data (mt_lPlanck m)) \/ In x (db_data (mt_lRosseland m)) -> ToLog (FromLog x) = x) ->
  forall k, cycles k m = Ok m.
Proof.
  intros T O val V m H E.
  assert (R : remap (fun x => ToLog (FromLog x)) m = m).
  { destruct m as [[d1 r1 a1] [d2 r2 a2] b n]. unfold remap. cbn in *. f_equal; f_equal.
    - rewrite <- (map_id a1) at 2. apply map_ext_in. auto.
    - rewrite <- (map_id a2) at 2. apply map_ext_in. auto. }
  induction k as [|k IH]; [reflexivity|]. cbn [cycles].
  rewrite (proj1 (C36_photon_cycle_proof T O val V m H)), R. exact IH.
Qed.

(** Tables loaded from well-formed boxes are in order, in both arithmetics. *)
Lemma C36_loaded_in_order_proof :
  forall (T : Type) (O : Ops T) (val : T -> ER), values O val ->
  forall (p r : DataBox T) (gb : list T) (m : MeanTable T), well_formed p -> well_formed r ->
  LoadTables p r gb = Ok m -> in_order val m.
Proof.
  intros T O val V p r gb m Wp Wr E.
  destruct (validate_tables_spec val V p r) as [A B].
  assert (C : compatible val p r).
  { apply A. destruct B as [B|B]; [exact B|]. unfold LoadTables in E. rewrite B in E. discriminate. }
  destruct (LoadTables_bounds _ _ _ _ E) as [Bf Ng].
  destruct (bounds_from_partition V _ _ Bf) as (P & _ & L & _).
  rewrite (LoadTables_compatible val V p r gb C Wp Wr) in E.
  destruct (ValidateGroupBounds gb (db_dim p 1)) as [[]| |]; try discriminate. injection E as <-.
  repeat split; cbn; auto; try apply C; try apply Wp; try apply Wr; try (rewrite map_length; apply Wp);
    try (rewrite map_length; apply Wr); try apply P.
Qed.

(** Tables built by averaging are in order (exact arithmetic, two or more nodes per axis). *)
Lemma C36_built_in_order_proof :
  forall pc dbg opc coef (gR gT : rgrid) gb ng N (m : MeanTable ER), rg_ok gR -> rg_ok gT ->
  MeanImpl pc dbg opc coef (Fin (rg_lo gR)) (Fin (rg_hi gR)) (rg_n gR) (Fin (rg_lo gT)) (Fin (rg_hi gT)) (rg_n gT) gb ng N = Ok m ->
  in_order (fun x => x) m.
Proof.
  intros pc dbg opc coef gR gT gb ng N m R1 R2 E.
  destruct (MeanImpl_bounds _ _ _ _ _ _ _ _ _ _ _ _ _ _ E) as [Bf Ng].
  destruct (bounds_from_partition er_values _ _ Bf) as (P & _ & L & Hn).
  destruct (MeanImpl_cells _ _ _ _ _ _ _ _ _ _ _ _ _ _ E) as (g1 & g2 & dp & dr & E1 & E2 & _ & _ & Ep & Er & _ & Lp & Lr & _).
  rewrite (mk_grid_of gT R2) in E1. rewrite (mk_grid_of gR R1) in E2. injection E1 as <-. injection E2 as <-.
  destruct R1 as [_ R1], R2 as [_ R2].
  assert (Wf : forall d, length d = Z.to_nat (rg_n gR * rg_n gT * ng) ->
    well_formed {| db_dims := [ng; rg_n gT; rg_n gR]; db_ranges := [None; Some (grid_of gT); Some (grid_of gR)]; db_data := d : list ER |}).
  { intros d Ld. split; cbn; [repeat constructor; lia|]. rewrite Ld, Z2Nat.id; [ring|]. apply Z.mul_nonneg_nonneg; lia. }
  unfold in_order. rewrite Ep, Er. split; [|repeat split; auto; try apply Wf; auto; apply P].
  split; [reflexivity|]. split; [reflexivity|]. split; [cbn; lia|].
  intros k [->| ->]; cbn; eexists; eexists; (split; [reflexivity|]); (split; [reflexivity|]); repeat split; discriminate.
Qed.

Lemma stores_map_gen (F : ER -> ER) (phi : R -> R) (HF : forall x, F (Fin x) = Fin (phi x)) dims d : forall acc f,
  stores dims d acc f -> stores dims (map F d) acc (fun is => phi (f is)).
Proof.
  induction dims as [|D ds IH]; intros acc f H.
  - cbn [stores] in *. unfold at_flat in *. destruct (acc <? 0)%Z; [discriminate|].
    unfold load in *. rewrite nth_error_map. destruct (nth_error d (Z.to_nat acc)) as [v|]; [|discriminate].
    injection H as ->. cbn [option_map]. now rewrite HF.
  - intros i Hi. cbn [stores] in H. apply (IH _ (fun is => f (i :: is)) (H i Hi)).
Qed.

Lemma stores_ext dims d : forall acc f f', (forall is, f is = f' is) -> stores dims d acc f -> stores dims d acc f'.
Proof.
  induction dims as [|D ds IH]; intros acc f f' E H; cbn [stores] in *; [now rewrite <- E|].
  intros i Hi. apply (IH _ (fun is => f (i :: is))); auto.
Qed.

(** after k cycles a stored logarithm x is this *)
Definition drift (k : nat) (x : R) : R := log10 (pow10 x + INR k * tiny).
Lemma drift_0 x : drift 0 x = x.
Proof. unfold drift. cbn. rewrite Rmult_0_l, Rplus_0_r. apply log10_pow10. Qed.
Lemma drift_S k x : drift k (drift 1 x) = drift (S k) x.
Proof.
  unfold drift. pose proof tiny_pos. pose proof (pow10_pos x).
  rewrite pow10_log10 by (cbn; lra). f_equal. rewrite (S_INR k). cbn [INR]. ring.
Qed.

(** Any number of cycles in exact arithmetic: a table holding the logarithms f holds
    log10(10^f + k tiny) after k of them, with the same groups and bounds. *)
Lemma C36_photon_cycles_proof :
  forall (k : nat) (m : MeanTable ER), in_order (fun x => x) m ->
  exists m', cycles k m = Ok m' /\ in_order (fun x => x) m' /\
    mt_ngroups m' = mt_ngroups m /\ mt_bounds m' = mt_bounds m /\
    forall gmode dims f, holds (selected m gmode) dims f ->
      holds (selected m' gmode) dims (fun is => log10 (pow10 (f is) + INR k * tiny)).
Proof.
  induction k as [|k IH]; intros m H.
  - exists m. split; [reflexivity|]. repeat split; auto; try apply H.
    + apply H0.
    + destruct H0 as [_ S]. apply (stores_ext _ _ _ f); [|exact S]. intros is. symmetry. apply (drift_0 (f is)).
  - cbn [cycles]. destruct (C36_photon_cycle_proof ER ER_ops _ er_values m H) as [E H'].
    rewrite E. cbn [bind]. destruct (IH _ H') as (m' & E' & I' & N' & B' & D). exists m'.
    split; [exact E'|]. split; [exact I'|]. split; [exact N'|]. split; [exact B'|].
    intros gmode dims f Hf. specialize (D gmode dims (fun is => drift 1 (f is))).
    assert (Q : holds (selected (remap (fun x => ToLog (FromLog x)) m) gmode) dims (fun is => drift 1 (f is))).
    { assert (HF : forall x, ToLog (FromLog (Fin x)) = Fin (drift 1 x)).
      { intros x. rewrite FromLog_fin, ToLog_pos by (left; apply pow10_pos). unfold drift. cbn. now rewrite Rmult_1_l. }
      unfold selected in *. cbn [mt_lPlanck mt_lRosseland remap].
      destruct Hf as [X Y]. destruct (gmode =? 1)%Z; (split; [exact X|]); cbn [db_data];
        apply (stores_map_gen (fun x => ToLog (FromLog x)) (drift 1) HF); exact Y. }
    destruct (D Q) as [X Y]. split; [exact X|]. refine (stores_ext _ _ _ _ _ _ Y).
    intros is. apply (drift_S k (f is)).
Qed.

(** The coefficients at the nodes of the grid have then grown by k tiny times the density:
    by the guard of the logarithm per cycle. *)
Lemma C36_photon_node_drift_proof :
  forall (k : nat) (m : MeanTable ER) (gmode : Z) (gR gT : rgrid) (n : Z) (f : list Z -> R),
  in_order (fun x => x) m -> rg_ok gR -> rg_ok gT -> holds (selected m gmode) [Axis gR; Axis gT; Index n] f ->
  exists m', cycles k m = Ok m' /\
  forall (i j g : Z) (rho temp : R),
  (0 <= i < rg_n gR)%Z -> (0 <= j < rg_n gT)%Z -> (0 <= g < n)%Z -> 0 <= rho -> 0 <= temp ->
  rho + tiny = pow10 (rg_node gR i) -> temp + tiny = pow10 (rg_node gT j) ->
  exists a, mt_Coefficient m (Fin rho) (Fin temp) g gmode = Ok (Fin a) /\
    mt_Coefficient m' (Fin rho) (Fin temp) g gmode = Ok (Fin (a + INR k * (rho * tiny))).
Proof.
  intros k m gmode gR gT n f H R1 R2 Hf. destruct (C36_photon_cycles_proof k m H) as (m' & E & _ & _ & _ & D).
  exists m'. split; [exact E|]. intros i j g rho temp Hi Hj Hg P1 P2 E1 E2.
  eexists. split; [now apply (C35_node_proof m gmode gR gT n f R1 R2 Hf i j g)|].
  rewrite (C35_node_proof m' gmode gR gT n _ R1 R2 (D gmode _ _ Hf) i j g rho temp) by assumption.
  f_equal. f_equal. pose proof tiny_pos. pose proof (pow10_pos (f [i; j; g])). pose proof (pos_INR k).
  rewrite pow10_log10; [ring|]. assert (0 <= INR k * tiny) by (apply Rmult_le_pos; lra). lra.
Qed.

(** Everywhere within the grid the coefficient never shrinks, and grows at most by the factor
    1 + k tiny / kmin, where kmin is a lower bound of the neighbouring opacities. *)
Lemma C36_photon_inside_drift_proof :
  forall (k : nat) (m : MeanTable ER) (gmode : Z) (gR gT : rgrid) (n : Z) (f : list Z -> R),
  in_order (fun x => x) m -> rg_ok gR -> rg_ok gT -> holds (selected m gmode) [Axis gR; Axis gT; Index n] f ->
  exists m', cycles k m = Ok m' /\
  forall (g : Z) (rho temp kmin : R), (0 <= g < n)%Z -> 0 <= rho -> 0 <= temp -> 0 < kmin ->
  let x := log10 (rho + tiny) in let y := log10 (temp + tiny) in
  rg_inside gR x -> rg_inside gT y ->
  (forall i j, (0 <= i < rg_n gR)%Z -> (0 <= j < rg_n gT)%Z ->
     Rabs (x - rg_node gR i) <= rg_dx gR -> Rabs (y - rg_node gT j) <= rg_dx gT -> kmin <= pow10 (f [i; j; g])) ->
  exists a b, mt_Coefficient m (Fin rho) (Fin temp) g gmode = Ok (Fin a) /\
    mt_Coefficient m' (Fin rho) (Fin temp) g gmode = Ok (Fin b) /\ a <= b <= a * (1 + INR k * tiny / kmin).
Proof.
  intros k m gmode gR gT n f H R1 R2 Hf. destruct (C36_photon_cycles_proof k m H) as (m' & E & _ & _ & _ & D).
  exists m'. split; [exact E|]. intros g rho temp kmin Hg P1 P2 Pk x y I1 I2 B.
  specialize (D gmode _ _ Hf). rewrite !Coefficient_selected.
  pose proof (photon_axes_ok gR gT n R1 R2) as W.
  assert (I : inside (photon_query rho temp g) (photon_axes gR gT n)) by (cbn; auto).
  pose proof (inside_ok _ _ W I) as Q.
  do 2 eexists. split; [apply (group_coefficient_mlin _ gR gT n f); auto|].
  split; [apply (group_coefficient_mlin _ gR gT n _ _ _ _ D); auto|].
  pose proof tiny_pos as Tp. pose proof (pos_INR k) as Kp.
  assert (K0 : 0 <= INR k * tiny) by (apply Rmult_le_pos; lra).
  assert (K1 : 0 <= INR k * tiny / kmin) by (apply Rmult_le_pos; [exact K0|left; now apply Rinv_0_lt_compat]).
  set (h := fun is => drift k (f is) - f is).
  assert (Eh : mlin (photon_query rho temp g) (photon_axes gR gT n) (fun is => log10 (pow10 (f is) + INR k * tiny)) =
    mlin (photon_query rho temp g) (photon_axes gR gT n) f + mlin (photon_query rho temp g) (photon_axes gR gT n) h).
  { rewrite <- mlin_add. apply mlin_ext. intros is. unfold h, drift. ring. }
  assert (Bh : 0 <= mlin (photon_query rho temp g) (photon_axes gR gT n) h <= log10 (1 + INR k * tiny / kmin)).
  { apply mlin_between; auto. intros [|i [|j [|l [|? ?]]]] N; cbn in N; try tauto.
    destruct N as (N1 & N2 & N3 & N4 & N5 & N6 & _). subst l. specialize (B i j N1 N3 N2 N4). unfold h, drift.
    pose proof (pow10_pos (f [i; j; g])) as Pp. set (q := pow10 (f [i; j; g])) in *.
    replace (f [i; j; g]) with (log10 q) by apply log10_pow10. split.
    - assert (log10 q <= log10 (q + INR k * tiny)) by (apply log10_le; lra). lra.
    - assert (log10 (q + INR k * tiny) <= log10 (q * (1 + INR k * tiny / kmin))).
      { apply log10_le; [lra|]. assert (INR k * tiny <= q * (INR k * tiny / kmin)); [|lra].
        replace (INR k * tiny) with (kmin * (INR k * tiny / kmin)) at 1 by (field; lra).
        apply Rmult_le_compat_r; assumption. }
      assert (log10 (q * (1 + INR k * tiny / kmin)) = log10 q + log10 (1 + INR k * tiny / kmin)).
      { unfold log10. rewrite ln_mult by lra. field. pose proof ln10_pos. lra. }
      lra. }
  rewrite Eh, pow10_add. set (a := pow10 (mlin _ _ f)) in *.
  assert (Pa : 0 < a) by apply pow10_pos.
  assert (L1 : 1 <= pow10 (mlin (photon_query rho temp g) (photon_axes gR gT n) h)).
  { replace 1 with (pow10 0) by (unfold pow10; apply Rpower_O; lra). now apply pow10_le. }
  assert (L2 : pow10 (mlin (photon_query rho temp g) (photon_axes gR gT n) h) <= 1 + INR k * tiny / kmin).
  { rewrite <- (pow10_log10 (1 + INR k * tiny / kmin)) by lra. now apply pow10_le. }
  assert (0 <= rho * a) by (apply Rmult_le_pos; lra). split.
  - rewrite <- (Rmult_1_r (rho * a)), <- Rmult_assoc. apply Rmult_le_compat_l; assumption.
  - rewrite <- Rmult_assoc. apply Rmult_le_compat_l; assumption.
Qed.

(** The full statement "the drift per cycle is at most the logarithm guard, at every state" is
    false between the nodes: next to a vanishing opacity one cycle moves the coefficient by
    more than 10^100 times the guard. *)
Lemma C36_photon_drift_refuted_proof :
  exists (m m' : MeanTable ER) (rho temp a b : R), in_order (fun x => x) m /\ cycle m = Ok m' /\
  0 < rho /\ 0 < temp /\ rg_inside ex_grid (log10 (rho + tiny)) /\ rg_inside ex_grid (log10 (temp + tiny)) /\
  mt_Coefficient m (Fin rho) (Fin temp) 0 1 = Ok (Fin a) /\ mt_Coefficient m' (Fin rho) (Fin temp) 0 1 = Ok (Fin b) /\
  b - a > 10 ^ 100 * (rho * tiny).
Proof.
  set (l := [0; 0; 0; 0; 1; 1; 1; 1]). set (p := ex_box l).
  destruct (C37_load_proof ER ER_ops _ er_values p p [Fin 0; Fin 1; PInf] (ex_compatible _ _)
    (ex_well_formed l eq_refl) (ex_well_formed l eq_refl)) as [_ H]; [cbn; lia|].
  destruct (H ex_partition) as (m & E & N & Lb & B & D1 & D2 & R1 & R2 & A1 & A2).
  pose proof (C36_loaded_in_order_proof ER ER_ops _ er_values p p _ m (ex_well_formed l eq_refl) (ex_well_formed l eq_refl) E) as IO.
  assert (Hh : holds (selected m 1) [Axis ex_grid; Axis ex_grid; Index 2]
    (fun is => log10 (Rabs (nth (Z.to_nat (nth 0 is 0 * 4 + nth 1 is 0 * 2 + nth 2 is 0)%Z) l 0) + tiny))).
  { destruct (holds_log p _ _ _ (ex_holds l eq_refl) eq_refl) as [X Y]. change (selected m 1) with (mt_lPlanck m). split.
    - rewrite D1, R1. exact X.
    - rewrite A1. exact Y. }
  destruct (C36_photon_cycles_proof 1 m IO) as (m' & E' & _ & _ & _ & D). specialize (D 1%Z _ _ Hh).
  cbn [cycles] in E'. destruct (cycle m) as [m1| |] eqn:E1; try discriminate. injection E' as ->.
  pose proof tiny_pos as Tp. pose proof tiny_lt_1 as T1. pose proof tiny_small as Ts.
  set (rho := pow10 (1 / 2) - tiny). set (temp := 1 - tiny).
  assert (P0 : pow10 0 = 1) by (unfold pow10; apply Rpower_O; lra).
  assert (Ph : 1 < pow10 (1 / 2)) by (rewrite <- P0; apply pow10_incr; lra).
  assert (Lr : log10 (rho + tiny) = 1 / 2) by (unfold rho; replace (pow10 (1/2) - tiny + tiny) with (pow10 (1/2)) by ring; apply log10_pow10).
  assert (Lt : log10 (temp + tiny) = 0) by (unfold temp; replace (1 - tiny + tiny) with (pow10 0) by (rewrite P0; ring); apply log10_pow10).
  assert (W : Forall rd_ok (photon_axes ex_grid ex_grid 2)) by (apply photon_axes_ok; apply ex_grid_ok).
  assert (I1 : rg_inside ex_grid (log10 (rho + tiny))) by (rewrite Lr; split; cbn; lra).
  assert (I2 : rg_inside ex_grid (log10 (temp + tiny))) by (rewrite Lt; split; cbn; lra).
  assert (Q : query_ok (photon_query rho temp 0) (photon_axes ex_grid ex_grid 2)).
  { apply inside_ok; [exact W|]. cbn. repeat split; try apply I1; try apply I2; lia. }
  assert (Hr : 0 < rho) by (unfold rho; lra). assert (Ht : 0 < temp) by (unfold temp; lra).
  assert (Cz : forall x, rg_cell ex_grid x = 0%Z).
  { intros x. pose proof (cell_range ex_grid ex_grid_ok x) as Cr. cbn in Cr. lia. }
  assert (Wg : forall x, rg_w ex_grid x = x).
  { intros x. unfold rg_w. rewrite Cz. unfold rg_u, rg_dx. cbn. lra. }
  set (c := fun s => (log10 s + log10 (1 + s)) / 2).
  exists m, m', rho, temp, (rho * pow10 (c tiny)), (rho * pow10 (c (2 * tiny))).
  repeat (split; [assumption || reflexivity|]). rewrite !Coefficient_selected.
  split; [|split].
  - rewrite (group_coefficient_mlin _ ex_grid ex_grid 2 _ rho temp 0 Hh) by (auto || lra || apply ex_grid_ok).
    f_equal. f_equal. f_equal. f_equal.
    cbn [mlin photon_query photon_axes nth]. rewrite !Wg, !Cz, Lr, Lt. unfold c, l. cbn. unfold Pos.to_nat. cbn.
    rewrite Rabs_R0, Rabs_R1, Rplus_0_l. lra.
  - rewrite (group_coefficient_mlin _ ex_grid ex_grid 2 _ rho temp 0 D) by (auto || lra || apply ex_grid_ok).
    f_equal. f_equal. f_equal. f_equal.
    cbn [mlin photon_query photon_axes nth]. rewrite !Wg, !Cz, Lr, Lt. unfold c, l. cbn. unfold Pos.to_nat. cbn.
    rewrite Rabs_R0, Rabs_R1, Rplus_0_l, !pow10_log10 by lra.
    replace (tiny + 1 * tiny) with (2 * tiny) by ring. replace (1 + tiny + 1 * tiny) with (1 + 2 * tiny) by ring. lra.
  - assert (Sq : forall s, 0 < s -> pow10 (c s) = sqrt (s * (1 + s))).
    { intros s Hs. rewrite <- Rpower_sqrt by (apply Rmult_lt_0_compat; lra). unfold c.
      replace ((log10 s + log10 (1 + s)) / 2) with (/ 2 * log10 (s * (1 + s))).
      - apply pow10_scale. apply Rmult_lt_0_compat; lra.
      - unfold log10. rewrite ln_mult by lra. pose proof ln10_pos. field. lra. }
    rewrite !Sq by lra. set (A := sqrt (tiny * (1 + tiny))). set (C := sqrt (2 * tiny * (1 + 2 * tiny))).
    set (e := sqrt tiny).
    assert (He : 0 < e) by (apply sqrt_lt_R0; lra). assert (Hee : e * e = tiny) by (apply sqrt_sqrt; lra).
    assert (HA : A <= e * (11 / 10)).
    { replace (e * (11/10)) with (sqrt ((e * (11/10)) * (e * (11/10)))) by (apply sqrt_square; lra).
      apply sqrt_le_1_alt. replace (e * (11/10) * (e * (11/10))) with (e * e * (121/100)) by field. rewrite Hee.
      apply Rmult_le_compat_l; lra. }
    assert (HC : e * (14 / 10) <= C).
    { replace (e * (14/10)) with (sqrt ((e * (14/10)) * (e * (14/10)))) by (apply sqrt_square; lra).
      apply sqrt_le_1_alt. replace (e * (14/10) * (e * (14/10))) with (e * e * (196/100)) by field. rewrite Hee.
      assert (tiny * (196/100) <= tiny * (2 * (1 + 2 * tiny))) by (apply Rmult_le_compat_l; lra). lra. }
    assert (He' : e < / (10 * 10 ^ 100)).
    { apply Rsqr_incrst_0; [|lra|].
      - unfold Rsqr. rewrite Hee. eapply Rlt_le_trans; [exact Ts|].
        rewrite <- Rinv_mult. apply Rinv_le_contravar.
        + pose proof (pow_lt 10 100 ltac:(lra)). apply Rmult_lt_0_compat; apply Rmult_lt_0_compat; lra.
        + replace (10 * 10 ^ 100 * (10 * 10 ^ 100)) with (10 ^ 202).
          * apply Rle_pow; [lra|lia].
          * replace (10 * 10 ^ 100) with (10 ^ 101) by (rewrite <- tech_pow_Rmult; reflexivity).
            rewrite <- pow_add. reflexivity.
      - left. apply Rinv_0_lt_compat. pose proof (pow_lt 10 100 ltac:(lra)). lra. }
    pose proof (pow_lt 10 100 ltac:(lra)) as Pp. set (q := 10 ^ 100) in *.
    assert (Hq : 10 * q * e < 1).
    { apply (Rmult_lt_reg_l (/ (10 * q))); [apply Rinv_0_lt_compat; lra|]. rewrite <- Rmult_assoc, Rinv_l, Rmult_1_l, Rmult_1_r by lra. exact He'. }
    replace (rho * C - rho * A) with (rho * (C - A)) by ring. replace (q * (rho * tiny)) with (rho * (q * tiny)) by ring.
    apply Rmult_gt_compat_l; [lra|]. rewrite <- Hee.
    assert (e * (q * e) < e * (3 / 10)) by (apply Rmult_lt_compat_l; lra). lra.
Qed.

(** Neutrino tables, absorption and scattering, in any arithmetic: saving and loading gives
    back the very same object, any number of times. *)
Lemma C36_neutrino_proof :
  forall (T : Type) (m : NuMeanTable T),
  bind (NuSave true m) (fun f => NuLoadFile (Some f)) = Ok m.
Proof. intros T [p r]. reflexivity. Qed.

(** A failed file operation is an error, never an object. *)
Lemma C36_io_error_proof :
  forall (T : Type) (O : Ops T) (m : MeanTable T) (n : NuMeanTable T) (p : option (DataBox T)) (b : option (list T)),
  (forall f, Save false m <> Ok f) /\ NuSave false n = Error /\
  @LoadFile T O None = Error /\ @NuLoadFile T None = Error /\
  LoadFile (Some {| mf_planck := None; mf_rosseland := p; mf_bounds := b |}) = Error /\
  LoadFile (Some {| mf_planck := p; mf_rosseland := None; mf_bounds := b |}) = Error /\
  LoadFile (Some {| mf_planck := p; mf_rosseland := p; mf_bounds := None |}) = Error /\
  NuLoadFile (Some {| nf_planck := None; nf_rosseland := p |}) = Error /\
  NuLoadFile (Some {| nf_planck := p; nf_rosseland := None |}) = Error.
Proof.
  intros T O m n p b.
  assert (S : forall f, Save false m <> Ok f).
  { intros f. unfold Save. destruct (ExportTables m) as [[[? ?] ?]| |]; discriminate. }
  split; [exact S|]. repeat split; destruct p; reflexivity.
Qed.

(** A loaded two-group table comes back from a cycle with its groups and bounds. *)
Lemma C36_photon_cycles_example :
  exists m m' : MeanTable ER, in_order (fun x => x) m /\ cycles 3 m = Ok m' /\ mt_ngroups m' = 2%Z /\
  mt_Coefficient m (Fin (10 - tiny)) (Fin (1 - tiny)) 1 1 = Ok (Fin ((10 - tiny) * (6 + tiny))) /\
  mt_Coefficient m' (Fin (10 - tiny)) (Fin (1 - tiny)) 1 1 = Ok (Fin ((10 - tiny) * (6 + 4 * tiny))).
Proof.
  set (l := [1; 2; 3; 4; 5; 6; 7; 8]). set (p := ex_box l).
  destruct (C37_load_proof ER ER_ops _ er_values p p [Fin 0; Fin 1; PInf] (ex_compatible _ _)
    (ex_well_formed l eq_refl) (ex_well_formed l eq_refl)) as [_ H]; [cbn; lia|].
  destruct (H ex_partition) as (m & E & N & Lb & B & D1 & D2 & R1 & R2 & A1 & A2).
  pose proof (C36_loaded_in_order_proof ER ER_ops _ er_values p p _ m (ex_well_formed l eq_refl) (ex_well_formed l eq_refl) E) as IO.
  assert (Hh : holds (selected m 1) [Axis ex_grid; Axis ex_grid; Index 2]
    (fun is => log10 (Rabs (nth (Z.to_nat (nth 0 is 0 * 4 + nth 1 is 0 * 2 + nth 2 is 0)%Z) l 0) + tiny))).
  { destruct (holds_log p _ _ _ (ex_holds l eq_refl) eq_refl) as [X Y]. change (selected m 1) with (mt_lPlanck m). split.
    - rewrite D1, R1. exact X.
    - rewrite A1. exact Y. }
  destruct (C36_photon_cycles_proof 3 m IO) as (m' & E' & _ & N' & _ & D). specialize (D 1%Z _ _ Hh).
  exists m, m'. split; [exact IO|]. split; [exact E'|]. split; [now rewrite N'|].
  pose proof tiny_pos. pose proof tiny_lt_1.
  assert (P1 : pow10 1 = 10) by (unfold pow10; now rewrite Rpower_1 by lra).
  assert (P0 : pow10 0 = 1) by (unfold pow10; rewrite Rpower_O by lra; reflexivity).
  assert (V : nth (Z.to_nat (1 * 4 + 0 * 2 + 1)) l 0 = 6) by reflexivity.
  split.
  - rewrite (C35_node_proof m 1 ex_grid ex_grid 2 _ ex_grid_ok ex_grid_ok Hh 1 0 1) by (cbn; lia || lra || (rewrite ex_grid_node; lra)).
    cbn [nth]. rewrite V, Rabs_pos_eq, pow10_log10 by lra. reflexivity.
  - rewrite (C35_node_proof m' 1 ex_grid ex_grid 2 _ ex_grid_ok ex_grid_ok D 1 0 1) by (cbn; lia || lra || (rewrite ex_grid_node; lra)).
    cbn [nth]. rewrite V, Rabs_pos_eq, !pow10_log10 by (rewrite ?pow10_log10; cbn; lra).
    f_equal. f_equal. cbn. ring.
Qed.
