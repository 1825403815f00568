(** C37. Table loading: what is rejected, what is accepted, what is read. *)
From Coq Require Import Reals ZArith List Lia Lra Bool.
From Verif Require Import Base.Outcome Base.Ops Inst.ER Inst.ERTac Model.Constants Model.Robust Model.Spiner Model.MeanUtils
  Model.MeanPhotons Spec.Groups Spec.Tables Spec.TableShape Proofs.ArrayFacts Proofs.OrderLaws Proofs.GroupFacts
  Proofs.InterpFacts Proofs.TableFacts Proofs.LoadFacts Proofs.C35.
Import ListNotations.
Open Scope R_scope.

(** Tables of different or wrong ranks, sizes or grids, or without a group, are rejected,
    whatever the bounds array; in exact arithmetic and in binary64. *)
Lemma C37_shape_proof :
  forall (T : Type) (O : Ops T) (val : T -> ER), values O val ->
  forall (p r : DataBox T) (gb : list T), ~ compatible val p r -> LoadTables p r gb = Error.
Proof. intros T O val V p r gb N. now apply (LoadTables_incompatible val V). Qed.

(** Compatible tables and a bounds array of at least one number more than there are groups:
    the load succeeds if the bounds delimit the groups and is an error otherwise; no read is
    outside a buffer. The object made has the dimensions and grids of the tables, the
    guarded logarithms of their entries, and the first ngroups + 1 bounds. *)
Lemma C37_load_proof :
  forall (T : Type) (O : Ops T) (val : T -> ER), values O val ->
  forall (p r : DataBox T) (gb : list T), compatible val p r -> well_formed p -> well_formed r ->
  let n := nth 0 (db_dims p) 0%Z in
  (n < Z.of_nat (length gb))%Z ->
  (~ partition (edge val gb) (Z.to_nat n) -> LoadTables p r gb = Error) /\
  (partition (edge val gb) (Z.to_nat n) ->
   exists m, LoadTables p r gb = Ok m /\ mt_ngroups m = n /\
     length (mt_bounds m) = Z.to_nat (n + 1) /\
     (forall g, (g <= Z.to_nat n)%nat -> nth_error (mt_bounds m) g = nth_error gb g) /\
     db_dims (mt_lPlanck m) = db_dims p /\ db_dims (mt_lRosseland m) = db_dims p /\
     db_ranges (mt_lPlanck m) = db_ranges p /\ db_ranges (mt_lRosseland m) = db_ranges r /\
     db_data (mt_lPlanck m) = map ToLog (db_data p) /\ db_data (mt_lRosseland m) = map ToLog (db_data r)).
Proof.
  intros T O val V p r gb C Wp Wr n L. rewrite (LoadTables_compatible val V p r gb C Wp Wr).
  change (db_dim p 1) with n. pose proof C as (_ & Ed & Hn & _). fold n in Hn. split.
  - intros N. now rewrite (Validate_error V gb n L N).
  - intros P. rewrite (proj2 (proj1 (Validate_spec V gb n L)) P).
    exists (loaded p r gb). split; [reflexivity|]. unfold loaded. cbn. change (db_dim p 1) with n.
    repeat split; auto.
    + rewrite firstn_length_le; [reflexivity|lia].
    + intros g Hg.
      assert (H : (g < Z.to_nat (n + 1))%nat) by lia. revert H. generalize (Z.to_nat (n + 1)). clear.
      intros k H. revert gb g H. induction k as [|k IH]; intros gb g H; [lia|].
      destruct gb as [|x gb]; [now destruct g|]. destruct g; cbn; [reflexivity|]. apply IH. lia.
Qed.

(** The full statement "never reads outside the supplied bounds array" is false of the file
    constructor, which uses the array of the file whatever its length: it is read past its
    end exactly when it is too short and its numbers are acceptable as far as they go. *)
Lemma C37_short_bounds_proof :
  forall (T : Type) (O : Ops T) (val : T -> ER), values O val ->
  forall (p r : DataBox T) (gb : list T), well_formed p -> well_formed r ->
  let n := nth 0 (db_dims p) 0%Z in
  (LoadFile (Some {| mf_planck := Some p; mf_rosseland := Some r; mf_bounds := Some gb |}) = UB <->
   compatible val p r /\ (Z.of_nat (length gb) <= n)%Z /\
   forall g, (g < length gb)%nat -> exists e, edge val gb g = Fin e /\ 0 <= e /\
     forall k, (k < g)%nat -> ltE (edge val gb k) (Fin e)).
Proof.
  intros T O val V p r gb Wp Wr n. cbn [LoadFile].
  destruct (validate_tables_spec val V p r) as [A B].
  destruct (validate_tables p r) as [[]| |] eqn:Ev; try (destruct B; discriminate); clear B.
  2:{ split; [|intros (C & _); apply A in C; discriminate].
      unfold LoadTables. rewrite Ev. discriminate. }
  assert (C : compatible val p r) by (apply A; reflexivity). clear A.
  rewrite (LoadTables_compatible val V p r gb C Wp Wr). change (db_dim p 1) with n.
  pose proof C as (_ & _ & Hn & _). fold n in Hn.
  destruct (Z.lt_ge_cases n (Z.of_nat (length gb))) as [L|L].
  - destruct (Validate_spec V gb n L) as [_ U]. destruct (ValidateGroupBounds gb n); try tauto;
      (split; [discriminate|lia]).
  - assert (G : ValidateGroupBounds gb n = UB <-> forall g, (g < length gb)%nat -> validate_bound gb n g = Ok tt).
    { unfold ValidateGroupBounds. destruct (Z.leb_spec n 0); [lia|].
      assert (Hub : validate_bound gb n (length gb) = UB).
      { unfold validate_bound, GroupBoundAt. destruct (Z.ltb_spec (Z.of_nat (length gb)) 0); [lia|].
        rewrite Nat2Z.id, load_ub; [reflexivity|lia]. }
      assert (Hnb : forall g, (g < length gb)%nat -> validate_bound gb n g <> UB).
      { intros g Hg. now apply (validate_bound_spec V gb n g). }
      unfold for_int, for_loop.
      assert (K : forall m i, (i + m > length gb)%nat -> (i <= length gb)%nat ->
        (for_from m i (fun g _ => validate_bound gb n g) tt = UB <->
         forall g, (i <= g < length gb)%nat -> validate_bound gb n g = Ok tt)).
      { induction m as [|m IH]; intros i H1 H2; [lia|]. cbn [for_from].
        destruct (Nat.eq_dec i (length gb)) as [->|Hi].
        - rewrite Hub. cbn [bind]. split; [intros _ g Hg; lia|reflexivity].
        - specialize (Hnb i ltac:(lia)). destruct (validate_bound gb n i) as [[]| |] eqn:Ei; cbn [bind]; [|
            split; [discriminate|intros G; specialize (G i ltac:(lia)); congruence]|congruence].
          rewrite IH by lia. split; intros G g Hg.
          + destruct (Nat.eq_dec g i) as [->|]; [exact Ei|]. apply G. lia.
          + apply G. lia. }
      rewrite (K (Z.to_nat (n + 1)) 0%nat) by lia. split; intros Q g Hg; apply Q; lia. }
    assert (G2 : (forall g, (g < length gb)%nat -> validate_bound gb n g = Ok tt) <->
      (forall g, (g < length gb)%nat -> exists e, edge val gb g = Fin e /\ 0 <= e /\
        forall k, (k < g)%nat -> ltE (edge val gb k) (Fin e))).
    { assert (S : forall g, (g < length gb)%nat -> (validate_bound gb n g = Ok tt <-> good_edge (edge val gb) (Z.to_nat n) g))
        by (intros g Hg; apply (validate_bound_spec V gb n g); lia).
      split; intros Q.
      - induction g as [|g IH]; intros Hg; destruct (proj1 (S _ Hg) (Q _ Hg)) as (Q1 & Q2 & Q3 & Q4 & Q5).
        + specialize (Q3 eq_refl). destruct (edge val gb 0) as [e| | |].
          * exists e. split; [reflexivity|]. split; [|intros; lia]. destruct Q3 as [Q3|[Q3 _]]; [cbn in Q3; lra|injection Q3; intros; lra].
          * specialize (Q5 eq_refl). lia.
          * congruence.
          * congruence.
        + destruct IH as (e & E1 & E2 & E3); [lia|]. specialize (Q4 g eq_refl). rewrite E1 in Q4.
          destruct (edge val gb (Datatypes.S g)) as [e'| | |]; try contradiction.
          * exists e'. split; [reflexivity|]. cbn in Q4. split; [lra|]. intros k Hk.
            destruct (Nat.eq_dec k g) as [->|]; [now rewrite E1|]. eapply ltE_trans; [apply E3; lia|exact Q4].
          * specialize (Q5 eq_refl). lia.
      - intros g Hg. apply S; [exact Hg|]. destruct (Q g Hg) as (e & E1 & E2 & E3). unfold good_edge. rewrite E1.
        repeat split; try discriminate.
        + intros _. unfold leE. cbn. destruct E2 as [E2|E2]; [now left|right; split; [now rewrite E2|discriminate]].
        + intros k ->. apply E3. lia. }
    rewrite <- G2, <- G. destruct (ValidateGroupBounds gb n); split; try discriminate; try (intros (_ & _ & Q); discriminate); auto.
Qed.

Definition ex_file (l : list R) (gb : list ER) : option (MeanFile ER) :=
  Some {| mf_planck := Some (ex_box l); mf_rosseland := Some (ex_box l); mf_bounds := Some gb |}.
Lemma ex_grid_same : same_grid (fun x : ER => x) (grid_of ex_grid) (grid_of ex_grid).
Proof. repeat split; discriminate. Qed.
Lemma ex_compatible l l' : compatible (fun x => x) (ex_box l) (ex_box l').
Proof.
  split; [reflexivity|]. split; [reflexivity|]. split; [cbn; lia|].
  intros k [->| ->]; exists (grid_of ex_grid), (grid_of ex_grid); repeat split; discriminate.
Qed.
Lemma ex_well_formed l : length l = 8%nat -> well_formed (ex_box l).
Proof. intros L. split; [repeat constructor; cbn; lia|]. cbn. now rewrite map_length, L. Qed.
Lemma ex_partition : partition (edge (fun x : ER => x) [Fin 0; Fin 1; PInf]) 2.
Proof.
  split; [lia|]. intros [|[|]] H; try lia; cbn.
  - exists 0. split; [reflexivity|]. split; [lra|]. left. exists 1. split; [reflexivity|lra].
  - exists 1. split; [reflexivity|]. split; [lra|]. right. auto.
Qed.

(** A file with tables for two groups and the two bounds 0, 1 is read past the end of its
    bounds. *)
Lemma C37_short_bounds_refuted_proof :
  exists f : MeanFile ER, LoadFile (Some f) = UB /\
  (exists p r gb, f = {| mf_planck := Some p; mf_rosseland := Some r; mf_bounds := Some gb |} /\
   compatible (fun x => x) p r /\ well_formed p /\ well_formed r).
Proof.
  set (l := [1; 1; 1; 1; 1; 1; 1; 1]).
  exists {| mf_planck := Some (ex_box l); mf_rosseland := Some (ex_box l); mf_bounds := Some [Fin 0; Fin 1] |}. split.
  - apply (C37_short_bounds_proof ER ER_ops _ er_values); try (now apply ex_well_formed).
    split; [apply ex_compatible|]. split; [cbn; lia|]. intros [|[|g]] H; cbn in H; try lia.
    + exists 0. repeat split; [lra|]. intros; lia.
    + exists 1. repeat split; [lra|]. intros [|k] Hk; [cbn; lra|lia].
  - do 3 eexists. split; [reflexivity|]. split; [apply ex_compatible|]. split; now apply ex_well_formed.
Qed.

(** The full statement "succeeds with consistent tables" is false too: the number of nodes of
    a grid is not compared with the size of its dimension. Here grids of three nodes come
    with 2 x 2 entries per group; the object is made and a lookup within the grid reads
    outside the data. *)
Lemma C37_grid_size_refuted_proof :
  exists (p : DataBox ER) (gb : list ER) (m : MeanTable ER) (rho temp : R),
  well_formed p /\ partition (edge (fun x => x) gb) 1 /\ LoadTables p p gb = Ok m /\ 0 < rho /\ 0 < temp /\
  (forall k g, k = 1%nat \/ k = 2%nat -> nth k (db_ranges p) None = Some g ->
     ltE (g_min g) (ToLog (Fin rho)) /\ ltE (ToLog (Fin rho)) (g_max g) /\
     ltE (g_min g) (ToLog (Fin temp)) /\ ltE (ToLog (Fin temp)) (g_max g)) /\
  mt_PlanckGroup m (Fin rho) (Fin temp) 0 = UB.
Proof.
  set (g := {| rg_lo := 0; rg_hi := 2; rg_n := 3 |}).
  set (p := {| db_dims := [1; 2; 2]%Z; db_ranges := [None; Some (grid_of g); Some (grid_of g)];
               db_data := [Fin 1; Fin 1; Fin 1; Fin 1] |} : DataBox ER).
  set (x := pow10 (3 / 2)). pose proof tiny_pos as Tp. pose proof tiny_lt_1 as T1.
  assert (G : rg_ok g) by (split; cbn; [lra|lia]).
  assert (X : 1 < x).
  { unfold x. replace 1 with (pow10 0); [apply pow10_incr; lra|]. unfold pow10. apply Rpower_O. lra. }
  assert (LX : ToLog (Fin (x - tiny)) = Fin (3 / 2)).
  { rewrite ToLog_pos by lra. replace (x - tiny + tiny) with x by ring. unfold x. now rewrite log10_pow10. }
  assert (W : well_formed p) by (split; [repeat constructor; lia|reflexivity]).
  assert (P : partition (edge (fun x : ER => x) [Fin 0; PInf]) 1).
  { split; [lia|]. intros [|] H; [|lia]. exists 0. cbn. split; [reflexivity|]. split; [lra|]. right. auto. }
  assert (C : compatible (fun x => x) p p).
  { split; [reflexivity|]. split; [reflexivity|]. split; [cbn; lia|].
    intros k [->| ->]; exists (grid_of g), (grid_of g); repeat split; discriminate. }
  destruct (C37_load_proof ER ER_ops _ er_values p p [Fin 0; PInf] C W W ltac:(cbn; lia)) as [_ H].
  destruct (H P) as (m & E & _ & _ & _ & Ed & _ & Er & _ & Ea & _).
  exists p, [Fin 0; PInf], m, (x - tiny), (x - tiny). split; [exact W|]. split; [exact P|]. split; [exact E|].
  split; [lra|]. split; [lra|]. split.
  - rewrite LX. intros k h [->| ->] Eh; injection Eh as <-; cbn; lra.
  - unfold mt_PlanckGroup, group_coefficient. cbv zeta. rewrite LX. unfold interpToReal. rewrite Ed, Er, Ea.
    cbn [db_dims db_ranges db_data p combine rev app interp].
    rewrite (weights_of g G) by (unfold rg_fits, rg_dx; cbn; lra). cbn [bind].
    assert (Cc : rg_cell g (3 / 2) = 1%Z).
    { unfold rg_cell, rg_u, rg_dx. cbn [rg_lo rg_hi rg_n g].
      replace ((3 / 2 - 0) / ((2 - 0) / IZR (3 - 1))) with (3 / 2) by (cbn; lra).
      destruct (Ztrunc_nonneg (3 / 2)) as [K1 K2]; [lra|].
      assert (K : Ztrunc_R (3 / 2) = 1%Z).
      { assert (Ztrunc_R (3/2) < 2)%Z by (apply lt_IZR; lra). assert (0 < Ztrunc_R (3/2))%Z by (apply lt_IZR; lra). lia. }
      rewrite K. reflexivity. }
    rewrite Cc. cbn. unfold Pos.to_nat. cbn. reflexivity.
Qed.

(** The two-group example tables with the bounds 0, 1, infinity load. *)
Lemma C37_load_example :
  exists m, LoadFile (ex_file [1; 2; 3; 4; 5; 6; 7; 8] [Fin 0; Fin 1; PInf]) = Ok m /\ mt_ngroups m = 2%Z /\
    mt_bounds m = [Fin 0; Fin 1; PInf].
Proof.
  destruct (C37_load_proof ER ER_ops _ er_values (ex_box [1; 2; 3; 4; 5; 6; 7; 8]) (ex_box [1; 2; 3; 4; 5; 6; 7; 8])
    [Fin 0; Fin 1; PInf] (ex_compatible _ _) (ex_well_formed [1; 2; 3; 4; 5; 6; 7; 8] eq_refl) (ex_well_formed [1; 2; 3; 4; 5; 6; 7; 8] eq_refl)) as [_ H]; [cbn; lia|].
  destruct (H ex_partition) as (m & E & N & Lb & B & _). exists m. split; [exact E|]. split; [exact N|].
  change (Z.to_nat (nth 0 (db_dims (ex_box [1; 2; 3; 4; 5; 6; 7; 8])) 0%Z + 1)) with 3%nat in Lb.
  change (Z.to_nat (nth 0 (db_dims (ex_box [1; 2; 3; 4; 5; 6; 7; 8])) 0%Z)) with 2%nat in B.
  destruct (mt_bounds m) as [|a [|b [|c [|]]]]; try discriminate Lb.
  pose proof (B 0%nat ltac:(lia)) as B0. pose proof (B 1%nat ltac:(lia)) as B1. pose proof (B 2%nat ltac:(lia)) as B2.
  cbn in B0, B1, B2. congruence.
Qed.

(** Tables of two and of three groups are rejected. *)
Lemma C37_shape_example : forall gb,
  LoadTables (ex_box [1; 1; 1; 1; 1; 1; 1; 1])
    {| db_dims := [3; 2; 2]%Z; db_ranges := db_ranges (ex_box []); db_data := repeat (Fin 1) 12 |} gb = Error.
Proof.
  intros gb. apply (C37_shape_proof ER ER_ops _ er_values). intros (_ & E & _). discriminate.
Qed.
