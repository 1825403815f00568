(** C28. GroupOfNu returns the unique group containing the frequency. *)
From Coq Require Import Reals ZArith List Lia Lra Bool.
From Verif Require Import Base.Outcome Base.Ops Inst.ER Inst.B64 Model.Constants Model.Robust Model.Spiner Model.MeanUtils
  Model.MeanPhotons Spec.Groups Proofs.OrderLaws Proofs.GroupFacts.
Import ListNotations.
Open Scope R_scope.

(** objects the constructors return *)
Definition constructed {T} {O : Ops T} (m : MeanTable T) : Prop :=
  (exists p r gb, LoadTables p r gb = Ok m) \/
  (exists f, LoadFile f = Ok m) \/
  (exists pc dbg opc coef r0 r1 NRho t0 t1 NT gb ngroups N,
     MeanImpl pc dbg opc coef r0 r1 NRho t0 t1 NT gb ngroups N = Ok m).

Lemma constructed_bounds {T} {O : Ops T} (m : MeanTable T) : constructed m -> exists gb, bounds_from gb m.
Proof.
  intros [(p & r & gb & H)|[(f & H)|H]].
  - exists gb. now apply (LoadTables_bounds p r).
  - now apply (LoadFile_bounds f).
  - destruct H as (pc & dbg & opc & coef & r0 & r1 & NRho & t0 & t1 & NT & gb & ng & N & H).
    exists gb. eapply (proj1 (MeanImpl_bounds _ _ _ _ _ _ _ _ _ _ _ _ _ _ H)).
Qed.

(** For every constructed object with at most 2^30 groups: inside the covered range
    GroupOfNu returns the one group containing the frequency; outside, and for NaN, it
    reports an error. *)
Lemma C28_unique_group_proof :
  forall (T : Type) (O : Ops T) (val : T -> ER), values O val ->
  forall m : MeanTable T, constructed m -> (mt_ngroups m <= 2 ^ 30)%Z ->
  let b := edge val (mt_bounds m) in
  let n := Z.to_nat (mt_ngroups m) in
  forall nu : T,
  (covered b n (val nu) -> exists g,
     mt_GroupOfNu m nu = Ok (Z.of_nat g) /\ in_group b n g (val nu) /\
     forall h, in_group b n h (val nu) -> h = g) /\
  (~ covered b n (val nu) -> mt_GroupOfNu m nu = Error) /\
  (val nu = NaN -> mt_GroupOfNu m nu = Error).
Proof.
  intros T O val V m C B b n nu. destruct (constructed_bounds m C) as [gb Hb].
  destruct (bounds_from_partition V gb m Hb) as (P & _ & L & Hn).
  destruct (GroupOfNu_spec V m nu P ltac:(lia) B) as [G1 G2]. split; [|split; [exact G2|]].
  - intros Hc. destruct (G1 Hc) as (g & E & I). exists g. split; [exact E|]. split; [exact I|].
    intros h Hh. eapply in_group_unique; eauto.
  - intros E. apply G2. intros [K _]. rewrite E in K. apply leE_not_nan in K. now apply K.
Qed.

(** Monotone, and every group is reached (by its own lower edge). *)
Lemma C28_monotone_onto_proof :
  forall (T : Type) (O : Ops T) (val : T -> ER), values O val ->
  forall m : MeanTable T, constructed m -> (mt_ngroups m <= 2 ^ 30)%Z ->
  (forall nu nu' g g', mt_GroupOfNu m nu = Ok g -> mt_GroupOfNu m nu' = Ok g' ->
     leE (val nu) (val nu') -> (0 <= g <= g')%Z /\ (g' < mt_ngroups m)%Z) /\
  (forall g, (0 <= g < mt_ngroups m)%Z -> exists nu, nth_error (mt_bounds m) (Z.to_nat g) = Some nu /\
     mt_GroupOfNu m nu = Ok g).
Proof.
  intros T O val V m C B. destruct (constructed_bounds m C) as [gb Hb].
  destruct (bounds_from_partition V gb m Hb) as (P & _ & L & Hn).
  set (n := Z.to_nat (mt_ngroups m)) in *. set (b := edge val (mt_bounds m)) in *.
  assert (K : forall nu g, mt_GroupOfNu m nu = Ok g -> exists k, g = Z.of_nat k /\ in_group b n k (val nu)).
  { intros nu g H. destruct (GroupOfNu_spec V m nu P ltac:(lia) B) as [G1 G2].
    assert (Hc : covered b n (val nu)).
    { destruct (Classical_Prop.classic (covered b n (val nu))) as [|N]; [assumption|].
      rewrite (G2 N) in H. discriminate. }
    destruct (G1 Hc) as (k & E & I). rewrite E in H. injection H as <-. eauto. }
  split.
  - intros nu nu' g g' H H' Le. destruct (K _ _ H) as (k & -> & I1 & I2 & I3).
    destruct (K _ _ H') as (k' & -> & J1 & J2 & J3). split; [|unfold n in *; lia].
    destruct (Nat.le_gt_cases k k') as [|Lt]; [lia|]. exfalso.
    assert (A : leE (b (S k')) (b k)) by (apply (partition_le b n P); lia).
    destruct J3 as [J3|[J3 _]]; [|lia].
    apply (ltE_irrefl (val nu')). eapply ltE_leE_trans; [exact J3|].
    eapply leE_trans; [exact A|]. eapply leE_trans; eauto.
  - intros g Hg. destruct (nth_error (mt_bounds m) (Z.to_nat g)) as [nu|] eqn:E.
    2:{ apply nth_error_None in E. unfold n in *. lia. }
    exists nu. split; [reflexivity|].
    assert (Eb : b (Z.to_nat g) = val nu) by (unfold b, edge; now rewrite E).
    destruct (GroupOfNu_spec V m nu P ltac:(lia) B) as [G1 _]. fold b in G1. fold n in G1.
    assert (I : in_group b n (Z.to_nat g) (val nu)).
    { rewrite <- Eb. split; [unfold n; lia|]. split.
      - apply (partition_le b n P). unfold n. lia.
      - left. apply (partition_incr b n P). unfold n. lia. }
    destruct G1 as (k & Ek & Ik).
    { rewrite <- Eb. split; apply (partition_le b n P); unfold n; lia. }
    rewrite Ek. f_equal. rewrite (in_group_unique b n k (Z.to_nat g) (val nu) P Ik I). lia.
Qed.

(** Beyond: with 1431655766 (about 2^30.4) groups or more the midpoint of the search
    overflows int for every frequency in the upper half of the partition. *)
Lemma C28_overflow_proof :
  forall (T : Type) (O : Ops T) (val : T -> ER), values O val ->
  forall (gb : list T) (ng : Z) (nu : T),
  ValidateGroupBounds gb ng = Ok tt -> (1431655766 <= ng < 2 ^ 31)%Z ->
  leE (edge val gb (Z.to_nat (ng / 2))) (val nu) -> ltE (val nu) (edge val gb (Z.to_nat ng)) ->
  GroupOfNuImpl gb ng nu = UB.
Proof.
  intros T O val V gb ng nu A Hng Hl Hh. pose proof (Validate_length gb ng A) as L.
  assert (P : partition (edge val gb) (Z.to_nat ng)) by (apply (Validate_spec V); [lia|exact A]).
  pose proof (Z.div_mod ng 2 ltac:(lia)) as D. pose proof (Z.mod_pos_bound ng 2 ltac:(lia)) as D'.
  unfold GroupOfNuImpl. change 0%Z with (Z.of_nat 0).
  destruct (GroupBoundAt_ok gb 0) as (x & -> & Ex); [lia|]. cbn [bind].
  assert (E0 : edge val gb 0 = val x) by (unfold edge; now rewrite Ex).
  assert (I0 : ltE (edge val gb 0) (edge val gb (Z.to_nat (ng / 2)))).
  { apply (partition_incr _ _ P). lia. }
  destruct (Oleb nu x) eqn:H0.
  { exfalso. apply (val_leb _ _ V) in H0. rewrite <- E0 in H0.
    apply (ltE_irrefl (val nu)). eapply leE_ltE_trans; [exact H0|]. eapply ltE_leE_trans; eauto. }
  replace ng with (Z.of_nat (Z.to_nat ng)) at 1 by lia.
  destruct (GroupBoundAt_ok gb (Z.to_nat ng)) as (y & -> & Ey); [lia|]. cbn [bind].
  assert (Ey' : edge val gb (Z.to_nat ng) = val y) by (unfold edge; now rewrite Ey).
  destruct (Ogeb nu y) eqn:H1.
  { exfalso. apply (val_leb _ _ V) in H1. rewrite <- Ey' in H1.
    apply (ltE_irrefl (val nu)). eapply ltE_leE_trans; eauto. }
  assert (F : exists f, Z.to_nat ng = S (S f)).
  { exists (Z.to_nat (ng - 2)). rewrite <- !Z2Nat.inj_succ by lia. f_equal. lia. }
  destruct F as [f ->]. change (Z.of_nat 0) with 0%Z. cbn [group_search].
  destruct (Z.ltb_spec 1 (ng - 0)); [|lia].
  replace (int_fits (0 + ng)) with true.
  2:{ symmetry. unfold int_fits. apply andb_true_iff. split; [apply Z.leb_le|apply Z.ltb_lt]; lia. }
  replace (Z.quot (0 + ng) 2) with (Z.of_nat (Z.to_nat (ng / 2))).
  2:{ change (0 + ng)%Z with ng. rewrite Z.quot_div_nonneg by lia. apply Z2Nat.id. lia. }
  destruct (GroupBoundAt_ok gb (Z.to_nat (ng / 2))) as (z & -> & Ez); [lia|]. cbn [bind].
  assert (Ez' : edge val gb (Z.to_nat (ng / 2)) = val z) by (unfold edge; now rewrite Ez).
  destruct (Oltb nu z) eqn:H2.
  { exfalso. apply (val_ltb _ _ V) in H2. rewrite <- Ez' in H2. eapply leE_not_ltE; eauto. }
  rewrite Z2Nat.id by lia.
  destruct (Z.ltb_spec 1 (ng - ng / 2)); [|lia].
  replace (int_fits (ng / 2 + ng)) with false; [reflexivity|].
  symmetry. unfold int_fits. apply andb_false_iff. right. apply Z.ltb_ge. lia.
Qed.

(** such partitions exist: 0, 1, 2, ... *)
Lemma naturals_accepted (ng : Z) : (0 < ng)%Z ->
  ValidateGroupBounds (map (fun i => Fin (INR i)) (seq 0 (Z.to_nat (ng + 1)))) ng = Ok tt /\
  forall i, (i <= Z.to_nat ng)%nat ->
    edge (fun x => x) (map (fun i => Fin (INR i)) (seq 0 (Z.to_nat (ng + 1)))) i = Fin (INR i).
Proof.
  intros H. set (gb := map (fun i => Fin (INR i)) (seq 0 (Z.to_nat (ng + 1)))).
  assert (Le : length gb = Z.to_nat (ng + 1)) by (unfold gb; now rewrite map_length, seq_length).
  assert (E : forall i, (i <= Z.to_nat ng)%nat -> edge (fun x => x) gb i = Fin (INR i)).
  { intros i Hi. unfold edge, gb. rewrite nth_error_map.
    rewrite (nth_error_nth' _ 0%nat) by (rewrite seq_length; lia). cbn [option_map].
    rewrite seq_nth by lia. reflexivity. }
  split; [|exact E]. apply (Validate_spec er_values); [lia|]. split; [lia|].
  intros g Hg. exists (INR g). rewrite !E by lia. split; [reflexivity|]. split; [apply pos_INR|].
  left. exists (INR (S g)). split; [reflexivity|]. apply lt_INR. lia.
Qed.

Lemma C28_overflow_refuted_proof :
  exists (gb : list ER) (ng : Z) (nu : ER),
  ValidateGroupBounds gb ng = Ok tt /\ (ng < 2 ^ 31)%Z /\
  covered (edge (fun x => x) gb) (Z.to_nat ng) nu /\ GroupOfNuImpl gb ng nu = UB.
Proof.
  assert (G : forall ng, (1431655766 <= ng < 2 ^ 31)%Z -> exists (gb : list ER) (nu : ER),
    ValidateGroupBounds gb ng = Ok tt /\
    covered (edge (fun x => x) gb) (Z.to_nat ng) nu /\ GroupOfNuImpl gb ng nu = UB).
  { intros ng Hng. destruct (naturals_accepted ng ltac:(lia)) as [A E].
    set (gb := map (fun i => Fin (INR i)) (seq 0 (Z.to_nat (ng + 1)))) in *.
    pose proof (Z.div_mod ng 2 ltac:(lia)) as D. pose proof (Z.mod_pos_bound ng 2 ltac:(lia)) as D'.
    set (nu := Fin (INR (Z.to_nat (ng - 1)))).
    assert (Hl : leE (edge (fun x => x) gb (Z.to_nat (ng / 2))) nu).
    { rewrite E by lia. left. apply lt_INR. lia. }
    assert (Hh : ltE nu (edge (fun x => x) gb (Z.to_nat ng))).
    { rewrite E by lia. apply lt_INR. lia. }
    exists gb, nu. split; [exact A|]. split.
    - split; [|now left]. rewrite E by lia. left. apply lt_INR. lia.
    - now apply (C28_overflow_proof _ _ _ er_values). }
  destruct (G 1500000000%Z ltac:(lia)) as (gb & nu & A & B & C).
  exists gb, 1500000000%Z, nu. split; [exact A|]. split; [lia|]. split; [exact B|exact C].
Qed.

(** A three-group partition [1,2), [2,4), [4,+inf] of a constructed object. *)
Lemma C28_unique_group_example :
  let gb := [Fin 1; Fin 2; Fin 4; PInf] in
  let box := {| db_dims := [3; 1; 1]%Z; db_ranges := repeat (Some {| g_min := Fin 0; g_max := Fin 1; g_dx := Fin 1; g_idx := Fin 1; g_N := 2 |}) 3;
                db_data := [Fin 1; Fin 1; Fin 1] |} in
  exists m, LoadTables box box gb = Ok m /\ mt_GroupOfNu m (Fin 3) = Ok 1%Z /\
    mt_GroupOfNu m PInf = Ok 2%Z /\ mt_GroupOfNu m (Fin (1 / 2)) = Error.
Proof.
  cbv zeta. set (gb := [Fin 1; Fin 2; Fin 4; PInf]).
  set (g := {| g_min := Fin 0; g_max := Fin 1; g_dx := Fin 1; g_idx := Fin 1; g_N := 2 |}).
  assert (Pt : forall n, n = 3%nat -> partition (edge (fun x => x) gb) n).
  { intros n ->. split; [lia|]. intros [|[|[|k]]] Hk; try lia; unfold edge; cbn.
    - exists 1. split; [reflexivity|]. split; [lra|]. left. exists 2. split; [reflexivity|lra].
    - exists 2. split; [reflexivity|]. split; [lra|]. left. exists 4. split; [reflexivity|lra].
    - exists 4. split; [reflexivity|]. split; [lra|]. right. auto. }
  assert (A : ValidateGroupBounds gb 3 = Ok tt) by (apply (Validate_spec er_values); [cbn; lia|now apply Pt]).
  assert (R : range_neqb (Some g) (Some g) = false).
  { unfold range_neqb, grid_eqb, g. cbn. unfold Reqb.
    destruct (Req_EM_T 0 0); [|lra]. destruct (Req_EM_T 1 1); [|lra]. reflexivity. }
  eexists. split.
  { unfold LoadTables, validate_tables. cbn -[range_neqb ValidateGroupBounds SetGroupBounds map_tables]. rewrite R.
    cbn -[range_neqb ValidateGroupBounds SetGroupBounds map_tables]. change 3%Z with 3%Z. rewrite A.
    cbn -[ToLog]. reflexivity. }
  assert (B : forall m nu, mt_bounds m = gb -> mt_ngroups m = 3%Z ->
    (covered (edge (fun x => x) gb) 3 nu -> exists g, mt_GroupOfNu m nu = Ok (Z.of_nat g) /\ in_group (edge (fun x => x) gb) 3 g nu) /\
    (~ covered (edge (fun x => x) gb) 3 nu -> mt_GroupOfNu m nu = Error)).
  { intros m nu E1 E2. pose proof (GroupOfNu_spec er_values m nu) as G. cbv zeta in G. rewrite E1, E2 in G.
    apply G; [now apply Pt|cbn; lia|lia]. }
  assert (U : forall g nu, in_group (edge (fun x => x) gb) 3 g nu -> forall h, in_group (edge (fun x => x) gb) 3 h nu -> h = g).
  { intros. eapply in_group_unique; eauto. }
  split; [|split].
  - match goal with |- mt_GroupOfNu ?m ?nu = _ => destruct (B m nu eq_refl eq_refl) as [G _] end.
    destruct G as (k & E & I). { unfold covered, edge, leE; cbn. split; left; auto; lra. }
    rewrite E. f_equal. rewrite (U 1%nat (Fin 3) ltac:(unfold in_group, edge, leE, gb; cbn; split; [lia|split; left; lra]) k I). reflexivity.
  - match goal with |- mt_GroupOfNu ?m ?nu = _ => destruct (B m nu eq_refl eq_refl) as [G _] end.
    destruct G as (k & E & I). { unfold covered, edge, leE; cbn. split; [left; exact Logic.I|right; split; [reflexivity|discriminate]]. }
    rewrite E. f_equal. rewrite (U 2%nat PInf ltac:(unfold in_group, edge, leE, gb; cbn; split; [lia|split; [left; exact Logic.I|right; split; [reflexivity|right; split; [reflexivity|discriminate]]]]) k I). reflexivity.
  - match goal with |- mt_GroupOfNu ?m ?nu = _ => destruct (B m nu eq_refl eq_refl) as [_ G] end.
    apply G. unfold covered, edge, leE; cbn. intros [[H|[H _]] _]; [lra|]. injection H. lra.
Qed.
