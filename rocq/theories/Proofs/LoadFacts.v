(** What loading a pair of tables does. *)
From Coq Require Import Reals ZArith List Lia Lra Bool.
From Verif Require Import Base.Outcome Base.Ops Inst.ER Model.Constants Model.Robust Model.Spiner Model.MeanUtils
  Model.MeanPhotons Spec.Groups Spec.TableShape Proofs.ArrayFacts Proofs.OrderLaws Proofs.GroupFacts Proofs.TableFacts.
Import ListNotations.

Section Load.
  Context {T : Type} {O : Ops T} (val : T -> ER) (V : values O val).

  Lemma grid_eqb_spec (g h : Grid T) : grid_eqb g h = true <-> same_grid val g h.
  Proof.
    unfold grid_eqb, same_grid, same_number. rewrite !andb_true_iff, !(val_eqb _ _ V), Z.eqb_eq. tauto.
  Qed.
  Lemma range_neqb_spec (a b : option (Grid T)) :
    range_neqb a b = false <-> exists g h, a = Some g /\ b = Some h /\ same_grid val g h.
  Proof.
    unfold range_neqb. destruct a as [g|], b as [h|]; try (split; [discriminate|intros (? & ? & ? & ? & ?); discriminate]).
    rewrite negb_false_iff, grid_eqb_spec. split; [eauto 6|]. intros (g' & h' & E1 & E2 & S). congruence.
  Qed.

  Lemma validate_tables_spec (p r : DataBox T) :
    (validate_tables p r = Ok tt <-> compatible val p r) /\ (validate_tables p r = Ok tt \/ validate_tables p r = Error).
  Proof.
    unfold validate_tables, db_rank, db_dim, db_range. cbn [Nat.sub].
    assert (K : compatible val p r <->
      ((Z.of_nat (length (db_dims p)) = 3)%Z /\ (Z.of_nat (length (db_dims r)) = 3)%Z) /\
      (nth 0 (db_dims p) 0 = nth 0 (db_dims r) 0 /\ nth 1 (db_dims p) 0 = nth 1 (db_dims r) 0 /\
       nth 2 (db_dims p) 0 = nth 2 (db_dims r) 0)%Z /\ (0 < nth 0 (db_dims p) 0)%Z /\
      range_neqb (nth 1 (db_ranges p) None) (nth 1 (db_ranges r) None) = false /\
      range_neqb (nth 2 (db_ranges p) None) (nth 2 (db_ranges r) None) = false).
    { rewrite !range_neqb_spec. unfold compatible. split.
      - intros (A & B & C & D). rewrite B. pose proof (D 1%nat (or_introl eq_refl)). pose proof (D 2%nat (or_intror eq_refl)).
        repeat split; auto; lia.
      - intros ((A1 & A2) & (B1 & B2 & B3) & C & D1 & D2). split; [lia|]. split.
        + destruct (db_dims p) as [|a [|b [|c [|]]]]; cbn [length] in A1; try lia.
          destruct (db_dims r) as [|a' [|b' [|c' [|]]]]; cbn [length] in A2; try lia. cbn in B1, B2, B3. congruence.
        + split; [exact C|]. intros k [->| ->]; assumption. }
    destruct (Z.eqb_spec (Z.of_nat (length (db_dims p))) 3), (Z.eqb_spec (Z.of_nat (length (db_dims r))) 3); cbn [negb orb];
      try (split; [split; [discriminate|rewrite K; intros ((? & ?) & _); lia]|auto]).
    destruct (Z.eqb_spec (nth 0 (db_dims p) 0%Z) (nth 0 (db_dims r) 0%Z)), (Z.eqb_spec (nth 1 (db_dims p) 0%Z) (nth 1 (db_dims r) 0%Z)),
      (Z.eqb_spec (nth 2 (db_dims p) 0%Z) (nth 2 (db_dims r) 0%Z)); cbn [negb orb];
      try (split; [split; [discriminate|rewrite K; intros (_ & (? & ? & ?) & _); lia]|auto]).
    destruct (Z.leb_spec (nth 0 (db_dims p) 0%Z) 0); [split; [split; [discriminate|rewrite K; intros (_ & _ & ? & _); lia]|auto]|].
    destruct (range_neqb (nth 1 _ _) _), (range_neqb (nth 2 _ _) _); cbn [orb];
      try (split; [split; [discriminate|rewrite K; intros (_ & _ & _ & ? & ?); discriminate]|auto]).
    split; [|auto]. rewrite K. tauto.
  Qed.

  Lemma LoadTables_incompatible p r gb : ~ compatible val p r -> LoadTables p r gb = Error.
  Proof.
    intros N. destruct (validate_tables_spec p r) as [A [B|B]]; [tauto|]. unfold LoadTables. now rewrite B.
  Qed.

  (** the object a successful load makes *)
  Definition loaded (p r : DataBox T) (gb : list T) : MeanTable T := {|
    mt_lPlanck := with_data p (map ToLog (db_data p)); mt_lRosseland := with_data r (map ToLog (db_data r));
    mt_bounds := firstn (Z.to_nat (db_dim p 1 + 1)) gb; mt_ngroups := db_dim p 1 |}.

  Lemma LoadTables_compatible p r gb : compatible val p r -> well_formed p -> well_formed r ->
    LoadTables p r gb =
    match ValidateGroupBounds gb (db_dim p 1) with Ok _ => Ok (loaded p r gb) | Error => Error | UB => UB end.
  Proof.
    intros C Wp Wr. destruct (validate_tables_spec p r) as [A _]. unfold LoadTables. rewrite (proj2 A C). cbn [bind].
    destruct (ValidateGroupBounds gb (db_dim p 1)) as [[]| |] eqn:E; cbn [bind]; try reflexivity.
    pose proof (Validate_length _ _ E) as L. rewrite Set_spec by lia. cbn [bind].
    assert (Le : length (db_data p) = length (db_data r)).
    { destruct C as (_ & D & _), Wp as [_ Wp], Wr as [_ Wr]. rewrite D in Wr. lia. }
    unfold db_size. rewrite map_tables_self by exact Le. cbn [bind fst snd]. reflexivity.
  Qed.
End Load.
