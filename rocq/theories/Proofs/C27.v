(** C27. Group-bound validation accepts exactly the well-formed partitions. *)
From Coq Require Import Reals ZArith List Lia Lra Bool.
From Verif Require Import Base.Outcome Base.Ops Inst.ER Inst.B64 Model.Constants Model.Robust Model.Spiner Model.MeanUtils
  Model.MeanPhotons Spec.Groups Proofs.OrderLaws Proofs.GroupFacts.
Import ListNotations.
Open Scope R_scope.

(** Validation of a buffer that holds ngroups + 1 numbers accepts exactly the
    partitions and reports an error on everything else. Any arithmetic whose
    comparisons are those of the extended reals. *)
Lemma C27_exact_proof :
  forall (T : Type) (O : Ops T) (val : T -> ER), values O val ->
  forall (gb : list T) (ngroups : Z), (ngroups < Z.of_nat (length gb))%Z ->
  (partition (edge val gb) (Z.to_nat ngroups) -> ValidateGroupBounds gb ngroups = Ok tt) /\
  (~ partition (edge val gb) (Z.to_nat ngroups) -> ValidateGroupBounds gb ngroups = Error).
Proof.
  intros T O val V gb ng L. split.
  - apply (Validate_spec V gb ng L).
  - now apply (Validate_error V).
Qed.

(** Constructors: every malformed list is an error of every constructor, whatever the
    other arguments; every object that exists stores exactly the given ngroups + 1
    bounds; and well-formed bounds never make the table constructor fail. *)
Lemma C27_constructors_proof :
  forall (T : Type) (O : Ops T) (val : T -> ER), values O val ->
  forall (gb : list T),
  (forall pc dbg opc coef r0 r1 NRho t0 t1 NT ngroups N, (ngroups < Z.of_nat (length gb))%Z ->
    (~ partition (edge val gb) (Z.to_nat ngroups) ->
      MeanImpl pc dbg opc coef r0 r1 NRho t0 t1 NT gb ngroups N = Error) /\
    (forall m, MeanImpl pc dbg opc coef r0 r1 NRho t0 t1 NT gb ngroups N = Ok m ->
      partition (edge val gb) (Z.to_nat ngroups) /\ mt_ngroups m = ngroups /\
      mt_bounds m = firstn (Z.to_nat (ngroups + 1)) gb)) /\
  (forall p r, (db_dim p 1 < Z.of_nat (length gb))%Z ->
    (~ partition (edge val gb) (Z.to_nat (db_dim p 1)) ->
      LoadTables p r gb = Error /\
      LoadFile (Some {| mf_planck := Some p; mf_rosseland := Some r; mf_bounds := Some gb |}) = Error) /\
    (forall m, LoadTables p r gb = Ok m ->
      partition (edge val gb) (Z.to_nat (db_dim p 1)) /\ mt_ngroups m = db_dim p 1 /\
      mt_bounds m = firstn (Z.to_nat (db_dim p 1 + 1)) gb) /\
    (partition (edge val gb) (Z.to_nat (db_dim p 1)) ->
      validate_tables p r = Ok tt -> (db_size p <= db_size r)%Z -> exists m, LoadTables p r gb = Ok m)).
Proof.
  intros T O val V gb. split.
  - intros pc dbg opc coef r0 r1 NRho t0 t1 NT ng N L. split.
    + intros NP. unfold MeanImpl. destruct (dbg && _); [reflexivity|]. destruct (N <? 2)%Z; [reflexivity|].
      rewrite (Validate_error V) by auto. reflexivity.
    + intros m H. apply MeanImpl_bounds in H as [[B A] E]. rewrite E in *.
      split; [|auto]. now apply (Validate_spec V gb ng L).
  - intros p r L. split; [|split].
    + intros NP. assert (H : LoadTables p r gb = Error); [|split; exact H].
      unfold LoadTables. assert (U : validate_tables p r <> UB).
      { unfold validate_tables. repeat match goal with |- context [if ?c then _ else _] => destruct c end; discriminate. }
      destruct (validate_tables p r) as [[]| |]; cbn [bind]; [|reflexivity|congruence].
      rewrite (Validate_error V) by auto. reflexivity.
    + intros m H. apply LoadTables_bounds in H as [[B A] E]. rewrite E in *.
      split; [|auto]. now apply (Validate_spec V gb _ L).
    + intros P Vt Sz. unfold LoadTables. rewrite Vt. cbn [bind].
      assert (A : ValidateGroupBounds gb (db_dim p 1) = Ok tt) by now apply (Validate_spec V gb _ L).
      rewrite A. cbn [bind]. pose proof (Validate_length gb _ A). rewrite Set_spec by lia. cbn [bind].
      assert (M : forall n i acc, (Z.of_nat (i + n) <= db_size p)%Z -> exists d,
        for_from n i (fun i acc => a <- at_flat (db_data p) (Z.of_nat i) ;; b <- at_flat (db_data r) (Z.of_nat i) ;;
          Ok (fst acc ++ [ToLog a], snd acc ++ [ToLog b])) acc = Ok d).
      { induction n as [|n IH]; intros i acc Hi; cbn [for_from]; [eauto|].
        unfold db_size in *. unfold at_flat, load. destruct (Z.ltb_spec (Z.of_nat i) 0); [lia|]. rewrite Nat2Z.id.
        destruct (nth_error (db_data p) i) eqn:E1; [|apply nth_error_None in E1; lia].
        destruct (nth_error (db_data r) i) eqn:E2; [|apply nth_error_None in E2; lia].
        cbn [bind]. apply IH. lia. }
      unfold map_tables, for_int, for_loop. destruct (M (Z.to_nat (db_size p)) 0%nat ([], [])) as [d ->].
      * unfold db_size. lia.
      * cbn [bind]. eauto.
Qed.

(** GetGroupBounds gives back the bounds an averaged or loaded table was made with. *)
Lemma C27_reported_proof :
  forall (T : Type) (O : Ops T) (val : T -> ER), values O val ->
  forall (gb : list T),
  (forall pc dbg opc coef r0 r1 NRho t0 t1 NT ngroups N m, (ngroups < Z.of_nat (length gb))%Z ->
    MeanImpl pc dbg opc coef r0 r1 NRho t0 t1 NT gb ngroups N = Ok m ->
    mt_GetGroupBounds m = Ok (firstn (Z.to_nat (ngroups + 1)) gb)) /\
  (forall p r m, (db_dim p 1 < Z.of_nat (length gb))%Z -> LoadTables p r gb = Ok m ->
    mt_GetGroupBounds m = Ok (firstn (Z.to_nat (db_dim p 1 + 1)) gb)).
Proof.
  intros T O val V gb.
  assert (H : forall n m, (0 < n < Z.of_nat (length gb))%Z -> mt_ngroups m = n -> mt_bounds m = firstn (Z.to_nat (n + 1)) gb ->
    mt_GetGroupBounds m = Ok (firstn (Z.to_nat (n + 1)) gb)).
  { intros n m L En Eb. unfold mt_GetGroupBounds. rewrite En, Eb.
    rewrite Set_spec by (rewrite firstn_length; lia). f_equal. rewrite firstn_firstn. f_equal. lia. }
  destruct (C27_constructors_proof T O val V gb) as (C & D). split.
  - intros pc dbg opc coef r0 r1 NRho t0 t1 NT n N m L E. destruct (C pc dbg opc coef r0 r1 NRho t0 t1 NT n N L) as (_ & C2). destruct (C2 m E) as ((C5 & _) & C3 & C4). apply H; [lia|exact C3|exact C4].
  - intros p r m L E. destruct (D p r L) as (_ & D2 & _). destruct (D2 m E) as ((D5 & _) & D3 & D4). apply H; [lia|exact D3|exact D4].
Qed.

(** The laws hold of exact arithmetic and of IEEE doubles with any libm; [0, 1, +inf)
    is accepted in both, and a list with a NaN or out of order is not. *)
Lemma C27_exact_example :
  values ER_ops (fun x => x) /\ (forall L, values (B64_ops L) b64_val) /\
  ValidateGroupBounds (T := ER) [Fin 0; Fin 1; PInf] 2 = Ok tt /\
  (forall L, let _ := B64_ops L in ValidateGroupBounds [OofZ 0; OofZ 1; Oinf] 2 = Ok tt /\
     ValidateGroupBounds [OofZ 0; OofZ 2; OofZ 1] 2 = Error).
Proof.
  split; [exact er_values|]. split; [exact b64_values|]. split.
  - apply (Validate_spec er_values); [cbn; lia|]. split; [cbn; lia|].
    change (Z.to_nat 2) with 2%nat. intros [|[|g]] Hg; try lia; unfold edge; cbn.
    + exists 0. split; [reflexivity|]. split; [lra|]. left. exists 1. split; [reflexivity|lra].
    + exists 1. split; [reflexivity|]. split; [lra|]. right. auto.
  - intros L. split; vm_compute; reflexivity.
Qed.
