(** C70: array calls given indexer objects do what they do given pointers. *)
From Coq Require Import Reals ZArith List Lia Lra Arith Bool.
From Verif Require Import Base.Outcome Base.Ops Inst.ER Inst.ERTac Model.Spiner Model.Chebyshev Model.Indexers.
From Verif Require Import Model.Constants Model.PhotonApi Model.NonCGSPhotons Model.Threads Model.IndexerCalls.
From Verif Require Import Spec.Cells Spec.Chebyshev Proofs.ArrayFacts Proofs.C50.
Import ListNotations.
Open Scope nat_scope.

Lemma firstn_upd_in {T} (m : list T) k i v : (i < k)%nat -> firstn k (upd m i v) = upd (firstn k m) i v.
Proof. revert k i. induction m as [|x m IH]; intros [|k] [|i] H; cbn; try reflexivity; try lia. rewrite IH by lia. reflexivity. Qed.
Lemma skipn_upd_in {T} (m : list T) k i v : (i < k)%nat -> skipn k (upd m i v) = skipn k m.
Proof. revert k i. induction m as [|x m IH]; intros [|k] [|i] H; cbn; try reflexivity; try lia. apply IH. lia. Qed.
Lemma firstn_upd_out {T} (m : list T) k i v : firstn k (upd m (k + i) v) = firstn k m.
Proof. revert k. induction m as [|x m IH]; intros [|k]; cbn; try reflexivity. rewrite IH. reflexivity. Qed.
Lemma skipn_upd_out {T} (m : list T) k i v : skipn k (upd m (k + i) v) = upd (skipn k m) i v.
Proof. revert k. induction m as [|x m IH]; intros [|k]; cbn; try reflexivity; apply IH. Qed.
Lemma nth_firstn_in {T} (m : list T) k i : (i < k)%nat -> nth_error (firstn k m) i = nth_error m i.
Proof. revert k i. induction m as [|x m IH]; intros [|k] [|i] H; cbn; try reflexivity; try lia. apply IH. lia. Qed.
Lemma nth_skipn_out {T} (m : list T) k i : nth_error (skipn k m) i = nth_error m (k + i).
Proof. revert m. induction k as [|k IH]; intros [|x m]; cbn; try reflexivity; [destruct i; reflexivity|apply IH]. Qed.
Lemma nth_ext_eq {T} (a b : list T) : (forall j, nth_error a j = nth_error b j) -> a = b.
Proof.
  revert b. induction a as [|x a IH]; intros [|y b] E; [reflexivity|discriminate (E 0%nat)|discriminate (E 0%nat)|].
  injection (E 0%nat) as ->. f_equal. apply IH. intros j. exact (E (S j)).
Qed.
Lemma st_upd {S T} {I : Indexer S T} {cells put} (H : storage I cells put) s i v : (i < length (cells s))%nat ->
  ix_set I s (Z.of_nat i) v = Ok (put s (upd (cells s) i v)).
Proof.
  intros Hi. destruct (st_set I cells put H s i v Hi) as (d & E & L & V & R). rewrite E. do 2 f_equal.
  apply nth_ext_eq. intros j. destruct (Nat.eq_dec j i) as [->|Hne].
  - rewrite nth_upd_same by exact Hi. exact V.
  - rewrite nth_upd_other by lia. apply R. exact Hne.
Qed.

(** loops that correspond step by step *)
Lemma sim {S M} (h : M -> S) (Inv : M -> Prop) n (bs : nat -> S -> result S) (bm : nat -> M -> result M) :
  (forall i m, (i < n)%nat -> Inv m -> bs i (h m) = rmap h (bm i m) /\ forall m', bm i m = Ok m' -> Inv m') ->
  forall m, Inv m -> for_loop n bs (h m) = rmap h (for_loop n bm m) /\ forall m', for_loop n bm m = Ok m' -> Inv m'.
Proof.
  intros H m0 H0. unfold for_loop.
  assert (G : forall k i m, (i + k <= n)%nat -> Inv m ->
    for_from k i bs (h m) = rmap h (for_from k i bm m) /\ forall m', for_from k i bm m = Ok m' -> Inv m').
  { induction k as [|k IH]; intros i m Hk Hm.
    - cbn. split; [reflexivity|]. intros m' E. injection E as <-. exact Hm.
    - cbn [for_from]. destruct (H i m ltac:(lia) Hm) as [E I1]. rewrite E.
      destruct (bm i m) as [m1| |] eqn:Em; cbn [rmap bind].
      + apply IH; [lia|]. apply I1. reflexivity.
      + split; [reflexivity|discriminate].
      + split; [reflexivity|discriminate]. }
  apply G; [lia|exact H0].
Qed.

Section Objects.
  Context {T : Type} {O : Ops T} {B C : Type}.
  Variables (IB : Indexer B T) (cb : B -> list T) (pb : B -> list T -> B).
  Variables (IC : Indexer C T) (cc : C -> list T) (pc : C -> list T -> C).
  Hypothesis HB : storage IB cb pb.
  Hypothesis HC : storage IC cc pc.
  Variables (b0 : B) (c0 : C) (lb lc n : nat).
  Hypothesis Hb : (n <= lb)%nat.
  Hypothesis Hc : (n <= lc)%nat.

  Definition objects (m : mem T) : B * C := (pb b0 (firstn lb m), pc c0 (skipn lb m)).
  Definition sized (m : mem T) : Prop := length m = (lb + lc)%nat.

  Lemma cells_b m : cb (fst (objects m)) = firstn lb m.
  Proof. apply (st_cells _ _ _ HB). Qed.
  Lemma cells_c m : cc (snd (objects m)) = skipn lb m.
  Proof. apply (st_cells _ _ _ HC). Qed.
  Lemma get_b m i v : (i < n)%nat -> nth_error m i = Some v -> ix_get IB (fst (objects m)) (Z.of_nat i) = Ok v.
  Proof. intros Hi E. apply (st_get _ _ _ HB). rewrite cells_b, nth_firstn_in by lia. exact E. Qed.
  Lemma get_c m i v : nth_error m (lb + i) = Some v -> ix_get IC (snd (objects m)) (Z.of_nat i) = Ok v.
  Proof. intros E. apply (st_get _ _ _ HC). rewrite cells_c, nth_skipn_out. exact E. Qed.
  Lemma set_b m i v : (i < n)%nat -> sized m ->
    ix_set IB (fst (objects m)) (Z.of_nat i) v = Ok (fst (objects (upd m i v))) /\
    snd (objects m) = snd (objects (upd m i v)).
  Proof.
    intros Hi Hm. unfold sized in Hm. rewrite (st_upd HB) by (rewrite cells_b, firstn_length; lia). rewrite cells_b.
    unfold objects. cbn [fst snd]. rewrite (st_put _ _ _ HB), firstn_upd_in, skipn_upd_in by lia. split; reflexivity.
  Qed.
  Lemma set_c m i v : (i < n)%nat -> sized m ->
    ix_set IC (snd (objects m)) (Z.of_nat i) v = Ok (snd (objects (upd m (lb + i) v))) /\
    fst (objects m) = fst (objects (upd m (lb + i) v)).
  Proof.
    intros Hi Hm. unfold sized in Hm. rewrite (st_upd HC) by (rewrite cells_c, skipn_length; lia). rewrite cells_c.
    unfold objects. cbn [fst snd]. rewrite (st_put _ _ _ HC), skipn_upd_out, firstn_upd_out. split; reflexivity.
  Qed.
  Lemma sized_upd m i v : sized m -> sized (upd m i v).
  Proof. unfold sized. rewrite upd_length. auto. Qed.

  Lemma scale_b m i f : (i < n)%nat -> sized m ->
    exists m', (v <- load m i ;; store m i (Omul v f)) = Ok m' /\ sized m' /\
      ix_scale IB f i (fst (objects m)) = Ok (fst (objects m')) /\ snd (objects m) = snd (objects m').
  Proof.
    intros Hi Hm. unfold sized in Hm. destruct (load_ok m i ltac:(lia)) as (v & E & N).
    exists (upd m i (Omul v f)). rewrite E. cbn [bind]. rewrite store_ok by lia. split; [reflexivity|].
    split; [apply sized_upd; exact Hm|]. unfold ix_scale. rewrite (get_b m i v Hi N). cbn [bind].
    destruct (set_b m i (Omul v f) Hi Hm) as [E1 E2]. split; assumption.
  Qed.
  Lemma scale_c m i f : (i < n)%nat -> sized m ->
    exists m', (v <- load m (lb + i) ;; store m (lb + i) (Omul v f)) = Ok m' /\ sized m' /\
      ix_scale IC f i (snd (objects m)) = Ok (snd (objects m')) /\ fst (objects m) = fst (objects m').
  Proof.
    intros Hi Hm. unfold sized in Hm. destruct (load_ok m (lb + i) ltac:(lia)) as (v & E & N).
    exists (upd m (lb + i) (Omul v f)). rewrite E. cbn [bind]. rewrite store_ok by lia. split; [reflexivity|].
    split; [apply sized_upd; exact Hm|]. unfold ix_scale. rewrite (get_c m i v N). cbn [bind].
    destruct (set_c m i (Omul v f) Hi Hm) as [E1 E2]. split; assumption.
  Qed.

  Lemma call_objects (t : array_text T) : forall m, sized m ->
    object_call IB IC t (Z.of_nat n) (objects m) = rmap objects (text_call t 0 lb (Z.of_nat n) m) /\
    forall m', text_call t 0 lb (Z.of_nat n) m = Ok m' -> sized m'.
  Proof.
    induction t as [F|u out t IH]; intros m Hm; cbn [object_call text_call].
    - unfold array_loop, for_int. rewrite Nat2Z.id. apply (sim objects sized); [|exact Hm].
      intros i k Hi Hk. rewrite Nat.add_0_l. assert (Hk' := Hk). unfold sized in Hk'.
      destruct (load_ok k i ltac:(lia)) as (nu & E & N). rewrite E, (get_b k i nu Hi N). cbn [bind].
      destruct (F nu) as [v| |]; cbn [bind]; try (split; [reflexivity|discriminate]).
      rewrite store_ok by lia. destruct (set_c k i v Hi Hk) as [E1 E2]. rewrite E1. cbn [bind rmap].
      rewrite E2. split; [reflexivity|]. intros m' Em. injection Em as <-. apply sized_upd. exact Hk.
    - unfold noncgs_array, scale_loop, for_int. rewrite Nat2Z.id.
      destruct (sim objects sized n
        (fun i s => b <- ix_scale IB (un_freq u) i (fst s) ;; Ok (b, snd s))
        (fun i m => v <- load m (0 + i) ;; store m (0 + i) (Omul v (un_freq u)))) with (m := m) as [E1 S1];
        [|exact Hm|].
      { intros i k Hi Hk. rewrite Nat.add_0_l. destruct (scale_b k i (un_freq u) Hi Hk) as (k' & A & S' & A1 & A2).
        rewrite A, A1, A2. split; [reflexivity|]. intros m' Em. injection Em as <-. exact S'. }
      rewrite E1.
      destruct (for_loop n (fun i m => v <- load m (0 + i) ;; store m (0 + i) (Omul v (un_freq u))) m) as [m1| |];
        cbn [rmap bind]; try (split; [reflexivity|discriminate]).
      specialize (S1 m1 eq_refl). destruct (IH m1 S1) as [E2 S2]. rewrite E2.
      destruct (text_call t 0 lb (Z.of_nat n) m1) as [m2| |]; cbn [rmap bind]; try (split; [reflexivity|discriminate]).
      specialize (S2 m2 eq_refl).
      apply (sim objects sized); [|exact S2].
      intros i k Hi Hk. rewrite Nat.add_0_l. destruct (scale_b k i (un_time u) Hi Hk) as (k1 & A & S' & A1 & A2).
      destruct (scale_c k1 i out Hi S') as (k2 & D & S'' & D1 & D2).
      rewrite A1. cbn [bind]. rewrite A2, D1. cbn [bind].
      destruct (load k i) as [v| |]; cbn [bind] in A |- *; try discriminate A. rewrite A. cbn [bind]. rewrite D, D2.
      split; [reflexivity|]. intros m' Em. injection Em as <-. exact S''.
  Qed.
End Objects.

(** Every arithmetic, every text of an array overload (the plain loop, or unit conversion around
    another), any two types of indexers: on separate objects with enough cells, the call ends as on
    a memory made of the cells of the bins followed by those of the output, and the objects hold
    what that memory holds; nothing else about them changes. *)
Lemma C70_objects_proof :
  forall (T : Type) (O : Ops T) (B C : Type) (IB : Indexer B T) (IC : Indexer C T)
         (cb : B -> list T) (pb : B -> list T -> B) (cc : C -> list T) (pc : C -> list T -> C)
         (t : array_text T) (n : nat) (b : B) (c : C),
    storage IB cb pb -> storage IC cc pc -> (n <= length (cb b))%nat -> (n <= length (cc c))%nat ->
    object_call IB IC t (Z.of_nat n) (b, c) =
    match text_call t 0 (length (cb b)) (Z.of_nat n) (cb b ++ cc c) with
    | Ok m => Ok (pb b (firstn (length (cb b)) m), pc c (skipn (length (cb b)) m))
    | Error => Error
    | UB => UB
    end.
Proof.
  intros T O B C IB IC cb pb cc pc t n b c HB HC Hb Hc.
  destruct (call_objects IB cb pb IC cc pc HB HC b c (length (cb b)) (length (cc c)) n Hb Hc t (cb b ++ cc c)) as [E _].
  - unfold sized. apply app_length.
  - replace (objects pb pc b c (length (cb b)) (cb b ++ cc c)) with (b, c) in E.
    + rewrite E. destruct (text_call t 0 (length (cb b)) (Z.of_nat n) (cb b ++ cc c)); reflexivity.
    + unfold objects. rewrite firstn_app, firstn_all, skipn_app, skipn_all, Nat.sub_diag. cbn [firstn skipn].
      rewrite app_nil_r, app_nil_l, (st_same _ _ _ HB), (st_same _ _ _ HC). reflexivity.
Qed.

Definition put_box {T} (s : DataBox T) (d : list T) : DataBox T :=
  {| db_dims := db_dims s; db_ranges := db_ranges s; db_data := d |}.
Definition put_cheb {T} (s : LogCheb T) (d : list T) : LogCheb T :=
  {| lc_data := d; lc_logdata := lc_logdata s; lc_coeffs := lc_coeffs s; lc_lnumin := lc_lnumin s; lc_lnumax := lc_lnumax s |}.
Lemma at_flat_nth {T} (d : list T) i v : nth_error d i = Some v -> at_flat d (Z.of_nat i) = Ok v.
Proof.
  intros H. unfold at_flat. rewrite (proj2 (Z.ltb_ge (Z.of_nat i) 0)) by lia. rewrite Nat2Z.id. apply load_some. exact H.
Qed.
Lemma set_flat_upd {T} (d : list T) i v : (i < length d)%nat -> set_flat d (Z.of_nat i) v = Ok (upd d i v).
Proof.
  intros H. unfold set_flat. rewrite (proj2 (Z.ltb_ge (Z.of_nat i) 0)) by lia. rewrite Nat2Z.id. apply store_ok. exact H.
Qed.

(** The four indexers of base/indexers.hpp are such objects; a LogCheb keeps its coefficients. *)
Lemma C70_indexers_proof :
  forall (T : Type) (O : Ops T),
    storage ix_identity (fun d : list T => d) (fun _ d => d) /\
    storage ix_linear (@db_data T) put_box /\
    storage ix_loglinear (@db_data T) put_box /\
    storage ix_logcheb (@lc_data T) put_cheb.
Proof.
  intros T O.
  assert (G : forall (d : list T) i v, (i < length d)%nat -> length (upd d i v) = length d /\
    nth_error (upd d i v) i = Some v /\ forall j, j <> i -> nth_error (upd d i v) j = nth_error d j).
  { intros d i v Hi. split; [apply upd_length|]. split; [apply nth_upd_same; exact Hi|].
    intros j Hj. apply nth_upd_other. lia. }
  split; [|split; [|split]]; (constructor;
    [intros s i v E; apply at_flat_nth; exact E
    |intros s i v Hi; eexists; split; [|apply G; exact Hi]
    |intros; reflexivity|intros []; reflexivity|intros; reflexivity]).
  - cbn [ix_set ix_identity]. unfold Identity_set. apply set_flat_upd. exact Hi.
  - cbn [ix_set ix_linear]. unfold Linear_set. rewrite set_flat_upd by exact Hi. reflexivity.
  - cbn [ix_set ix_loglinear]. unfold LogLinear_set, Linear_set. rewrite set_flat_upd by exact Hi. reflexivity.
  - cbn [ix_set ix_logcheb]. unfold LogCheb_set. rewrite set_flat_upd by exact Hi. reflexivity.
Qed.

(** two frequencies in a plain array, a Linear indexer for the output, the call nu + nu *)
Lemma C70_objects_example :
  exists L L', Linear_ptr [NaN; NaN] (Fin 1) (Fin 3) 2 = Ok L /\
    object_call ix_identity ix_linear (Plain (fun nu => Ok (Oadd nu nu))) 2 ([Fin 1; Fin 3], L) = Ok ([Fin 1; Fin 3], L') /\
    Linear_ptr [Fin (1 + 1); Fin (3 + 3)] (Fin 1) (Fin 3) 2 = Ok L'.
Proof.
  destruct (C50_linear_proof 1 3 2 [Fin 1; Fin 1] (fun _ => 1%R)) as (G & EG & _); [lra|lia|lia| |].
  { intros [|[|j]] Hj; try reflexivity. lia. }
  revert EG. unfold Linear_ptr, Linear_box, setRange0. change (Z.of_nat 2) with 2%Z.
  destruct (mk_grid (Fin 1) (Fin 3) 2) as [g| |]; intros EG; try discriminate EG.
  eexists. eexists. split; [reflexivity|]. split; reflexivity.
Qed.
