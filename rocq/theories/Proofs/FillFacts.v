(** Loops that fill tables: what a successful run leaves in every cell. *)
From Coq Require Import ZArith List Lia Bool Classical_Prop.
From Verif Require Import Base.Outcome Base.Ops Model.Spiner Proofs.ArrayFacts.
Import ListNotations.

Section Fill.
  Context {S X : Type} (get : S -> Z -> option X).

  (** a successful run of [b] leaves in every cell of [D] something satisfying [V], and
      does not touch the others *)
  Definition fills (b : S -> result S) (D : Z -> Prop) (V : Z -> X -> Prop) : Prop :=
    forall st st', b st = Ok st' ->
      (forall i, D i -> exists x, get st' i = Some x /\ V i x) /\
      (forall i, ~ D i -> get st' i = get st i).

  Lemma fills_for (n : Z) (body : nat -> S -> result S) (D : nat -> Z -> Prop) (V : Z -> X -> Prop) :
    (forall k, (Z.of_nat k < n)%Z -> fills (body k) (D k) V) ->
    fills (for_int n body) (fun i => exists k, (Z.of_nat k < n)%Z /\ D k i) V.
  Proof.
    intros H. unfold for_int, for_loop.
    assert (G : forall m, (Z.of_nat m <= n)%Z \/ m = 0%nat ->
      fills (for_from m 0 body) (fun i => exists k, (k < m)%nat /\ D k i) V).
    { induction m as [|m IH]; intros Hm st st' E.
      - cbn in E. injection E as <-. split; [intros i (k & K & _); lia|reflexivity].
      - rewrite for_from_S_last in E. destruct (for_from m 0 body st) as [s1| |] eqn:E1; try discriminate.
        cbn [bind] in E. destruct (IH ltac:(lia) st s1 E1) as [A1 A2].
        destruct (H m ltac:(lia) s1 st' E) as [B1 B2]. split.
        + intros i (k & K & Dk). destruct (classic (D m i)) as [Dm|Nm]; [now apply B1|].
          rewrite B2 by exact Nm. apply A1. exists k. split; [|exact Dk].
          assert (k <> m) by (intros ->; contradiction). lia.
        + intros i N. rewrite B2, A2; [reflexivity| |].
          * intros (k & K & Dk). apply N. exists k. split; [lia|exact Dk].
          * intros Dm. apply N. exists m. split; [lia|exact Dm]. }
    intros st st' E. destruct (G (Z.to_nat n) ltac:(lia) st st' E) as [A B]. split.
    - intros i (k & K & Dk). apply A. exists k. split; [lia|exact Dk].
    - intros i N. apply B. intros (k & K & Dk). apply N. exists k. split; [lia|exact Dk].
  Qed.

  Lemma fills_weaken b (D D' : Z -> Prop) (V V' : Z -> X -> Prop) :
    (forall i, D' i -> D i) -> (forall i, D i -> D' i) -> (forall i x, V i x -> V' i x) ->
    fills b D V -> fills b D' V'.
  Proof.
    intros H1 H2 H3 F st st' E. destruct (F st st' E) as [A B]. split.
    - intros i K. destruct (A i (H1 i K)) as (x & E1 & V1). eauto.
    - intros i K. apply B. auto.
  Qed.
End Fill.

(** two tables of the same shape *)
Definition get2 {T} (st : list T * list T) (i : Z) : option (T * T) :=
  if (i <? 0)%Z then None else
  match nth_error (fst st) (Z.to_nat i), nth_error (snd st) (Z.to_nat i) with
  | Some x, Some y => Some (x, y)
  | _, _ => None
  end.

Lemma set_flat_ok {T} {O : Ops T} (d d' : list T) i v : set_flat d i v = Ok d' ->
  (0 <= i < Z.of_nat (length d))%Z /\ d' = upd d (Z.to_nat i) v.
Proof.
  unfold set_flat. destruct (Z.ltb_spec i 0); [discriminate|]. unfold store.
  destruct (Nat.ltb_spec (Z.to_nat i) (length d)); [|discriminate]. intros E. injection E as <-.
  split; [lia|reflexivity].
Qed.

Lemma get2_set {T} (st : list T * list T) c v w : (0 <= c < Z.of_nat (length (fst st)))%Z -> (0 <= c < Z.of_nat (length (snd st)))%Z ->
  get2 (upd (fst st) (Z.to_nat c) v, upd (snd st) (Z.to_nat c) w) c = Some (v, w) /\
  (forall i, i <> c -> get2 (upd (fst st) (Z.to_nat c) v, upd (snd st) (Z.to_nat c) w) i = get2 st i).
Proof.
  intros H1 H2. unfold get2. cbn [fst snd]. split.
  - destruct (Z.ltb_spec c 0); [lia|]. rewrite !nth_upd_same by lia. reflexivity.
  - intros i N. destruct (Z.ltb_spec i 0); [reflexivity|]. rewrite !nth_upd_other by lia. reflexivity.
Qed.

(** loops that keep a property of the state when they succeed *)
Lemma for_keeps {S} (P : S -> S -> Prop) (n : Z) (body : nat -> S -> result S) :
  (forall s, P s s) -> (forall a b c, P a b -> P b c -> P a c) ->
  (forall k s s', (Z.of_nat k < n)%Z -> body k s = Ok s' -> P s s') ->
  forall s s', for_int n body s = Ok s' -> P s s'.
Proof.
  intros Rf Tr H. unfold for_int, for_loop.
  assert (G : forall m, (Z.of_nat m <= n)%Z \/ m = 0%nat -> forall s s', for_from m 0 body s = Ok s' -> P s s').
  { induction m as [|m IH]; intros Hm s s' E.
    - cbn in E. injection E as <-. apply Rf.
    - rewrite for_from_S_last in E. destruct (for_from m 0 body s) as [s1| |] eqn:E1; try discriminate.
      cbn [bind] in E. apply (Tr s s1); [apply IH; auto; lia|]. apply (H m); [lia|exact E]. }
  intros s s' E. apply (G (Z.to_nat n)); [lia|exact E].
Qed.

Definition same_size {T} (a b : list T * list T) : Prop :=
  length (fst a) = length (fst b) /\ length (snd a) = length (snd b).
Lemma same_size_refl {T} (a : list T * list T) : same_size a a.
Proof. split; reflexivity. Qed.
Lemma same_size_trans {T} (a b c : list T * list T) : same_size a b -> same_size b c -> same_size a c.
Proof. intros [] []. split; congruence. Qed.

(** a loop that appends one element per pass *)
Lemma for_append {A} (n : Z) (f : nat -> result A) l :
  for_int n (fun g ds => d <- f g ;; Ok (ds ++ [d])) [] = Ok l ->
  length l = Z.to_nat n /\ forall g, (g < Z.to_nat n)%nat -> exists d, f g = Ok d /\ nth_error l g = Some d.
Proof.
  unfold for_int, for_loop. revert l. induction (Z.to_nat n) as [|m IH]; intros l E.
  - cbn in E. injection E as <-. split; [reflexivity|lia].
  - rewrite for_from_S_last in E.
    destruct (for_from m 0 _ []) as [s1| |] eqn:E1; try discriminate. cbn [bind] in E.
    destruct (IH s1 eq_refl) as [L1 G1]. rewrite Nat.add_0_l in E.
    destruct (f m) as [d| |] eqn:Ef; cbn [bind] in E; try discriminate. injection E as <-. split.
    + rewrite app_length, L1. cbn. lia.
    + intros g Hg. destruct (Nat.eq_dec g m) as [->|N].
      * exists d. split; [exact Ef|]. rewrite nth_error_app2 by lia. rewrite L1, Nat.sub_diag. reflexivity.
      * destruct (G1 g ltac:(lia)) as (d' & Q1 & Q2). exists d'. split; [exact Q1|]. rewrite nth_error_app1 by lia. exact Q2.
Qed.

Lemma for_int_ext {S} (n : Z) (body body' : nat -> S -> result S) s :
  (forall i s, body i s = body' i s) -> for_int n body s = for_int n body' s.
Proof.
  intros H. unfold for_int, for_loop. generalize 0%nat. revert s.
  induction (Z.to_nat n) as [|k IH]; intros s i; cbn [for_from]; [reflexivity|].
  rewrite H. destruct (body' i s); cbn [bind]; auto.
Qed.
