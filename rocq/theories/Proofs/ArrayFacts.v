(** Lemmas on the flat memory and on the array loops. *)
From Coq Require Import List ZArith Lia.
From Verif Require Import Base.Outcome Base.Ops Model.PhotonApi Spec.Arrays.
Import ListNotations.

Lemma upd_length {T} (m : mem T) a v : length (upd m a v) = length m.
Proof. revert a; induction m as [|x m IH]; intros [|a]; cbn; auto. Qed.

Lemma nth_upd_same {T} (m : mem T) a v : (a < length m)%nat -> nth_error (upd m a v) a = Some v.
Proof.
  revert a; induction m as [|x m IH]; intros [|a]; cbn; intros H; try lia; auto.
  apply IH; lia.
Qed.

Lemma nth_upd_other {T} (m : mem T) a b v : a <> b -> nth_error (upd m a v) b = nth_error m b.
Proof.
  revert a b; induction m as [|x m IH]; intros [|a] [|b] H; cbn; auto; try lia.
Qed.

Lemma load_ok {T} (m : mem T) a : (a < length m)%nat -> exists v, load m a = Ok v /\ nth_error m a = Some v.
Proof.
  intros H. unfold load. destruct (nth_error m a) eqn:E; eauto.
  apply nth_error_None in E. lia.
Qed.
Lemma load_some {T} (m : mem T) a v : nth_error m a = Some v -> load m a = Ok v.
Proof. intros H. unfold load. now rewrite H. Qed.
Lemma load_ub {T} (m : mem T) a : (length m <= a)%nat -> load m a = UB.
Proof. intros H. unfold load. apply nth_error_None in H. now rewrite H. Qed.
Lemma store_ok {T} (m : mem T) a v : (a < length m)%nat -> store m a v = Ok (upd m a v).
Proof. intros H. unfold store. apply Nat.ltb_lt in H. now rewrite H. Qed.
Lemma store_ub {T} (m : mem T) a v : (length m <= a)%nat -> store m a v = UB.
Proof. intros H. unfold store. apply Nat.ltb_ge in H. now rewrite H. Qed.

Lemma for_from_S_last {S} k i (body : nat -> S -> result S) s :
  for_from (Datatypes.S k) i body s = (s' <- for_from k i body s ;; body (i + k)%nat s').
Proof.
  revert i s; induction k as [|k IH]; intros i s.
  - cbn. rewrite Nat.add_0_r. destruct (body i s); reflexivity.
  - change (for_from (Datatypes.S (Datatypes.S k)) i body s) with
      (s' <- body i s ;; for_from (Datatypes.S k) (Datatypes.S i) body s').
    change (for_from (Datatypes.S k) i body s) with
      (s' <- body i s ;; for_from k (Datatypes.S i) body s').
    destruct (body i s) as [s'| |]; cbn [bind]; auto.
    rewrite IH. now replace (Datatypes.S i + k)%nat with (i + Datatypes.S k)%nat by lia.
Qed.

(** Invariant rule for loops. *)
Lemma for_loop_inv {S} (P : nat -> S -> Prop) n (body : nat -> S -> result S) s :
  P 0%nat s ->
  (forall i s, (i < n)%nat -> P i s -> exists s', body i s = Ok s' /\ P (Datatypes.S i) s') ->
  exists s', for_loop n body s = Ok s' /\ P n s'.
Proof.
  intros H0 Hs. unfold for_loop.
  assert (G : forall k, (k <= n)%nat -> exists s', for_from k 0 body s = Ok s' /\ P k s').
  { induction k as [|k IH]; intros Hk.
    - eexists; split; [reflexivity|exact H0].
    - destruct (IH ltac:(lia)) as [s1 [E1 P1]]. rewrite for_from_S_last, E1. cbn [bind].
      apply Hs; [lia|exact P1]. }
  exact (G n (le_n n)).
Qed.

Section Loop.
  Context {T : Type} (F : T -> T).
  Local Notation V := (array_loop (fun nu => Ok (F nu))).

  Lemma array_loop_bin_by_bin : bin_by_bin (fun nu => Ok (F nu)) V.
  Proof.
    intros nb co n m. split.
    - intros Hn. unfold array_loop, for_int, for_loop.
      replace (Z.to_nat n) with 0%nat by lia. reflexivity.
    - intros Hn H1 H2 Hov. unfold array_loop, for_int. set (k := Z.to_nat n) in *.
      destruct (for_loop_inv (fun i m' => length m' = length m /\
        (forall a, ~ (co <= a < co + i)%nat -> nth_error m' a = nth_error m a) /\
        (forall j nu, (j < i)%nat -> nth_error m (nb + j) = Some nu ->
           nth_error m' (co + j) = Some (F nu))) k
        (fun i m => nu <- load m (nb + i) ;; v <- Ok (F nu) ;; store m (co + i) v) m)
        as [m' [E [L [P Q]]]].
      + split; [reflexivity|]. split; [auto|]. intros; lia.
      + intros i s Hi [L [P Q]].
        destruct (load_ok s (nb + i)) as [nu [El En]]; [lia|].
        rewrite El. cbn [bind]. rewrite store_ok by lia.
        eexists; split; [reflexivity|]. split; [now rewrite upd_length|]. split.
        * intros a Ha. rewrite nth_upd_other by lia. apply P. lia.
        * intros j nu' Hj Hnu'. destruct (Nat.eq_dec j i) as [->|Hne].
          -- rewrite nth_upd_same by lia. rewrite P in En by lia. congruence.
          -- rewrite nth_upd_other by lia. apply Q; [lia|assumption].
      + exists m'. split; [exact E|]. split; [exact L|]. split; [|exact P].
        intros i nu Hi Hnu. eexists; split; [reflexivity|]. apply Q; assumption.
  Qed.

  Lemma for_from_bad {S} (body : nat -> S -> result S) k i s (I : S -> Prop) b :
    I s -> (forall j s, I s -> (exists s', body j s = Ok s' /\ I s') \/ body j s = UB) ->
    (i <= b < i + k)%nat -> (forall s, I s -> body b s = UB) ->
    for_from k i body s = UB.
  Proof.
    intros Hs Hb. revert i s Hs; induction k as [|k IH]; intros i s Hs Hr Hub; [lia|].
    cbn [for_from]. destruct (Hb i s Hs) as [[s' [E Hs']]|E]; rewrite E; cbn [bind]; auto.
    destruct (Nat.eq_dec i b) as [->|Hne].
    - rewrite Hub in E by assumption. discriminate.
    - apply IH; auto. lia.
  Qed.

  Lemma array_loop_short : short_buffer_is_UB V.
  Proof.
    intros nb co n m H Hn. unfold array_loop, for_int, for_loop.
    set (k := Z.to_nat n) in *. assert (0 < k)%nat by lia.
    apply (for_from_bad _ _ _ _ (fun s => length s = length m) (k - 1)); auto; try lia.
    - intros j s Hs. destruct (Nat.lt_ge_cases (nb + j) (length s)) as [H1|H1].
      + destruct (load_ok s _ H1) as [nu [-> _]]. cbn [bind].
        destruct (Nat.lt_ge_cases (co + j) (length s)) as [H2|H2].
        * rewrite store_ok by assumption. left. eexists; split; [reflexivity|].
          now rewrite upd_length.
        * rewrite store_ub by assumption. auto.
      + rewrite load_ub by assumption. auto.
    - intros s Hs. destruct (Nat.lt_ge_cases (nb + (k - 1)) (length s)) as [H1|H1].
      + destruct (load_ok s _ H1) as [nu [-> _]]. cbn [bind]. apply store_ub. lia.
      + rewrite load_ub by assumption. reflexivity.
  Qed.
End Loop.

Section PartialLoop.
  Context {T : Type} (F : T -> result T).

  Lemma partial_prefix nb co k (m : mem T) :
    (nb + k <= length m)%nat -> (co + k <= length m)%nat ->
    (forall i nu, (i < k)%nat -> nth_error m (nb + i) = Some nu -> exists v, F nu = Ok v) ->
    (co <= nb \/ nb + k <= co)%nat ->
    exists m', for_from k 0 (fun i m => nu <- load m (nb + i) ;; v <- F nu ;; store m (co + i) v) m = Ok m' /\
      length m' = length m /\
      (forall a, ~ (co <= a < co + k)%nat -> nth_error m' a = nth_error m a) /\
      (forall j nu, (j < k)%nat -> nth_error m (nb + j) = Some nu ->
         exists v, F nu = Ok v /\ nth_error m' (co + j) = Some v).
  Proof.
    intros H1 H2 Hg Hov.
    destruct (for_loop_inv (fun i m' => length m' = length m /\
        (forall a, ~ (co <= a < co + i)%nat -> nth_error m' a = nth_error m a) /\
        (forall j nu, (j < i)%nat -> nth_error m (nb + j) = Some nu ->
           exists v, F nu = Ok v /\ nth_error m' (co + j) = Some v)) k
        (fun i m => nu <- load m (nb + i) ;; v <- F nu ;; store m (co + i) v) m)
        as [m' [E [L [P Q]]]].
    - split; [reflexivity|]. split; [auto|]. intros; lia.
    - intros i s Hi [L [P Q]].
      destruct (load_ok s (nb + i)) as [nu [El En]]; [lia|].
      rewrite El. cbn [bind].
      assert (En' : nth_error m (nb + i) = Some nu) by (rewrite <- P by lia; exact En).
      destruct (Hg i nu Hi En') as [v Ev]. rewrite Ev. cbn [bind]. rewrite store_ok by lia.
      eexists; split; [reflexivity|]. split; [now rewrite upd_length|]. split.
      + intros a Ha. rewrite nth_upd_other by lia. apply P. lia.
      + intros j nu' Hj Hnu'. destruct (Nat.eq_dec j i) as [->|Hne].
        * rewrite nth_upd_same by lia. exists v. split; congruence.
        * rewrite nth_upd_other by lia. apply Q; [lia|assumption].
    - exists m'. auto.
  Qed.

  Lemma for_from_app {S} (body : nat -> S -> result S) a b i s :
    for_from (a + b) i body s = (s' <- for_from a i body s ;; for_from b (i + a) body s').
  Proof.
    revert i s; induction a as [|a IH]; intros i s; cbn.
    - now rewrite Nat.add_0_r.
    - destruct (body i s) as [s'| |]; cbn; auto. rewrite IH.
      now replace (Datatypes.S i + a)%nat with (i + Datatypes.S a)%nat by lia.
  Qed.

  Lemma array_loop_or_fail : bin_by_bin_or_fail F (array_loop F).
  Proof.
    intros nb co n m. split.
    - intros Hn. unfold array_loop, for_int, for_loop.
      replace (Z.to_nat n) with 0%nat by lia. reflexivity.
    - intros Hn H1 H2 Hov good. unfold array_loop, for_int, for_loop. set (k := Z.to_nat n) in *. split.
      + intros Hg. destruct (partial_prefix nb co k m H1 H2 Hg Hov) as (m' & E & L & P & Q).
        exists m'. auto.
      + intros i nu Hi En Hg.
        destruct (partial_prefix nb co i m ltac:(lia) ltac:(lia) Hg ltac:(lia)) as (m' & E & L & P & Q).
        assert (En' : nth_error m' (nb + i) = Some nu) by (rewrite P by lia; exact En).
        replace k with (i + Datatypes.S (k - i - 1))%nat by lia.
        rewrite for_from_app, E. cbn [bind for_from]. rewrite Nat.add_0_l, (load_some _ _ _ En'). cbn [bind].
        split; intros ->; reflexivity.
  Qed.
End PartialLoop.

From Verif Require Import Model.NonCGSPhotons.

Section NonCGSLoop.
  Context {T : Type} {O : Ops T} (u : Units T) (out : T).
  Context (F : T -> result T) (V : array_call T) (HV : bin_by_bin F V).
  Open Scope ops_scope.

  Lemma scale_loop_spec a f n (m : mem T) : (0 <= n)%Z -> (a + Z.to_nat n <= length m)%nat ->
    exists m', scale_loop a f n m = Ok m' /\ length m' = length m /\
      (forall i x, (i < Z.to_nat n)%nat -> nth_error m (a + i) = Some x ->
         nth_error m' (a + i) = Some (x * f)) /\
      (forall b, ~ (a <= b < a + Z.to_nat n)%nat -> nth_error m' b = nth_error m b).
  Proof.
    intros Hn Hl. unfold scale_loop, for_int. set (k := Z.to_nat n) in *.
    destruct (for_loop_inv (fun i m' => length m' = length m /\
        (forall b, ~ (a <= b < a + i)%nat -> nth_error m' b = nth_error m b) /\
        (forall j x, (j < i)%nat -> nth_error m (a + j) = Some x ->
           nth_error m' (a + j) = Some (x * f))) k
        (fun i m => v <- load m (a + i) ;; store m (a + i) (v * f)) m)
        as [m' [E [L [P Q]]]].
    - split; [reflexivity|]. split; [auto|]. intros; lia.
    - intros i s Hi [L [P Q]].
      destruct (load_ok s (a + i)) as [x [El En]]; [lia|].
      rewrite El. cbn [bind]. rewrite store_ok by lia.
      eexists; split; [reflexivity|]. split; [now rewrite upd_length|]. split.
      * intros b Hb. rewrite nth_upd_other by lia. apply P. lia.
      * intros j x' Hj Hx'. destruct (Nat.eq_dec j i) as [->|Hne].
        -- rewrite nth_upd_same by lia. rewrite P in En by lia. congruence.
        -- rewrite nth_upd_other by lia. apply Q; [lia|assumption].
    - exists m'. auto.
  Qed.

  (** Disjoint buffers. *)
  Lemma noncgs_array_spec nb co n (m : mem T) : (0 <= n)%Z ->
    (nb + Z.to_nat n <= length m)%nat -> (co + Z.to_nat n <= length m)%nat ->
    (co + Z.to_nat n <= nb \/ nb + Z.to_nat n <= co)%nat ->
    exists m', noncgs_array u out V nb co n m = Ok m' /\ length m' = length m /\
      (forall i nu, (i < Z.to_nat n)%nat -> nth_error m (nb + i) = Some nu ->
         (exists v, F (nu * un_freq u) = Ok v /\ nth_error m' (co + i) = Some (v * out)) /\
         nth_error m' (nb + i) = Some (nu * un_freq u * un_time u)) /\
      (forall b, ~ (nb <= b < nb + Z.to_nat n)%nat -> ~ (co <= b < co + Z.to_nat n)%nat ->
         nth_error m' b = nth_error m b).
  Proof.
    intros Hn H1 H2 Hd. unfold noncgs_array.
    destruct (scale_loop_spec nb (un_freq u) n m Hn H1) as [m1 [E1 [L1 [S1 O1]]]].
    rewrite E1. cbn [bind].
    destruct (HV nb co n m1) as [_ HV2].
    destruct (HV2 Hn ltac:(lia) ltac:(lia) ltac:(lia)) as [m2 [E2 [L2 [S2 O2]]]].
    rewrite E2. cbn [bind]. clear HV2. unfold for_int. set (k := Z.to_nat n) in *.
    destruct (for_loop_inv (fun i m' => length m' = length m /\
        (forall b, ~ (nb <= b < nb + i)%nat -> ~ (co <= b < co + i)%nat ->
           nth_error m' b = nth_error m2 b) /\
        (forall j x, (j < i)%nat -> nth_error m2 (nb + j) = Some x ->
           nth_error m' (nb + j) = Some (x * un_time u)) /\
        (forall j x, (j < i)%nat -> nth_error m2 (co + j) = Some x ->
           nth_error m' (co + j) = Some (x * out))) k
        (fun i m => v <- load m (nb + i) ;;
                    m' <- store m (nb + i) (v * un_time u) ;;
                    w <- load m' (co + i) ;; store m' (co + i) (w * out)) m2)
        as [m' [E [L [P [Q Q']]]]].
    - split; [lia|]. split; [auto|]. split; intros; lia.
    - intros i s Hi [L [P [Q Q']]].
      destruct (load_ok s (nb + i)) as [x [El En]]; [lia|].
      rewrite El. cbn [bind]. rewrite store_ok by lia. cbn [bind].
      destruct (load_ok s (co + i)) as [w [Ew Enw]]; [lia|].
      rewrite (load_some _ _ w) by (rewrite nth_upd_other by lia; exact Enw).
      cbn [bind]. rewrite store_ok by (rewrite upd_length; lia).
      eexists; split; [reflexivity|]. split; [now rewrite !upd_length|].
      split; [|split].
      + intros b Hb Hb'. rewrite !nth_upd_other by lia. apply P; lia.
      + intros j y Hj Hy. rewrite nth_upd_other by lia.
        destruct (Nat.eq_dec j i) as [->|Hne].
        * rewrite nth_upd_same by lia. rewrite P in En by lia. congruence.
        * rewrite nth_upd_other by lia. apply Q; [lia|assumption].
      + intros j y Hj Hy. destruct (Nat.eq_dec j i) as [->|Hne].
        * rewrite nth_upd_same by (rewrite upd_length; lia). rewrite P in Enw by lia. congruence.
        * rewrite !nth_upd_other by lia. apply Q'; [lia|assumption].
    - exists m'. split; [exact E|]. split; [exact L|]. split.
      + intros i nu Hi Hnu. pose proof (S1 i nu Hi Hnu) as H3. split.
        * destruct (S2 i _ Hi H3) as [v [Fv Hv]]. exists v. split; [exact Fv|].
          apply Q'; assumption.
        * apply Q; [exact Hi|]. rewrite O2 by lia. exact H3.
      + intros b Hb Hb'. rewrite P by assumption. rewrite O2 by assumption. apply O1. exact Hb.
  Qed.

  (** One shared buffer: the output is multiplied by the time unit as well. *)
  Lemma noncgs_array_shared nb n (m : mem T) : (0 <= n)%Z ->
    (nb + Z.to_nat n <= length m)%nat ->
    exists m', noncgs_array u out V nb nb n m = Ok m' /\ length m' = length m /\
      (forall i nu, (i < Z.to_nat n)%nat -> nth_error m (nb + i) = Some nu ->
         exists v, F (nu * un_freq u) = Ok v /\
                   nth_error m' (nb + i) = Some (v * un_time u * out)) /\
      (forall b, ~ (nb <= b < nb + Z.to_nat n)%nat -> nth_error m' b = nth_error m b).
  Proof.
    intros Hn H1. unfold noncgs_array.
    destruct (scale_loop_spec nb (un_freq u) n m Hn H1) as [m1 [E1 [L1 [S1 O1]]]].
    rewrite E1. cbn [bind].
    destruct (HV nb nb n m1) as [_ HV2].
    destruct (HV2 Hn ltac:(lia) ltac:(lia) ltac:(lia)) as [m2 [E2 [L2 [S2 O2]]]].
    rewrite E2. cbn [bind]. clear HV2. unfold for_int. set (k := Z.to_nat n) in *.
    destruct (for_loop_inv (fun i m' => length m' = length m /\
        (forall b, ~ (nb <= b < nb + i)%nat -> nth_error m' b = nth_error m2 b) /\
        (forall j x, (j < i)%nat -> nth_error m2 (nb + j) = Some x ->
           nth_error m' (nb + j) = Some (x * un_time u * out))) k
        (fun i m => v <- load m (nb + i) ;;
                    m' <- store m (nb + i) (v * un_time u) ;;
                    w <- load m' (nb + i) ;; store m' (nb + i) (w * out)) m2)
        as [m' [E [L [P Q]]]].
    - split; [lia|]. split; [auto|]. intros; lia.
    - intros i s Hi [L [P Q]].
      destruct (load_ok s (nb + i)) as [x [El En]]; [lia|].
      rewrite El. cbn [bind]. rewrite store_ok by lia. cbn [bind].
      rewrite (load_some _ _ (x * un_time u)) by (apply nth_upd_same; lia).
      cbn [bind]. rewrite store_ok by (rewrite upd_length; lia).
      eexists; split; [reflexivity|]. split; [now rewrite !upd_length|].
      split.
      + intros b Hb. rewrite !nth_upd_other by lia. apply P; lia.
      + intros j y Hj Hy. destruct (Nat.eq_dec j i) as [->|Hne].
        * rewrite nth_upd_same by (rewrite upd_length; lia). rewrite P in En by lia. congruence.
        * rewrite !nth_upd_other by lia. apply Q; [lia|assumption].
    - exists m'. split; [exact E|]. split; [exact L|]. split.
      + intros i nu Hi Hnu. pose proof (S1 i nu Hi Hnu) as H3.
        destruct (S2 i _ Hi H3) as [v [Fv Hv]]. exists v. split; [exact Fv|].
        apply Q; assumption.
      + intros b Hb. rewrite P by assumption. rewrite O2 by assumption. apply O1. exact Hb.
  Qed.

  Lemma noncgs_array_nonpos nb co n (m : mem T) : (n <= 0)%Z ->
    noncgs_array u out V nb co n m = Ok m.
  Proof.
    intros Hn. unfold noncgs_array, scale_loop, for_int, for_loop.
    replace (Z.to_nat n) with 0%nat by lia. cbn [for_from bind].
    destruct (HV nb co n m) as [H _]. rewrite (H Hn). reflexivity.
  Qed.
End NonCGSLoop.
