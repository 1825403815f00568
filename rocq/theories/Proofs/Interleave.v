(** Interleavings of threads whose writes nobody else uses; reaching a given access. *)
From Coq Require Import List ZArith Lia Bool.
From Verif Require Import Base.Outcome Base.Ops Model.Constants Model.PhotonApi Model.NonCGSPhotons Model.Threads
  Spec.Races Proofs.ArrayFacts.
Import ListNotations.

Section Exec.
  Context {T : Type} {O : Ops T}.

  (** a thread run alone *)
  Fixpoint exec (c : code T) (m : mem T) : result (mem T) :=
    match c with
    | Halt (Ok _) => Ok m | Halt Error => Error | Halt UB => UB
    | Rd a k => v <- load m a ;; exec (k v) m
    | Wr a v k => m' <- store m a v ;; exec k m'
    end.
  Fixpoint cost (c : code T) (m : mem T) : nat :=
    match c with
    | Halt _ => 0
    | Rd a k => match load m a with Ok v => S (cost (k v) m) | _ => 0 end
    | Wr a v k => match store m a v with Ok m' => S (cost k m') | _ => 0 end
    end.

  Lemma exec_loop body (step : nat -> mem T -> result (mem T)) :
    (forall i k m, exec (body i k) m = bind (step i m) (exec k)) ->
    forall n i k m, exec (loop_from n i body k) m = bind (for_from n i step m) (exec k).
  Proof.
    intros H. induction n as [|n IH]; intros i k m; cbn [loop_from for_from]; [reflexivity|].
    rewrite H. destruct (step i m) as [m1| |]; unfold bind at 1 3; [apply IH|reflexivity|reflexivity].
  Qed.
  Lemma exec_text (t : array_text T) : forall nu co n k m, exec (text_code t nu co n k) m = bind (text_call t nu co n m) (exec k).
  Proof.
    induction t as [F|u out t IH]; intros nu co n k m; cbn [text_code text_call].
    - unfold loop_int, array_loop, for_int, for_loop. apply exec_loop. clear. intros i k m. unfold fill. cbn [exec]. unfold bind.
      destruct (load m (nu + i)) as [v| |]; try reflexivity. unfold scalar_call. destruct (F v) as [w| |]; try reflexivity.
    - unfold noncgs_array. unfold loop_int at 1. rewrite (exec_loop _ (fun i m => v <- load m (nu + i) ;; store m (nu + i) (Omul v (un_freq u)))).
      2: { clear. intros i k m. unfold scale. cbn [exec]. unfold bind. destruct (load m (nu + i)); reflexivity. }
      unfold scale_loop, for_int, for_loop. destruct (for_from (Z.to_nat n) 0 _ m) as [m1| |]; unfold bind at 1 3; try reflexivity.
      rewrite IH. destruct (text_call t nu co n m1) as [m2| |]; unfold bind at 1 3; try reflexivity.
      apply exec_loop. clear. intros i k m. unfold scale. cbn [exec]. unfold bind.
      destruct (load m (nu + i)) as [v| |]; try reflexivity. destruct (store m (nu + i) _) as [m1| |]; try reflexivity.
      destruct (load m1 (co + i)) as [w| |]; reflexivity.
  Qed.
  Lemma exec_thread c m : exec (thread c) m = alone c m.
  Proof. unfold thread, alone. rewrite exec_text. destruct (text_call _ _ _ _ m); reflexivity. Qed.

  (** all accesses of a thread, whatever it reads, stay in A and its writes in W *)
  Inductive within (A W : nat -> Prop) : code T -> Prop :=
  | within_halt r : within A W (Halt r)
  | within_rd a k : A a -> (forall v, within A W (k v)) -> within A W (Rd a k)
  | within_wr a v k : W a -> within A W k -> within A W (Wr a v k).

  Lemma within_loop A W n : forall i body k,
    (forall j k, (i <= j < i + n)%nat -> within A W k -> within A W (body j k)) -> within A W k -> within A W (loop_from n i body k).
  Proof.
    induction n as [|n IH]; intros i body k H Hk; cbn [loop_from]; [exact Hk|].
    apply H; [lia|]. apply IH; [|exact Hk]. intros j k' Hj. apply H. lia.
  Qed.
  Lemma within_text t nu co n k : forall A W : nat -> Prop,
    (forall a, in_buffer nu n a \/ in_buffer co n a -> A a) ->
    (forall a, in_buffer co n a \/ match t with Plain _ => False | _ => in_buffer nu n a end -> W a) ->
    within A W k -> within A W (text_code t nu co n k).
  Proof.
    revert k. induction t as [F|u out t IH]; intros k A W HA HW Hk; cbn [text_code].
    - apply within_loop; [|exact Hk]. intros j k' Hj Hk'. unfold fill. constructor; [apply HA; left; unfold in_buffer; lia|].
      intros v. unfold scalar_call. destruct (F v); constructor; [|exact Hk']. apply HW. left. unfold in_buffer. lia.
    - apply within_loop.
      { intros j k' Hj Hk'. unfold scale. constructor; [apply HA; left; unfold in_buffer; lia|]. intros v. constructor; [apply HW; right; unfold in_buffer; lia|exact Hk']. }
      apply IH; [exact HA| |].
      { intros a [H|H]; apply HW; [now left|]. destruct t; [destruct H|now right]. }
      apply within_loop; [|exact Hk]. intros j k' Hj Hk'. unfold scale.
      constructor; [apply HA; left; unfold in_buffer; lia|]. intros v. constructor; [apply HW; right; unfold in_buffer; lia|].
      constructor; [apply HA; right; unfold in_buffer; lia|]. intros w. constructor; [apply HW; left; unfold in_buffer; lia|exact Hk'].
  Qed.
  Lemma within_thread c : within (accesses c) (overwrites c) (thread c).
  Proof. apply within_text; [intros a H; exact H|intros a H; exact H|constructor]. Qed.

  Lemma exec_length c : forall m m', exec c m = Ok m' -> length m' = length m.
  Proof.
    induction c as [r|a k IH|a v k IH]; intros m m'; cbn [exec].
    - destruct r as [[]| |]; intros E; congruence.
    - unfold bind. destruct (load m a) as [v| |] eqn:El; try congruence. intros E. now apply (IH v).
    - unfold bind, store. destruct (Nat.ltb_spec a (length m)); [|discriminate]. intros E. rewrite (IH _ _ E). apply upd_length.
  Qed.
  Lemma exec_outside A W c : within A W c -> forall m m', exec c m = Ok m' -> forall a, ~ W a -> nth_error m' a = nth_error m a.
  Proof.
    induction 1 as [r|a k Ha Hk IH|a v k Ha Hk IH]; intros m m'; cbn [exec].
    - destruct r as [[]| |]; intros E; congruence.
    - unfold bind. destruct (load m a) as [v| |] eqn:El; try congruence. intros E. now apply (IH v).
    - unfold bind, store. destruct (Nat.ltb_spec a (length m)); [|discriminate]. intros E b Hb. rewrite (IH _ _ E b Hb). apply nth_upd_other. intros ->. contradiction.
  Qed.

  Lemma nth_upd_cases {A} (l : list A) i j x y : nth_error (upd l i x) j = Some y ->
    (i = j /\ x = y /\ (i < length l)%nat) \/ (i <> j /\ nth_error l j = Some y).
  Proof.
    intros H. destruct (Nat.eq_dec i j) as [->|N].
    - left. assert (j < length (upd l j x))%nat by (apply nth_error_Some; congruence). rewrite upd_length in H0. rewrite nth_upd_same in H by assumption. split; [reflexivity|]. split; [congruence|assumption].
    - right. rewrite nth_upd_other in H by assumption. now split.
  Qed.
  Lemma length_some {A} (l : list A) i x : nth_error l i = Some x -> (i < length l)%nat.
  Proof. intros H. apply nth_error_Some. congruence. Qed.

  (** *** Threads whose writes nobody else uses *)
  Section Apart.
    Context (A W : nat -> nat -> Prop) (m0 : mem T) (res : list (mem T)).
    Hypothesis sub : forall i a, W i a -> A i a.
    Hypothesis apart : forall i j a, i <> j -> W i a -> A j a -> False.

    (** thread i has done part of its work: v is the memory as it would be after that part alone *)
    Definition view (i : nat) (p : code T) (m v m' : mem T) : Prop :=
      within (A i) (W i) p /\ exec p v = Ok m' /\ length v = length m0 /\
      (forall a, A i a -> nth_error m a = nth_error v a).
    Definition inv (s : state T) (views : list (mem T)) : Prop :=
      length (fst s) = length res /\ length views = length res /\ length (snd s) = length m0 /\
      (forall i p, nth_error (fst s) i = Some p -> exists v m', nth_error views i = Some v /\ nth_error res i = Some m' /\ view i p (snd s) v m') /\
      (forall a, (forall i, (i < length res)%nat -> ~ W i a) -> nth_error (snd s) a = nth_error m0 a).
    Fixpoint total (ps : list (code T)) (vs : list (mem T)) : nat :=
      match ps, vs with p :: ps, v :: vs => (cost p v + total ps vs)%nat | _, _ => 0%nat end.
    Lemma total_step : forall ps vs i p v p' v', nth_error ps i = Some p -> nth_error vs i = Some v -> cost p v = S (cost p' v') ->
      total ps vs = S (total (upd ps i p') (upd vs i v')).
    Proof.
      induction ps as [|q ps IH]; intros [|w vs] [|i] p v p' v'; cbn [nth_error]; try discriminate.
      - intros [= ->] [= ->] E. cbn [upd total]. lia.
      - intros H1 H2 E. cbn [upd total]. rewrite (IH vs i p v p' v' H1 H2 E). lia.
    Qed.

    Lemma inv_step s s' vs : inv s vs -> step s s' -> exists vs', inv s' vs' /\ total (fst s) vs = S (total (fst s') vs').
    Proof.
      intros (L1 & L2 & L3 & H & K) St. destruct St as [ps m i a k x Hp Hx|ps m i a x k Hp Ha]; cbn [fst snd] in *.
      - destruct (H i _ Hp) as (v & m' & Ev & Em & (Hw & He & Hl & Hag)). inversion Hw as [|? ? Ha Hk|]; subst. cbn [exec] in He.
        assert (Lv : load v a = Ok x) by (apply load_some; rewrite <- (Hag a Ha); exact Hx). rewrite Lv in He. unfold bind in He.
        exists (upd vs i v). split.
        + split; [cbn [fst]; rewrite upd_length; exact L1|]. split; [rewrite upd_length; exact L2|]. split; [exact L3|]. cbn [fst snd]. split; [|exact K].
          intros j q Hq. destruct (nth_upd_cases _ _ _ _ _ Hq) as [(<- & <- & Hi)|(N & Hq')].
          * exists v, m'. split; [apply nth_upd_same; rewrite L2, <- L1; exact Hi|]. split; [exact Em|]. split; [apply Hk|]. split; [exact He|]. now split.
          * destruct (H j q Hq') as (vj & mj & E1 & E2 & E3). exists vj, mj. split; [rewrite nth_upd_other by exact N; exact E1|]. now split.
        + cbn [fst]. apply (total_step _ _ _ _ _ _ _ Hp Ev). cbn [cost]. rewrite Lv. reflexivity.
      - destruct (H i _ Hp) as (v & m' & Ev & Em & (Hw & He & Hl & Hag)). inversion Hw as [| |? ? ? Wa Hk]; subst. cbn [exec] in He.
        assert (Sv : store v a x = Ok (upd v a x)) by (apply store_ok; rewrite Hl, <- L3; exact Ha). rewrite Sv in He. unfold bind in He.
        exists (upd vs i (upd v a x)). split.
        + split; [cbn [fst]; rewrite upd_length; exact L1|]. split; [rewrite upd_length; exact L2|]. split; [cbn [snd]; rewrite upd_length; exact L3|]. cbn [fst snd]. split.
          * intros j q Hq. destruct (nth_upd_cases _ _ _ _ _ Hq) as [(<- & <- & Hi)|(N & Hq')].
            -- exists (upd v a x), m'. split; [apply nth_upd_same; rewrite L2, <- L1; exact Hi|]. split; [exact Em|]. split; [exact Hk|]. split; [exact He|].
               split; [rewrite upd_length; exact Hl|]. intros b Hb. destruct (Nat.eq_dec a b) as [<-|Nb].
               ++ rewrite !nth_upd_same by (rewrite ?Hl, <- ?L3; exact Ha). reflexivity.
               ++ rewrite !nth_upd_other by exact Nb. now apply Hag.
            -- destruct (H j q Hq') as (vj & mj & E1 & E2 & (F1 & F2 & F3 & F4)). exists vj, mj. split; [rewrite nth_upd_other by exact N; exact E1|]. split; [exact E2|].
               split; [exact F1|]. split; [exact F2|]. split; [exact F3|]. intros b Hb. rewrite nth_upd_other; [now apply F4|]. intros <-. exact (apart i j a N Wa Hb).
          * intros b Hb. rewrite nth_upd_other; [now apply K|]. intros <-. apply (Hb i); [rewrite <- L1; exact (length_some _ _ _ Hp)|exact Wa].
        + cbn [fst]. apply (total_step _ _ _ _ _ _ _ Hp Ev). cbn [cost]. rewrite Sv. reflexivity.
    Qed.
    Lemma inv_steps n s s' vs : steps n s s' -> inv s vs -> exists vs', inv s' vs' /\ total (fst s) vs = (n + total (fst s') vs')%nat.
    Proof.
      intros H. revert vs. induction H as [s|n s s1 s2 H1 H2 IH]; intros vs Hv; [exists vs; split; [exact Hv|lia]|].
      destruct (inv_step _ _ _ Hv H1) as (v1 & I1 & E1). destruct (IH _ I1) as (v2 & I2 & E2). exists v2. split; [exact I2|]. lia.
    Qed.
    Lemma inv_racy s vs : inv s vs -> ~ racy s.
    Proof.
      intros (L1 & L2 & L3 & H & K) (i & j & p & q & w & w' & a & N & Hi & Hj & Ni & Nj & Hw).
      destruct (H i p Hi) as (v & m' & _ & _ & (W1 & _)). destruct (H j q Hj) as (v2 & m2 & _ & _ & (W2 & _)).
      assert (HA : forall l c b, within (A l) (W l) c -> next c = Some (b, a) -> A l a /\ (b = true -> W l a)).
      { intros l c b Hc Hn. destruct Hc as [r|a' k Ha Hk|a' x k Ha Hk]; cbn in Hn; [discriminate|injection Hn as <- <-; split; [exact Ha|discriminate]|].
        injection Hn as <- <-. split; [apply sub; exact Ha|intros _; exact Ha]. }
      destruct (HA i p w W1 Ni) as (A1 & B1). destruct (HA j q w' W2 Nj) as (A2 & B2).
      destruct Hw as [E|E]; [exact (apart i j a N (B1 E) A2)|exact (apart j i a (not_eq_sym N) (B2 E) A1)].
    Qed.
    Lemma inv_next s vs i p : inv s vs -> nth_error (fst s) i = Some p -> p = Halt (Ok tt) \/ exists s', step s s'.
    Proof.
      intros (L1 & L2 & L3 & H & K) Hi. destruct (H i p Hi) as (v & m' & E1 & E2 & (W1 & He & Hl & Hag)). destruct s as [ps m]. cbn [fst snd] in *.
      destruct W1 as [r|a k Ha Hk|a x k Ha Hk]; cbn [exec] in He.
      - left. destruct r as [[]| |]; [reflexivity|discriminate|discriminate].
      - right. unfold load in He. destruct (nth_error v a) as [x|] eqn:Ex; [|discriminate]. rewrite <- (Hag a Ha) in Ex. eexists. eapply step_read; eassumption.
      - right. unfold store in He. destruct (Nat.ltb_spec a (length v)); [|discriminate]. eexists. eapply step_write; [eassumption|]. rewrite L3, <- Hl. assumption.
    Qed.
    Lemma inv_stray s vs : inv s vs -> ~ stray s.
    Proof.
      intros (L1 & L2 & L3 & H & K) (i & p & w & a & Hi & Hn & Hlen). destruct (H i p Hi) as (v & m' & E1 & E2 & (W1 & He & Hl & Hag)).
      destruct W1 as [r|a' k Ha Hk|a' x k Ha Hk]; cbn in Hn, He; [discriminate| |]; injection Hn as _ ->.
      - unfold load in He. destruct (nth_error v a) as [x|] eqn:Ex; [|discriminate]. apply length_some in Ex. lia.
      - unfold store in He. destruct (Nat.ltb_spec a (length v)); [lia|discriminate].
    Qed.
    Lemma inv_finished s vs : inv s vs -> finished s -> forall i m', nth_error res i = Some m' ->
      forall a, A i a -> nth_error (snd s) a = nth_error m' a.
    Proof.
      intros (L1 & L2 & L3 & H & K) F i m' Hr a Ha. destruct (nth_error (fst s) i) as [p|] eqn:Ep.
      - destruct (H i p Ep) as (v & m2 & E1 & E2 & (W1 & He & Hl & Hag)). rewrite (F p (nth_error_In _ _ Ep)) in He. cbn in He.
        rewrite (Hag a Ha). congruence.
      - apply nth_error_None in Ep. apply length_some in Hr. lia.
    Qed.
    Lemma inv_progress s vs : inv s vs -> finished s \/ exists s', step s s'.
    Proof.
      intros I. assert (D : forall l, (forall p, In p l -> exists i, nth_error (fst s) i = Some p) -> (forall p, In p l -> p = Halt (Ok tt)) \/ exists s', step s s').
      { induction l as [|p l IH]; intros Hl; [left; intros p []|]. destruct (Hl p (or_introl eq_refl)) as (i & Hi). destruct (inv_next _ _ _ _ I Hi) as [E|E]; [|now right].
        destruct IH as [IH|IH]; [intros q Hq; apply Hl; now right| |now right]. left. intros q [<-|Hq]; [exact E|now apply IH]. }
      apply D. intros p Hp. now apply In_nth_error.
    Qed.
  End Apart.
End Exec.
