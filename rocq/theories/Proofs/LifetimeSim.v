(** The storage of Model/Lifetime.v against the values of Spec/Values.v. *)
From Coq Require Import List Arith Bool Permutation Lia.
From Verif Require Import Model.Lifetime Spec.Values.
Import ListNotations.

Lemma perm_here : forall {A} (x : A) l, Permutation (x :: l) (x :: l).
Proof. intros; apply Permutation_refl. Qed.
Lemma perm_there : forall {A} (x y : A) l r, Permutation l (x :: r) -> Permutation (y :: l) (x :: y :: r).
Proof. intros A x y l r H. eapply perm_trans; [apply perm_skip; exact H|apply perm_swap]. Qed.
Lemma perm_front : forall {A} (x : A) l r r', Permutation l (x :: r) -> Permutation r r' -> Permutation l (x :: r').
Proof. intros A x l r r' H K. eapply perm_trans; [exact H|apply perm_skip; exact K]. Qed.
Ltac bring := repeat first [apply perm_here | apply perm_there].
Ltac perm := repeat (eapply perm_front; [solve [bring]|]); try apply Permutation_refl.

Lemma filter_seq_end : forall (p : nat -> bool) n,
  filter p (seq 0 (S n)) = filter p (seq 0 n) ++ (if p n then [n] else []).
Proof.
  intros p n. replace (S n) with (n + 1) by lia. rewrite seq_app, filter_app. simpl.
  destruct (p n); reflexivity.
Qed.
Lemma filter_ext_seq : forall (p q : nat -> bool) n, (forall k, k < n -> p k = q k) ->
  filter p (seq 0 n) = filter q (seq 0 n).
Proof.
  intros p q n. induction n as [|n IH]; intros H; [reflexivity|].
  rewrite !filter_seq_end, IH by (intros; apply H; lia). rewrite (H n) by lia. reflexivity.
Qed.
Lemma filter_seq_drop : forall (p q : nat -> bool) n k, k < n -> p k = true -> q k = false ->
  (forall j, j <> k -> p j = q j) ->
  length (filter p (seq 0 n)) = S (length (filter q (seq 0 n))).
Proof.
  intros p q n k Hk Hp Hq E. induction n as [|n IH]; [lia|].
  rewrite !filter_seq_end, !app_length.
  destruct (Nat.eq_dec k n) as [->|Hn].
  - rewrite Hp, Hq. rewrite (filter_ext_seq p q n) by (intros; apply E; lia). simpl. lia.
  - rewrite IH by lia. rewrite (E n) by lia. lia.
Qed.

Section Sim.
  Context {D : Type} (base : nat) (init : nat -> option D) (used files : nat).
  Notation heap := (Heap D).

  Definition hinv (h : heap) (bs : list (nat * D)) (n f : nat) : Prop :=
    NoDup (map fst bs) /\
    (forall k d, In (k, d) bs -> hp_data h k = Some d /\ base <= k < hp_next h) /\
    (forall k, hp_next h <= k -> hp_data h k = None) /\
    (forall k, k < base -> hp_data h k = init k) /\
    base <= hp_next h /\
    in_use h = used + length bs + n /\
    hp_files h = files + f.
  Ltac hsplit := split; [|split; [|split; [|split; [|split; [|split]]]]].
  (** nothing comes back *)
  Definition later (h h' : heap) : Prop :=
    hp_next h <= hp_next h' /\ forall k, k < hp_next h -> hp_data h k = None -> hp_data h' k = None.
  Lemma later_refl : forall h, later h h.
  Proof. intros h. split; auto. Qed.
  Lemma later_trans : forall h1 h2 h3, later h1 h2 -> later h2 h3 -> later h1 h3.
  Proof. intros h1 h2 h3 [A B] [C E]. split; [lia|]. intros k Hk H. apply E; [lia|]. apply B; assumption. Qed.

  Definition alloc_box (k : nat) : Box := {| bx_status := Allocated; bx_block := k |}.

  Lemma hinv_perm : forall h bs bs' n f, Permutation bs bs' -> hinv h bs n f -> hinv h bs' n f.
  Proof.
    intros h bs bs' n f P (N & I & Z & C & B & U & F). hsplit; try assumption.
    - apply (Permutation_NoDup (Permutation_map fst P)); assumption.
    - intros k d K. apply I. apply (Permutation_in _ (Permutation_sym P)). exact K.
    - rewrite U, (Permutation_length P). reflexivity.
  Qed.
  Lemma hinv_cast : forall h bs n f n' f', hinv h bs n f -> n = n' -> f = f' -> hinv h bs n' f'.
  Proof. intros; subst; assumption. Qed.
  Lemma hinv_drop : forall h b bs n f, hinv h (b :: bs) n f -> hinv h bs (S n) f.
  Proof.
    intros h b bs n f (N & I & Z & C & B & U & F). hsplit; try assumption.
    - inversion N; assumption.
    - intros k d K. apply I. right. exact K.
    - simpl in U. lia.
  Qed.
  Lemma in_use_fresh : forall (h : heap) d,
    in_use {| hp_next := S (hp_next h); hp_data := update (hp_data h) (hp_next h) (Some d); hp_files := hp_files h |} = S (in_use h).
  Proof.
    intros h d. unfold in_use. cbn [hp_next hp_data]. rewrite filter_seq_end. unfold update at 2. rewrite Nat.eqb_refl.
    rewrite app_length. simpl.
    rewrite (filter_ext_seq _ (fun k => match hp_data h k with Some _ => true | None => false end)); [lia|].
    intros k Hk. unfold update. destruct (Nat.eqb_spec k (hp_next h)); [lia|reflexivity].
  Qed.
  Lemma hinv_alloc : forall h bs n f d, hinv h bs n f ->
    exists k h', allocate d h = Done (alloc_box k) h' /\ hinv h' ((k, d) :: bs) n f /\ later h h'.
  Proof.
    intros h bs n f d (N & I & Z & C & B & U & F).
    exists (hp_next h). eexists. split; [reflexivity|]. split; [|split].
    - unfold hinv. cbn [hp_next hp_data hp_files]. hsplit.
      + simpl. constructor; [|exact N]. intros K. apply in_map_iff in K as ([k' d'] & E & K). simpl in E. subst k'.
        apply I in K. lia.
      + intros k d' [E|K].
        * inversion E; subst. unfold update. rewrite Nat.eqb_refl. split; [reflexivity|lia].
        * apply I in K as [K1 K2]. unfold update. destruct (Nat.eqb_spec k (hp_next h)); [lia|]. split; [assumption|lia].
      + intros k Hk. unfold update. destruct (Nat.eqb_spec k (hp_next h)); [lia|]. apply Z. lia.
      + intros k Hk. unfold update. destruct (Nat.eqb_spec k (hp_next h)); [lia|]. apply C; assumption.
      + lia.
      + rewrite in_use_fresh, U. simpl. lia.
      + exact F.
    - simpl. lia.
    - intros k Hk E. cbn [hp_data]. unfold update. destruct (Nat.eqb_spec k (hp_next h)); [lia|assumption].
  Qed.
  Lemma hinv_free : forall h bs n f k d bs', hinv h bs n f -> Permutation bs ((k, d) :: bs') ->
    exists h', free k h = Done tt h' /\ hinv h' bs' n f /\ later h h' /\ hp_data h' k = None.
  Proof.
    intros h bs n f k d bs' V P. apply (hinv_perm _ _ _ _ _ P) in V. destruct V as (N & I & Z & C & B & U & F).
    destruct (I k d (or_introl eq_refl)) as [Ek Hk].
    unfold free. rewrite Ek. eexists. split; [reflexivity|].
    split; [|split; [split|]].
    - simpl in N. inversion N as [|? ? N1 N2]; subst.
      unfold hinv. cbn [hp_next hp_data hp_files]. hsplit.
      + exact N2.
      + intros j e K. unfold update. destruct (Nat.eqb_spec j k) as [->|].
        * exfalso. apply N1. apply in_map_iff. exists (k, e). split; [reflexivity|exact K].
        * apply I. right. exact K.
      + intros j Hj. unfold update. destruct (Nat.eqb_spec j k); [reflexivity|]. apply Z; assumption.
      + intros j Hj. unfold update. destruct (Nat.eqb_spec j k); [lia|]. apply C; assumption.
      + exact B.
      + unfold in_use in *. cbn [hp_next hp_data].
        rewrite (filter_seq_drop (fun k => match hp_data h k with Some _ => true | None => false end)
                   (fun k0 => match update (hp_data h) k None k0 with Some _ => true | None => false end) _ k) in U.
        * simpl in U. lia.
        * lia.
        * rewrite Ek. reflexivity.
        * unfold update. rewrite Nat.eqb_refl. reflexivity.
        * intros j Hj. unfold update. destruct (Nat.eqb_spec j k); [lia|reflexivity].
      + exact F.
    - simpl. lia.
    - intros j Hj E. cbn [hp_data]. unfold update. destruct (Nat.eqb_spec j k); [reflexivity|assumption].
    - cbn [hp_data]. unfold update. rewrite Nat.eqb_refl. reflexivity.
  Qed.
  Lemma hinv_read : forall h bs n f k d, hinv h bs n f -> In (k, d) bs -> read (alloc_box k) h = Done d h.
  Proof. intros h bs n f k d V K. destruct V as (_ & I & _). apply I in K as [K _]. unfold read. simpl. rewrite K. reflexivity. Qed.
  Lemma hinv_final : forall s h bs n f k d bs', hinv h bs n f -> Permutation bs ((k, d) :: bs') ->
    exists h', finalize s (alloc_box k) h = Done empty_box h' /\ hinv h' bs' n f /\ later h h' /\ hp_data h' k = None.
  Proof.
    intros s h bs n f k d bs' V P. destruct (hinv_free _ _ _ _ _ _ _ V P) as (h' & E & R).
    exists h'. split; [|exact R]. unfold finalize, bind. cbn [bx_status alloc_box bx_block]. rewrite E. reflexivity.
  Qed.
  Lemma hinv_open : forall h bs n f, hinv h bs n f ->
    exists h', openFile true h = Done true h' /\ hinv h' bs n (S f) /\ later h h'.
  Proof.
    intros h bs n f (N & I & Z & C & B & U & F). eexists. split; [reflexivity|]. split; [|split; simpl; auto].
    hsplit; try assumption. simpl. lia.
  Qed.
  Lemma hinv_close : forall h bs n f ok, hinv h bs n (S f) ->
    exists h', closeFile true ok h = Done ok h' /\ hinv h' bs n f /\ later h h'.
  Proof.
    intros h bs n f ok (N & I & Z & C & B & U & F). eexists. split; [reflexivity|]. split; [|split; simpl; auto].
    hsplit; try assumption. simpl. lia.
  Qed.

  (** ** Constructors *)
  Context (to_log from_log : D -> D) (acceptable : D -> D -> D -> bool) (strict : bool).

  Fixpoint boxes (o : Obj) : list Box :=
    match o with
    | Analytic => []
    | PhotonMean p r g => [p; r; g]
    | NeutrinoMean p r => [p; r]
    | Tabulated a j J Y => [a; j; J; Y]
    | Single b => [b]
    | Wrapper o => boxes o
    end.
  Fixpoint kind_of (o : Obj) : Kind :=
    match o with
    | Analytic => KAnalytic
    | PhotonMean _ _ _ => KPhoton
    | NeutrinoMean _ _ => KNeutrino
    | Tabulated _ _ _ _ => KTabulated
    | Single _ => KBox
    | Wrapper o => kind_of o
    end.
  Definition is_wrapped (o : Obj) : bool := match o with Wrapper _ => true | _ => false end.

  (** [m] makes an object with these contents, and loses so much; or throws, and loses so much *)
  Definition makes (m : St D Obj) (made : option (Kind * list D)) (lb lf : nat) : Prop :=
    forall h bs n f, hinv h bs n f ->
    match made with
    | Some (k, ds) => exists o h' ks, m h = Done o h' /\ kind_of o = k /\ is_wrapped o = false /\
        boxes o = map alloc_box ks /\ length ks = length ds /\
        hinv h' (combine ks ds ++ bs) (n + lb) (f + lf) /\ later h h'
    | None => exists h', m h = Threw h' /\ hinv h' bs (n + lb) (f + lf) /\ later h h'
    end.

  Ltac one_alloc V L :=
    match type of V with
    | hinv ?h ?bs ?n ?f =>
      match goal with
      | |- context [allocate ?d h] =>
        let k := fresh "k" in let h' := fresh "h" in let E := fresh "E" in let V' := fresh "V" in let L' := fresh "L" in
        destruct (hinv_alloc h bs n f d V) as (k & h' & E & V' & L'); rewrite E; clear E V;
        rename V' into V; pose proof (later_trans _ _ _ L L') as L''; clear L L'; rename L'' into L
      end
    end.
  Ltac one_open V L :=
    match type of V with
    | hinv ?h ?bs ?n ?f =>
      let h' := fresh "h" in let E := fresh "E" in let V' := fresh "V" in let L' := fresh "L" in
      destruct (hinv_open h bs n f V) as (h' & E & V' & L'); rewrite E; clear E V;
      rename V' into V; pose proof (later_trans _ _ _ L L') as L''; clear L L'; rename L'' into L
    end.
  Ltac one_close V L :=
    match type of V with
    | hinv ?h ?bs ?n (S ?f) =>
      match goal with
      | |- context [closeFile true ?c h] =>
        let h' := fresh "h" in let E := fresh "E" in let V' := fresh "V" in let L' := fresh "L" in
        destruct (hinv_close h bs n f c V) as (h' & E & V' & L'); rewrite E; clear E V;
        rename V' into V; pose proof (later_trans _ _ _ L L') as L''; clear L L'; rename L'' into L
      end
    end.
  Ltac one_read V :=
    match type of V with
    | hinv ?h ?bs ?n ?f =>
      match goal with
      | |- context [read (alloc_box ?k) h] =>
        let E := fresh "E" in
        eassert (E : read (alloc_box k) h = Done _ h) by
          (eapply hinv_read; [exact V|]; repeat first [left; reflexivity | right]);
        rewrite E; clear E
      end
    end.
  Ltac one_final V L :=
    match type of V with
    | hinv ?h ?bs ?n ?f =>
      match goal with
      | |- context [finalize strict (alloc_box ?k) h] =>
        let h' := fresh "h" in let E := fresh "E" in let V' := fresh "V" in let L' := fresh "L" in let P := fresh "P" in
        eassert (P : Permutation bs ((k, _) :: _)) by bring;
        destruct (hinv_final strict h bs n f k _ _ V P) as (h' & E & V' & L' & _); rewrite E; clear E V P;
        rename V' into V; pose proof (later_trans _ _ _ L L') as L''; clear L L'; rename L'' into L
      end
    end.
  Ltac onestep V L :=
    cbn [loadHDF stored]; unfold bind; cbn [ret throw resize bx_status empty_box fst snd negb andb];
    first [one_alloc V L | one_open V L | one_close V L | one_read V | one_final V L].

  Ltac threw V L :=
    eexists; split; [reflexivity|]; split; [|exact L];
    repeat apply hinv_drop in V; eapply hinv_cast; [exact V|lia|lia].

  Ltac objects V L ob ks :=
    unfold ret; exists ob; eexists; exists ks; split; [reflexivity|];
    repeat (split; [reflexivity|]); split; [|exact L];
    eapply hinv_cast; [eapply hinv_perm; [|exact V]; simpl; perm|simpl; lia|simpl; lia].

  Lemma makes_average : forall early nan p r g,
    makes (photon_average early nan p r g) (made to_log acceptable (CPhotonAverage early nan p r g))
      (lost_blocks to_log acceptable (CPhotonAverage early nan p r g)) 0.
  Proof.
    intros early nan p r g h bs n f V. pose proof (later_refl h) as L. simpl. destruct early.
    - threw V L.
    - simpl. unfold photon_average, bind.
      repeat onestep V L.
      destruct nan; [threw V L|].
      objects V L (PhotonMean (alloc_box k0) (alloc_box k1) (alloc_box k)) [k0; k1; k].
  Qed.
  Lemma makes_nu_average : forall nan p r,
    makes (neutrino_average nan p r) (made to_log acceptable (CNeutrinoAverage nan p r))
      (lost_blocks to_log acceptable (CNeutrinoAverage nan p r)) 0.
  Proof.
    intros nan p r h bs n f V. pose proof (later_refl h) as L. simpl. unfold neutrino_average, bind.
    repeat onestep V L. destruct nan; [threw V L|].
    objects V L (NeutrinoMean (alloc_box k) (alloc_box k0)) [k; k0].
  Qed.
  Lemma makes_tabulate : forall a j J Y,
    makes (tabulate a j J Y) (made to_log acceptable (CTabulate a j J Y)) 0 0.
  Proof.
    intros a j J Y h bs n f V. pose proof (later_refl h) as L. simpl. unfold tabulate, bind.
    repeat onestep V L.
    objects V L (Tabulated (alloc_box k) (alloc_box k0) (alloc_box k1) (alloc_box k2)) [k; k0; k1; k2].
  Qed.
  Lemma makes_nulib : forall x,
    makes (nulib_file x) (made to_log acceptable (CNuLib x)) (lost_blocks to_log acceptable (CNuLib x)) (lost_files (CNuLib x)).
  Proof.
    intros [o c he em op jn ka [[[a j] J] Y]] h bs n f V. pose proof (later_refl h) as L. simpl. unfold nulib_file, bind.
    cbn [nl_open nl_close nl_header nl_emissivities nl_opacities nl_jnu nl_kappa nl_tables].
    destruct o.
    2: { simpl. threw V L. }
    onestep V L. destruct he; [|simpl; threw V L].
    onestep V L. destruct em; [|simpl; threw V L].
    onestep V L. destruct op; [|simpl; threw V L].
    onestep V L. destruct c; [|simpl; threw V L].
    do 6 onestep V L.
    unfold ret. exists (Tabulated (alloc_box k1) (alloc_box k2) (alloc_box k3) (alloc_box k4)); eexists; exists [k1; k2; k3; k4].
    split; [reflexivity|]. repeat (split; [reflexivity|]). split; [|exact L].
    assert (W : hinv h7 ((k, jn) :: (k0, ka) :: (k1, a) :: (k2, j) :: (k3, J) :: (k4, Y) :: bs) n f)
      by (eapply hinv_perm; [|exact V]; perm).
    apply hinv_drop, hinv_drop in W. eapply hinv_cast; [exact W|simpl; lia|simpl; lia].
  Qed.
  Lemma makes_nu_file : forall x,
    makes (neutrino_file x) (made to_log acceptable (CNeutrinoFile x)) (lost_blocks to_log acceptable (CNeutrinoFile x)) 0.
  Proof.
    intros [o c data] h bs n f V. pose proof (later_refl h) as L. unfold neutrino_file, bind, made, lost_blocks, made, datasets, readable.
    cbn [fl_open fl_close fl_data seq map all filter].
    destruct o.
    2: { simpl. threw V L. }
    onestep V L. cbn [stored fl_data fl_open fl_close].
    destruct (data 0) as [d0|]; destruct (data 1) as [d1|]; repeat onestep V L; destruct c; simpl; try (threw V L).
    objects V L (NeutrinoMean (alloc_box k) (alloc_box k0)) [k; k0].
  Qed.
  Lemma makes_spiner_file : forall x,
    makes (spiner_file x) (made to_log acceptable (CSpinerFile x)) (lost_blocks to_log acceptable (CSpinerFile x)) 0.
  Proof.
    intros [o c data] h bs n f V. pose proof (later_refl h) as L. unfold spiner_file, bind, made, lost_blocks, made, datasets, readable.
    cbn [fl_open fl_close fl_data seq map all filter].
    destruct o.
    2: { simpl. threw V L. }
    onestep V L. cbn [stored fl_data fl_open fl_close].
    destruct (data 0) as [d0|]; destruct (data 1) as [d1|]; destruct (data 2) as [d2|]; destruct (data 3) as [d3|];
      repeat onestep V L; destruct c; simpl; try (threw V L).
    objects V L (Tabulated (alloc_box k) (alloc_box k0) (alloc_box k1) (alloc_box k2)) [k; k0; k1; k2].
  Qed.
  Lemma makes_photon_file : forall x,
    makes (photon_file to_log acceptable strict x) (made to_log acceptable (CPhotonFile x)) (lost_blocks to_log acceptable (CPhotonFile x)) 0.
  Proof.
    intros [o c data] h bs n f V. pose proof (later_refl h) as L.
    unfold photon_file, photon_tables, bind, made, lost_blocks, made, datasets, readable.
    cbn [fl_open fl_close fl_data seq map all filter].
    destruct o.
    2: { simpl. threw V L. }
    onestep V L. cbn [stored fl_data fl_open fl_close].
    destruct (data 0) as [d0|]; destruct (data 1) as [d1|]; destruct (data 2) as [d2|];
      repeat onestep V L; destruct c; try solve [simpl; threw V L].
    cbn [negb andb fst snd]. repeat onestep V L. unfold photon_of.
    destruct (acceptable d0 d1 d2); cbn [negb]; [|simpl; threw V L].
    repeat onestep V L.
    objects V L (PhotonMean (alloc_box k3) (alloc_box k4) (alloc_box k2)) [k3; k4; k2].
  Qed.
  Lemma construct_makes : forall c,
    makes (construct to_log acceptable strict c) (made to_log acceptable c) (lost_blocks to_log acceptable c) (lost_files c).
  Proof.
    intros c. destruct c; cbn [construct].
    - intros h bs n f V. exists Analytic, h, []. repeat (split; [reflexivity|]). split; [|apply later_refl].
      eapply hinv_cast; [exact V|simpl; lia|simpl; lia].
    - apply makes_average.
    - apply makes_photon_file.
    - apply makes_nu_average.
    - apply makes_nu_file.
    - apply makes_tabulate.
    - apply makes_spiner_file.
    - apply makes_nulib.
    - intros h bs n f V. pose proof (later_refl h) as L. simpl. unfold bind. onestep V L.
      objects V L (Single (alloc_box k)) [k].
  Qed.

  (** ** Names *)
  Definition Ghost := list (nat * (nat * D)).
  Definition trel (G : Ghost) (h : heap) (born : nat) (t : Table D) (b : Box) : Prop :=
    match t with
    | Missing => b = empty_box
    | Lent d => exists k, b = {| bx_status := Unmanaged; bx_block := k |} /\ k < base /\ d = init k
    | Owned l d => l < born /\ exists k, b = alloc_box k /\ base <= k < hp_next h /\
        (In (l, (k, d)) G \/ (~ In l (map fst G) /\ hp_data h k = None))
    end.
  Definition vrel (G : Ghost) (h : heap) (born : nat) (v : Value D) (o : Obj) : Prop :=
    v_kind v = kind_of o /\ v_wrapped v = is_wrapped o /\ Forall2 (trel G h born) (v_tables v) (boxes o).
  Definition erel (G : Ghost) (h : heap) (born : nat) (env : nat -> option (Value D)) (e : Env) : Prop :=
    forall x, match env x, e x with
              | Some v, Some o => vrel G h born v o
              | None, None => True
              | _, _ => False
              end.
  Definition winv (h : heap) (e : Env) (w : World D) (G : Ghost) : Prop :=
    hinv h (map snd G) (w_lost w) (w_files w) /\ Permutation (map fst G) (w_alive w) /\ NoDup (map fst G) /\
    (forall l, In l (map fst G) -> l < w_born w) /\ erel G h (w_born w) (w_env w) e.

  Lemma member_In : forall l ls, member l ls = true <-> In l ls.
  Proof.
    intros l ls. unfold member. rewrite existsb_exists. split.
    - intros (x & H & E). apply Nat.eqb_eq in E. subst. exact H.
    - intros H. exists l. split; [exact H|apply Nat.eqb_refl].
  Qed.
  Lemma member_not : forall l ls, member l ls = false <-> ~ In l ls.
  Proof. intros l ls. rewrite <- member_In. destruct (member l ls); split; congruence. Qed.
  Lemma member_perm : forall l ls ls', Permutation ls ls' -> member l ls = member l ls'.
  Proof.
    intros l ls ls' P. destruct (member l ls') eqn:E.
    - apply member_In. apply member_In in E. apply (Permutation_in _ (Permutation_sym P)). exact E.
    - apply member_not. apply member_not in E. intros H. apply E. apply (Permutation_in _ P). exact H.
  Qed.
  Lemma in_ghost : forall (G : Ghost) l k d, In (l, (k, d)) G -> In l (map fst G).
  Proof. intros G l k d H. apply in_map_iff. exists (l, (k, d)). split; [reflexivity|exact H]. Qed.
  Lemma in_blocks : forall (G : Ghost) l k d, In (l, (k, d)) G -> In (k, d) (map snd G).
  Proof. intros G l k d H. apply in_map_iff. exists (l, (k, d)). split; [reflexivity|exact H]. Qed.
  Lemma ghost_unique : forall (G : Ghost) l b b', NoDup (map fst G) -> In (l, b) G -> In (l, b') G -> b = b'.
  Proof.
    intros G l b b' N. induction G as [|[l0 b0] G IH]; [intros []|].
    simpl in N. inversion N as [|? ? N1 N2]; subst. intros [H|H] [K|K].
    - congruence.
    - inversion H; subst. exfalso. apply N1. apply in_map_iff. exists (l, b'). split; [reflexivity|exact K].
    - inversion K; subst. exfalso. apply N1. apply in_map_iff. exists (l, b). split; [reflexivity|exact H].
    - apply IH; assumption.
  Qed.

  (** when relations survive a change of the storage *)
  Lemma trel_step : forall (G G' : Ghost) h h' born born' t b, later h h' -> born <= born' ->
    (forall l k d, In (l, (k, d)) G -> In (l, (k, d)) G' \/ (~ In l (map fst G') /\ hp_data h' k = None)) ->
    (forall l, In l (map fst G') -> l < born -> In l (map fst G)) ->
    trel G h born t b -> trel G' h' born' t b.
  Proof.
    intros G G' h h' born born' t b [L1 L2] B K N R. destruct t as [|d|l d]; simpl in *; [exact R|exact R|].
    destruct R as (Rl & k & -> & Rk & R). split; [lia|]. exists k. split; [reflexivity|]. split; [lia|].
    destruct R as [R|[R1 R2]].
    - apply K. exact R.
    - right. split; [intros H; apply R1; apply N; [exact H|exact Rl]|]. apply L2; [lia|exact R2].
  Qed.
  Lemma erel_step : forall (G G' : Ghost) h h' born born' env e, later h h' -> born <= born' ->
    (forall l k d, In (l, (k, d)) G -> In (l, (k, d)) G' \/ (~ In l (map fst G') /\ hp_data h' k = None)) ->
    (forall l, In l (map fst G') -> l < born -> In l (map fst G)) ->
    erel G h born env e -> erel G' h' born' env e.
  Proof.
    intros G G' h h' born born' env e L B K N R x. specialize (R x).
    destruct (env x) as [v|], (e x) as [o|]; try exact R. destruct R as (R1 & R2 & R3). split; [exact R1|]. split; [exact R2|].
    revert R3. generalize (boxes o). induction (v_tables v) as [|t ts IH]; intros bs F; inversion F; subst; constructor.
    - eapply trel_step; eassumption.
    - apply IH. assumption.
  Qed.
  Lemma erel_bind : forall (G : Ghost) h born env e x v o, erel G h born env e ->
    match v, o with Some v, Some o => vrel G h born v o | None, None => True | _, _ => False end ->
    erel G h born (fun y => if y =? x then v else env y) (bind_name e x o).
  Proof.
    intros G h born env e x v o R K y. unfold bind_name. destruct (y =? x); [|apply R].
    destruct v, o; auto.
  Qed.

  (** ** Reading *)
  Definition agrees (w : World D) (born : nat) (G : Ghost) : Prop :=
    forall l, l < born -> member l (w_alive w) = member l (map fst G).
  Lemma perm_agrees : forall w born (G : Ghost), Permutation (map fst G) (w_alive w) -> agrees w born G.
  Proof. intros w born G P l _. symmetry. apply member_perm. exact P. Qed.
  Lemma read_rel : forall (G : Ghost) h n f born w t b, hinv h (map snd G) n f -> agrees w born G ->
    trel G h born t b ->
    read b h = match content w t with Some d => Done d h | None => Invalid end.
  Proof.
    intros G h n f born w t b V P R. destruct t as [|d|l d]; simpl in R.
    - subst b. reflexivity.
    - destruct R as (k & -> & Hk & ->). destruct V as (_ & _ & _ & C & _). unfold read. simpl. rewrite (C k Hk).
      destruct (init k); reflexivity.
    - destruct R as (Hl & k & -> & _ & [R|[R1 R2]]); unfold read; simpl; rewrite (P l Hl).
      + rewrite (proj2 (member_In l (map fst G)) (in_ghost _ _ _ _ R)).
        destruct V as (_ & I & _). rewrite (proj1 (I _ _ (in_blocks _ _ _ _ R))). reflexivity.
      + rewrite (proj2 (member_not l (map fst G)) R1). rewrite R2. reflexivity.
  Qed.
  Lemma read_all_rel : forall (G : Ghost) h n f born w, hinv h (map snd G) n f -> agrees w born G ->
    forall ts bs, Forall2 (trel G h born) ts bs ->
    read_all bs h = match contents w ts with Some ds => Done ds h | None => Invalid end.
  Proof.
    intros G h n f born w V P ts bs F. induction F as [|t b ts bs R F IH]; [reflexivity|].
    cbn [read_all]. unfold bind. rewrite (read_rel _ _ _ _ _ _ _ _ V P R). unfold contents. cbn [map all].
    destruct (content w t) as [d|]; [|reflexivity]. rewrite IH. unfold contents.
    destruct (all (map (content w) ts)); reflexivity.
  Qed.
  Lemma observe_boxes : forall o (h : heap), Observe o h = read_all (boxes o) h.
  Proof. induction o; intros h; try reflexivity. apply IHo. Qed.

  (** ** GetOnDevice *)
  Fixpoint device_all (bs : list Box) : St D (list Box) :=
    match bs with
    | [] => ret []
    | b :: bs => bind (getOnDevice b) (fun b => bind (device_all bs) (fun bs => ret (b :: bs)))
    end.
  Fixpoint rebuild (o : Obj) (bs : list Box) : Obj :=
    match o, bs with
    | PhotonMean _ _ _, [p; r; g] => PhotonMean p r g
    | NeutrinoMean _ _, [p; r] => NeutrinoMean p r
    | Tabulated _ _ _ _, [a; j; J; Y] => Tabulated a j J Y
    | Single _, [b] => Single b
    | Wrapper o, bs => Wrapper (rebuild o bs)
    | o, _ => o
    end.
  Ltac each_box :=
    repeat match goal with
           | |- context [match ?m ?h with Done _ _ => _ | Threw _ => _ | Invalid => _ end] =>
             lazymatch m with
             | getOnDevice _ => destruct (m h)
             | finalize _ _ => destruct (m h)
             end; try reflexivity
           end.
  Lemma device_boxes : forall o (h : heap),
    GetOnDevice o h = bind (device_all (boxes o)) (fun bs => ret (rebuild o bs)) h.
  Proof.
    induction o; intros h; try (cbn [GetOnDevice boxes device_all]; unfold bind, ret; each_box; reflexivity).
    cbn [GetOnDevice boxes rebuild]. unfold bind at 1. rewrite IHo. unfold bind, ret.
    destruct (device_all (boxes o) h); reflexivity.
  Qed.
  Lemma rebuild_boxes : forall o bs, length bs = length (boxes o) ->
    boxes (rebuild o bs) = bs /\ kind_of (rebuild o bs) = kind_of o /\ is_wrapped (rebuild o bs) = is_wrapped o.
  Proof.
    induction o as [ | | | | | o IH]; intros bs H.
    6: { cbn [rebuild boxes kind_of is_wrapped]. destruct (IH bs H) as (A & B & C). split; [exact A|split; [exact B|reflexivity]]. }
    all: cbn [boxes length] in H; do 5 (try (destruct bs as [|? bs]; try discriminate H));
      split; [reflexivity|split; reflexivity].
  Qed.

  Definition newrel (G : Ghost) (t : Table D) (b : Box) : Prop :=
    match t with
    | Missing => b = empty_box
    | Lent _ => False
    | Owned l d => exists k, b = alloc_box k /\ In (l, (k, d)) G
    end.
  Lemma newrel_more : forall (G G' : Ghost) t b, (forall x, In x G -> In x G') -> newrel G t b -> newrel G' t b.
  Proof. intros G G' t b K R. destruct t; try exact R. destruct R as (k & E & I). exists k. split; [exact E|apply K; exact I]. Qed.

  Lemma dup_content : forall (w : World D) m t ts, t <> Missing ->
    duplicate w m (t :: ts) = match content w t, duplicate w (S m) ts with
                              | Some d, Some (k, us) => Some (S k, Owned m d :: us)
                              | _, _ => None
                              end.
  Proof. intros w m t ts H. destruct t; [congruence|reflexivity|reflexivity]. Qed.
  Lemma device_read : forall b (h : heap), bx_status b <> Empty ->
    getOnDevice b h = match read b h with Done d h => allocate d h | Threw h => Threw h | Invalid => Invalid end.
  Proof. intros b h H. unfold getOnDevice, bind. destruct (bx_status b); [congruence|reflexivity|reflexivity]. Qed.
  Lemma trel_status : forall (G : Ghost) h born t b, trel G h born t b -> t <> Missing -> bx_status b <> Empty.
  Proof.
    intros G h born t b R H. destruct t as [|d|l d]; [congruence| |]; simpl in R.
    - destruct R as (k & -> & _). discriminate.
    - destruct R as (_ & k & -> & _). discriminate.
  Qed.

  Lemma device_all_rel : forall w n f born ts bs h (G : Ghost) m,
    hinv h (map snd G) n f -> agrees w born G -> born <= m -> Forall2 (trel G h born) ts bs ->
    match duplicate w m ts with
    | Some (k, us) => exists bs' h' G', device_all bs h = Done bs' h' /\ hinv h' (map snd (G' ++ G)) n f /\
        Permutation (map fst G') (seq m k) /\ later h h' /\ Forall2 (newrel G') us bs' /\ length bs' = length bs
    | None => device_all bs h = Invalid
    end.
  Proof.
    intros w n f born. induction ts as [|t ts IH]; intros bs h G m V A B F.
    - inversion F; subst. simpl. exists [], h, []. split; [reflexivity|]. split; [exact V|]. split; [apply Permutation_refl|].
      split; [apply later_refl|]. split; [constructor|reflexivity].
    - inversion F as [|? b ? bs0 R F0]; subst.
      destruct (match t with Missing => true | _ => false end) eqn:Et.
      + destruct t; try discriminate Et. simpl in R. subst b. cbn [duplicate device_all]. cbn [getOnDevice bx_status empty_box].
        unfold bind, ret. specialize (IH bs0 h G m V A B F0).
        destruct (duplicate w m ts) as [[k us]|].
        * destruct IH as (bs' & h' & G' & E & V' & P & L & N & Le). rewrite E. exists (empty_box :: bs'), h', G'.
          split; [reflexivity|]. split; [exact V'|]. split; [exact P|]. split; [exact L|]. split; [|simpl; congruence].
          constructor; [reflexivity|exact N].
        * rewrite IH. reflexivity.
      + assert (Ht : t <> Missing) by (intros ->; discriminate).
        rewrite dup_content by exact Ht.
        assert (Ed : device_all (b :: bs0) h = match content w t with
                     | Some d => match allocate d h with
                                 | Done a h => bind (device_all bs0) (fun bs => ret (a :: bs)) h
                                 | Threw h => Threw h
                                 | Invalid => Invalid
                                 end
                     | None => Invalid
                     end).
        { cbn [device_all]. unfold bind at 1. rewrite (device_read b h (trel_status _ _ _ _ _ R Ht)).
          rewrite (read_rel _ _ _ _ _ _ _ _ V A R). destruct (content w t); reflexivity. }
        rewrite Ed. clear Ed.
        destruct (content w t) as [d|]; [|reflexivity].
        destruct (hinv_alloc _ _ _ _ d V) as (k & h1 & E & V1 & L1). rewrite E.
        assert (A1 : agrees w born ((m, (k, d)) :: G)).
        { intros l Hl. rewrite (A l Hl). simpl. destruct (Nat.eqb_spec l m); [lia|reflexivity]. }
        assert (F1 : Forall2 (trel ((m, (k, d)) :: G) h1 born) ts bs0).
        { clear - F0 L1 B. induction F0 as [|t b ts bs R F IH]; constructor; [|exact IH].
          eapply trel_step; [exact L1|apply le_n| | |exact R].
          - intros l k' d' H. left. right. exact H.
          - intros l [H|H] Hl; [simpl in H; lia|exact H]. }
        specialize (IH bs0 h1 ((m, (k, d)) :: G) (S m) V1 A1 ltac:(lia) F1).
        destruct (duplicate w (S m) ts) as [[kk us]|].
        * destruct IH as (bs' & h' & G' & E' & V' & P & L & N & Le). unfold bind. rewrite E'.
          exists (alloc_box k :: bs'), h', ((m, (k, d)) :: G'). split; [reflexivity|]. split; [|split; [|split; [|split]]].
          -- eapply hinv_perm; [|exact V']. rewrite map_app. cbn [map snd]. rewrite <- app_comm_cons. cbn [map snd]. rewrite map_app.
             apply Permutation_sym, Permutation_middle.
          -- simpl. apply perm_skip. exact P.
          -- eapply later_trans; eassumption.
          -- constructor.
             ++ exists k. split; [reflexivity|left; reflexivity].
             ++ clear - N. induction N; constructor; [|assumption]. eapply newrel_more; [|eassumption]. intros z Hz. right. exact Hz.
          -- simpl. congruence.
        * unfold bind. rewrite IH. reflexivity.
  Qed.

  (** ** Finalize *)
  Fixpoint final_all (bs : list Box) : St D (list Box) :=
    match bs with
    | [] => ret []
    | b :: bs => bind (finalize strict b) (fun b => bind (final_all bs) (fun bs => ret (b :: bs)))
    end.
  Lemma final_boxes : forall o (h : heap),
    Finalize strict o h = bind (final_all (boxes o)) (fun bs => ret (rebuild o bs)) h.
  Proof.
    induction o; intros h; try (cbn [Finalize boxes final_all]; unfold bind, ret; each_box; reflexivity).
    cbn [Finalize boxes rebuild]. unfold bind at 1. rewrite IHo. unfold bind, ret.
    destruct (final_all (boxes o) h); reflexivity.
  Qed.
  Definition may_end (A : list nat) (ts : list (Table D)) : bool :=
    forallb (fun l => member l A) (lives ts) && distinct (lives ts) && (negb strict || forallb owns ts).
  Lemma may_end_owned : forall A A' l d ts, (forall x, member x A' = member x A && negb (x =? l)) ->
    may_end A (Owned l d :: ts) = member l A && may_end A' ts.
  Proof.
    intros A A' l d ts H. unfold may_end. cbn [lives flat_map app forallb distinct owns].
    fold (lives ts).
    assert (E : forallb (fun x => member x A') (lives ts) = forallb (fun x => member x A) (lives ts) && negb (member l (lives ts))).
    { induction (lives ts) as [|x ls IH]; [reflexivity|]. cbn [forallb]. rewrite IH, H.
      change (member l (x :: ls)) with ((l =? x) || member l ls). rewrite (Nat.eqb_sym l x). destruct (member x A), (x =? l), (member l ls), (forallb (fun x0 => member x0 A) ls); reflexivity. }
    rewrite E. destruct (member l A), (member l (lives ts)), (distinct (lives ts)), (forallb (fun x => member x A) (lives ts)), strict, (forallb owns ts); reflexivity.
  Qed.
  Lemma may_end_other : forall A t ts, owns t = false -> may_end A (t :: ts) = negb strict && may_end A ts.
  Proof.
    intros A t ts H. unfold may_end. destruct t; try discriminate H; cbn [lives flat_map app forallb owns]; fold (lives ts);
      destruct strict, (forallb (fun l => member l A) (lives ts)), (distinct (lives ts)), (forallb owns ts); reflexivity.
  Qed.
  Lemma ghost_split : forall (G : Ghost) l b, In (l, b) G -> exists G', Permutation G ((l, b) :: G').
  Proof. intros G l b H. apply in_split in H as (G1 & G2 & ->). exists (G1 ++ G2). apply Permutation_sym, Permutation_middle. Qed.

  Lemma final_all_rel : forall n f born ts bs h (G : Ghost),
    hinv h (map snd G) n f -> NoDup (map fst G) -> Forall2 (trel G h born) ts bs ->
    if may_end (map fst G) ts
    then exists bs' h' G', final_all bs h = Done bs' h' /\ hinv h' (map snd G') n f /\
      Permutation (map fst G) (lives ts ++ map fst G') /\ later h h' /\
      (forall l k d, In (l, (k, d)) G -> In (l, (k, d)) G' \/ (~ In l (map fst G') /\ hp_data h' k = None)) /\
      Forall2 (trel G' h' born) (map (fun _ => Missing) ts) bs' /\ length bs' = length bs
    else final_all bs h = Invalid.
  Proof.
    intros n f born. induction ts as [|t ts IH]; intros bs h G V N F.
    - inversion F; subst. unfold may_end. simpl. rewrite orb_true_r. exists [], h, G. split; [reflexivity|]. split; [exact V|].
      split; [apply Permutation_refl|]. split; [apply later_refl|]. split; [intros; left; assumption|]. split; [constructor|reflexivity].
    - inversion F as [|? b ? bs0 R F0]; subst. destruct (owns t) eqn:Et.
      + destruct t as [|d|l d]; try discriminate Et. simpl in R. destruct R as (Hl & k & -> & Hk & [R|[R1 R2]]).
        * destruct (ghost_split G l (k, d) R) as (G1 & P).
          assert (P1 : Permutation (map snd G) ((k, d) :: map snd G1)) by (apply (Permutation_map snd) in P; exact P).
          assert (P2 : Permutation (map fst G) (l :: map fst G1)) by (apply (Permutation_map fst) in P; exact P).
          assert (N1 : NoDup (l :: map fst G1)) by (apply (Permutation_NoDup P2); exact N).
          inversion N1 as [|? ? N2 N3]; subst.
          destruct (hinv_final strict _ _ _ _ _ _ _ V P1) as (h1 & E & V1 & L1 & K1).
          rewrite (may_end_owned (map fst G) (map fst G1) l d ts).
          2: { intros x. rewrite (member_perm x _ _ P2). unfold member at 2. cbn [existsb]. fold (member x (map fst G1)).
               destruct (Nat.eqb_spec x l) as [->|]; simpl; [|rewrite andb_true_r; reflexivity].
               apply member_not. exact N2. }
          rewrite (proj2 (member_In l (map fst G)) (in_ghost _ _ _ _ R)). cbn [andb].
          assert (K : forall l' k' d', In (l', (k', d')) G -> In (l', (k', d')) G1 \/ (~ In l' (map fst G1) /\ hp_data h1 k' = None)).
          { intros l' k' d' H. destruct (Nat.eq_dec l' l) as [->|Hne].
            - right. pose proof (ghost_unique _ _ _ _ N R H) as Q. inversion Q; subst. split; [exact N2|exact K1].
            - left. apply (Permutation_in _ P) in H. destruct H as [H|H]; [congruence|exact H]. }
          assert (F1 : Forall2 (trel G1 h1 born) ts bs0).
          { clear - F0 L1 K P2. induction F0 as [|t b ts bs R F IH]; constructor; [|exact IH].
            eapply trel_step; [exact L1|apply le_n|exact K| |exact R].
            intros x H _. apply (Permutation_in _ (Permutation_sym P2)). right. exact H. }
          specialize (IH bs0 h1 G1 V1 N3 F1). cbn [final_all]. unfold bind. rewrite E.
          destruct (may_end (map fst G1) ts).
          -- destruct IH as (bs' & h' & G' & E' & V' & P' & L' & K' & F' & Le). rewrite E'.
             exists (empty_box :: bs'), h', G'. split; [reflexivity|]. split; [exact V'|]. split; [|split; [|split; [|split]]].
             ++ cbn [lives flat_map app]. eapply perm_trans; [exact P2|]. apply perm_skip. exact P'.
             ++ eapply later_trans; eassumption.
             ++ intros l' k' d' H. pose proof (fun y => Permutation_in y (Permutation_sym P')) as Q.
                destruct (K l' k' d' H) as [K2|[K2 K3]]; [apply K'; exact K2|]. right.
                split; [intros Hin; apply K2; apply Q; apply in_or_app; right; exact Hin|].
                destruct V as (_ & I & _). destruct (I _ _ (in_blocks _ _ _ _ H)) as [_ Hb].
                apply L'; [destruct L1 as [L1 _]; lia|exact K3].
             ++ cbn [map]. constructor; [reflexivity|exact F'].
             ++ simpl. congruence.
          -- rewrite IH. reflexivity.
        * rewrite (may_end_owned (map fst G) (filter (fun x => negb (x =? l)) (map fst G)) l d ts).
          2: { intros x. destruct (member x (map fst G) && negb (x =? l)) eqn:Q.
               - apply andb_true_iff in Q as [Q1 Q2]. apply member_In, filter_In. split; [apply member_In; exact Q1|exact Q2].
               - apply member_not. intros H. apply filter_In in H as [H1 H2]. apply member_In in H1. rewrite H1, H2 in Q. discriminate. }
          rewrite (proj2 (member_not l (map fst G)) R1). cbn [andb final_all]. unfold bind, finalize. cbn [alloc_box bx_status bx_block].
          unfold bind, free. rewrite R2. reflexivity.
      + rewrite may_end_other by exact Et.
        assert (Es : finalize strict b h = if strict then @Invalid D Box else Done empty_box h).
        { destruct t as [|d|l d]; try discriminate Et; simpl in R.
          - subst b. unfold finalize. cbn [empty_box bx_status]. destruct strict; reflexivity.
          - destruct R as (k & -> & _). unfold finalize. cbn [bx_status]. destruct strict; reflexivity. }
        cbn [final_all]. unfold bind. rewrite Es. destruct strict; [reflexivity|]. cbn [negb andb].
        specialize (IH bs0 h G V N F0). unfold ret.
        destruct (may_end (map fst G) ts).
        * destruct IH as (bs' & h' & G' & E' & V' & P' & L' & K' & F' & Le). rewrite E'.
          exists (empty_box :: bs'), h', G'. split; [reflexivity|]. split; [exact V'|]. split; [|split; [exact L'|split; [exact K'|split]]].
          -- destruct t; try discriminate Et; exact P'.
          -- cbn [map]. constructor; [reflexivity|exact F'].
          -- simpl. congruence.
        * rewrite IH. reflexivity.
  Qed.

  (** ** Tables of the caller, and Save *)
  Lemma photon_tables_rel : forall (G : Ghost) h n f born w t1 t2 t3 b1 b2 b3, hinv h (map snd G) n f -> agrees w born G ->
    trel G h born t1 b1 -> trel G h born t2 b2 -> trel G h born t3 b3 ->
    match content w t1, content w t2, content w t3 with
    | Some p, Some r, Some g =>
      match photon_of to_log acceptable p r g with
      | Some ds => exists o h' ks, photon_tables to_log acceptable b1 b2 b3 h = Done o h' /\ kind_of o = KPhoton /\ is_wrapped o = false /\
          boxes o = map alloc_box ks /\ length ks = length ds /\ hinv h' (combine ks ds ++ map snd G) n f /\ later h h'
      | None => photon_tables to_log acceptable b1 b2 b3 h = Threw h
      end
    | _, _, _ => photon_tables to_log acceptable b1 b2 b3 h = Invalid
    end.
  Proof.
    intros G h n f born w t1 t2 t3 b1 b2 b3 V A R1 R2 R3. unfold photon_tables, bind.
    rewrite (read_rel _ _ _ _ _ _ _ _ V A R1). destruct (content w t1) as [p|]; [|reflexivity].
    rewrite (read_rel _ _ _ _ _ _ _ _ V A R2). destruct (content w t2) as [r|]; [|reflexivity].
    rewrite (read_rel _ _ _ _ _ _ _ _ V A R3). destruct (content w t3) as [g|]; [|reflexivity].
    unfold photon_of. destruct (acceptable p r g); [|reflexivity]. cbn [negb].
    pose proof (later_refl h) as L. repeat onestep V L.
    unfold ret. exists (PhotonMean (alloc_box k0) (alloc_box k1) (alloc_box k)). eexists. exists [k0; k1; k]. split; [reflexivity|].
    repeat (split; [reflexivity|]). split; [|exact L]. eapply hinv_perm; [|exact V]. simpl. perm.
  Qed.

  Lemma photon_save_rel : forall (G : Ghost) h n f born w t1 t2 t3 b1 b2 b3 cr cl wr, hinv h (map snd G) n f -> agrees w born G ->
    trel G h born t1 b1 -> trel G h born t2 b2 -> trel G h born t3 b3 ->
    match content w t1, content w t2, content w t3 with
    | Some p, Some r, Some g => exists h',
      photon_save from_log strict cr cl wr b1 b2 b3 h =
        (if cr && cl && wr then Done [from_log p; from_log r; g] h' else Threw h') /\
      hinv h' (map snd G) n f /\ later h h'
    | _, _, _ => photon_save from_log strict cr cl wr b1 b2 b3 h = Invalid
    end.
  Proof.
    intros G h n f born w t1 t2 t3 b1 b2 b3 cr cl wr V A R1 R2 R3. unfold photon_save, bind.
    rewrite (read_rel _ _ _ _ _ _ _ _ V A R1). destruct (content w t1) as [p|]; [|reflexivity].
    rewrite (read_rel _ _ _ _ _ _ _ _ V A R2). destruct (content w t2) as [r|]; [|reflexivity].
    pose proof (later_refl h) as L. do 2 onestep V L.
    assert (R3' : trel ((born, (k0, from_log r)) :: (born, (k, from_log p)) :: G) h1 born t3 b3).
    { eapply trel_step; [exact L|apply le_n| | |exact R3].
      - intros l j d H. left. right. right. exact H.
      - intros l [H|[H|H]] Hl; [simpl in H; lia|simpl in H; lia|exact H]. }
    assert (A' : agrees w born ((born, (k0, from_log r)) :: (born, (k, from_log p)) :: G)).
    { intros l Hl. rewrite (A l Hl). unfold member. cbn [map fst existsb]. destruct (Nat.eqb_spec l born); [lia|reflexivity]. }
    rewrite (read_rel ((born, (k0, from_log r)) :: (born, (k, from_log p)) :: G) h1 n f born w t3 b3 V A' R3').
    destruct (content w t3) as [g|]; [|reflexivity].
    onestep V L.
    destruct cr.
    - onestep V L. repeat onestep V L.
      cbn [andb]. destruct wr, cl; cbn [andb]; unfold ret, throw; eexists; (split; [reflexivity|]); split; try exact L; exact V.
    - cbn [openFile]. repeat onestep V L. cbn [closeFile]. repeat onestep V L.
      unfold ret, throw; eexists; (split; [reflexivity|]); split; try exact L; exact V.
  Qed.
  Lemma plain_save_rel : forall (G : Ghost) h n f born w ts bs cr cl wr, hinv h (map snd G) n f -> agrees w born G ->
    Forall2 (trel G h born) ts bs ->
    match contents w ts with
    | Some ds => exists h', plain_save cr cl wr bs h = (if cr && cl && wr then Done ds h' else Threw h') /\
      hinv h' (map snd G) n f /\ later h h'
    | None => plain_save cr cl wr bs h = Invalid
    end.
  Proof.
    intros G h n f born w ts bs cr cl wr V A F. unfold plain_save, bind. pose proof (later_refl h) as L. destruct cr.
    - onestep V L.
      assert (F' : Forall2 (trel G h0 born) ts bs).
      { clear - F L. induction F; constructor; [|assumption]. eapply trel_step; [exact L|apply le_n| | |eassumption]; auto. }
      rewrite (read_all_rel _ _ _ _ _ _ V A _ _ F'). destruct (contents w ts) as [ds|]; [|reflexivity].
      onestep V L. destruct wr, cl; cbn [andb]; unfold ret, throw; eexists; (split; [reflexivity|]); split; try exact L; exact V.
    - cbn [openFile]. rewrite (read_all_rel _ _ _ _ _ _ V A _ _ F). destruct (contents w ts) as [ds|]; [|reflexivity].
      cbn [closeFile andb]. unfold throw. eexists; (split; [reflexivity|]); split; try exact L; exact V.
  Qed.

  Lemma NoDup_app_intro : forall {A} (l r : list A), NoDup l -> NoDup r -> (forall x, In x l -> In x r -> False) -> NoDup (l ++ r).
  Proof.
    induction l as [|a l IH]; intros r Nl Nr K; [exact Nr|]. inversion Nl as [|? ? N1 N2]; subst. simpl. constructor.
    - intros H. apply in_app_or in H as [H|H]; [contradiction|]. apply (K a); [left; reflexivity|exact H].
    - apply IH; [exact N2|exact Nr|]. intros x H1 H2. apply (K x); [right; exact H1|exact H2].
  Qed.
  Lemma NoDup_app_right : forall {A} (l r : list A), NoDup (l ++ r) -> NoDup r.
  Proof. induction l as [|a l IH]; intros r H; [exact H|]. apply IH. inversion H; assumption. Qed.

  (** ** Commands *)
  Lemma winv_extend : forall h h' e w (G G' : Ghost) k us bs x v o a b,
    winv h e w G -> hinv h' (map snd (G' ++ G)) (w_lost w + a) (w_files w + b) ->
    Permutation (map fst G') (seq (w_born w) k) -> later h h' -> Forall2 (newrel G') us bs ->
    v_kind v = kind_of o -> v_wrapped v = is_wrapped o -> v_tables v = us -> boxes o = bs ->
    winv h' (bind_name e x (Some o)) (lose (name (bear w k) x (Some v)) a b) (G' ++ G).
  Proof.
    intros h h' e w G G' k us bs x v o a b (V & P & N & B & R) V' P' L F Ek Ew Et Eb.
    assert (Q : Permutation (map fst (G' ++ G)) (seq (w_born w) k ++ w_alive w)).
    { rewrite map_app. apply Permutation_app; assumption. }
    assert (Bd : forall l, In l (map fst (G' ++ G)) -> l < w_born w + k).
    { intros l H. rewrite map_app in H. apply in_app_or in H as [H|H].
      - apply (Permutation_in _ P') in H. apply in_seq in H. lia.
      - apply B in H. lia. }
    split; [exact V'|]. split; [exact Q|]. split; [|split; [exact Bd|]].
    - rewrite map_app. apply NoDup_app_intro.
      + apply (Permutation_NoDup (Permutation_sym P')). apply seq_NoDup.
      + exact N.
      + intros l H1 H2. apply (Permutation_in _ P') in H1. apply in_seq in H1. apply B in H2. lia.
    - cbn [w_born w_env lose name bear]. apply erel_bind.
      + refine (erel_step G _ h h' (w_born w) _ _ _ L _ _ _ R); [lia| |].
        * intros l j d H. left. apply in_or_app. right. exact H.
        * intros l H Hl. rewrite map_app in H. apply in_app_or in H as [H|H]; [|exact H].
          apply (Permutation_in _ P') in H. apply in_seq in H. lia.
      + split; [exact Ek|]. split; [exact Ew|]. rewrite Et, Eb. clear - F V' Bd.
        induction F as [|t c us bs R F IH]; constructor; [|exact IH].
        destruct t as [|d|l d]; simpl in R |- *; [exact R|contradiction|].
        destruct R as (j & -> & R). assert (I : In (l, (j, d)) (G' ++ G)) by (apply in_or_app; left; exact R).
        split; [apply Bd; apply (in_ghost _ _ _ _ I)|]. exists j. split; [reflexivity|].
        destruct V' as (_ & I' & _). split; [apply (I' _ _ (in_blocks _ _ _ _ I))|]. left. exact I.
  Qed.
  Lemma winv_same : forall h h' e w (G : Ghost), winv h e w G -> hinv h' (map snd G) (w_lost w) (w_files w) -> later h h' ->
    winv h' e w G.
  Proof.
    intros h h' e w G (V & P & N & B & R) V' L. split; [exact V'|]. split; [exact P|]. split; [exact N|]. split; [exact B|].
    eapply erel_step; [exact L|apply le_n| | |exact R]; auto.
  Qed.
  Lemma winv_name : forall h e w (G : Ghost) x v o, winv h e w G ->
    match v, o with Some v, Some o => vrel G h (w_born w) v o | None, None => True | _, _ => False end ->
    winv h (bind_name e x o) (name w x v) G.
  Proof.
    intros h e w G x v o (V & P & N & B & R) K. split; [exact V|]. split; [exact P|]. split; [exact N|]. split; [exact B|].
    cbn [w_born w_env name]. apply erel_bind; assumption.
  Qed.
  Lemma winv_lose : forall h e w (G : Ghost) a b, winv h e w G -> hinv h (map snd G) (w_lost w + a) (w_files w + b) ->
    winv h e (lose w a b) G.
  Proof. intros h e w G a b (V & P & N & B & R) V'. split; [exact V'|]. repeat (split; [assumption|]). exact R. Qed.
  Lemma winv_lose0 : forall h e w (G : Ghost), winv h e (lose w 0 0) G -> winv h e w G.
  Proof.
    intros h e w G (V & P & N & B & R). split; [|repeat (split; [assumption|]); exact R].
    eapply hinv_cast; [exact V|simpl; lia|simpl; lia].
  Qed.

  Lemma combine_fst : forall {A B} (l : list A) (r : list B), length l = length r -> map fst (combine l r) = l.
  Proof. induction l; intros [|b r] H; try discriminate H; [reflexivity|]. simpl. rewrite IHl by (simpl in H; congruence). reflexivity. Qed.
  Lemma combine_snd : forall {A B} (l : list A) (r : list B), length l = length r -> map snd (combine l r) = r.
  Proof. induction l; intros [|b r] H; try discriminate H; [reflexivity|]. simpl. rewrite IHl by (simpl in H; congruence). reflexivity. Qed.
  Lemma owned_rel : forall ds m ks, length ks = length ds ->
    Forall2 (newrel (combine (seq m (length ds)) (combine ks ds))) (owned m ds) (map alloc_box ks).
  Proof.
    induction ds as [|d ds IH]; intros m [|k ks] H; try discriminate H; [constructor|].
    cbn [length seq combine owned map]. constructor.
    - exists k. split; [reflexivity|left; reflexivity].
    - specialize (IH (S m) ks ltac:(simpl in H; congruence)). clear - IH. induction IH; constructor; [|assumption].
      eapply newrel_more; [|eassumption]. intros z Hz. right. exact Hz.
  Qed.

  Lemma try_make_rel : forall m md lb lf h e w (G : Ghost) x, winv h e w G ->
    match md with
    | Some (k, ds) => exists o h' ks, m h = Done o h' /\ kind_of o = k /\ is_wrapped o = false /\
        boxes o = map alloc_box ks /\ length ks = length ds /\
        hinv h' (combine ks ds ++ map snd G) (w_lost w + lb) (w_files w + lf) /\ later h h'
    | None => exists h', m h = Threw h' /\ hinv h' (map snd G) (w_lost w + lb) (w_files w + lf) /\ later h h'
    end ->
    exists e' h' G', try_make e x m h = Done (e', snd (create w x md)) h' /\
      winv h' e' (lose (fst (create w x md)) lb lf) G'.
  Proof.
    intros m md lb lf h e w G x W K. destruct md as [[k ds]|].
    - destruct K as (o & h' & ks & E & Ek & Ew & Eb & El & V & L). unfold try_make. rewrite E.
      eexists _, h', (combine (seq (w_born w) (length ds)) (combine ks ds) ++ G). split; [reflexivity|].
      assert (Lc : length (seq (w_born w) (length ds)) = length (combine ks ds)).
      { rewrite seq_length, combine_length, El, Nat.min_id. reflexivity. }
      cbn [create fst]. eapply winv_extend; try eassumption; cbn [v_kind v_wrapped v_tables]; auto.
      + rewrite map_app, combine_snd by exact Lc. exact V.
      + rewrite combine_fst by exact Lc. apply Permutation_refl.
      + apply owned_rel. exact El.
    - destruct K as (h' & E & V & L). unfold try_make. rewrite E. eexists _, h', G. split; [reflexivity|].
      cbn [create fst]. destruct W as (V0 & P & N & B & R).
      assert (R' : erel G h' (w_born w) (w_env w) e) by (eapply erel_step; [exact L|apply le_n| | |exact R]; auto).
      split; [exact V|]. split; [exact P|]. split; [exact N|]. split; [exact B|].
      cbn [w_born w_env name lose]. apply erel_bind; [exact R'|exact I].
  Qed.

  Lemma lookup_rel : forall h e w (G : Ghost) x, winv h e w G ->
    match w_env w x with
    | Some v => exists o, lookup e x h = Done o h /\ vrel G h (w_born w) v o
    | None => lookup e x h = Invalid
    end.
  Proof.
    intros h e w G x (_ & _ & _ & _ & R). specialize (R x). unfold lookup.
    destruct (w_env w x) as [v|], (e x) as [o|]; try contradiction; [|reflexivity].
    exists o. split; [reflexivity|exact R].
  Qed.
  Lemma box_rel : forall h e w (G : Ghost) x, winv h e w G ->
    match box w x with
    | Some t => exists b, lookup_box e x h = Done b h /\ trel G h (w_born w) t b
    | None => lookup_box e x h = Invalid
    end.
  Proof.
    intros h e w G x W. pose proof (lookup_rel _ _ _ _ x W) as K. unfold box, lookup_box, bind.
    destruct (w_env w x) as [[k wr ts]|].
    - destruct K as (o & -> & Ek & Ew & F). cbn [v_kind v_wrapped v_tables] in *.
      destruct o as [|p r g|p r|a j J Y|b|o]; cbn [kind_of is_wrapped boxes box_of] in *; subst k wr; try reflexivity.
      + inversion F as [|t ? ? ? R F0]; subst. inversion F0; subst. exists b. split; [reflexivity|exact R].
      + destruct (kind_of o); reflexivity.
    - rewrite K. reflexivity.
  Qed.

  Definition the_caller : nat -> option (option D) := fun k => if k <? base then Some (init k) else None.

  Lemma exec_rel : forall h e w (G : Ghost) c, winv h e w G ->
    match step to_log from_log acceptable strict the_caller w c with
    | Some (w', ev) => exists e' h' G', exec to_log from_log acceptable strict base e c h = Done (e', ev) h' /\ winv h' e' w' G'
    | None => exec to_log from_log acceptable strict base e c h = Invalid
    end.
  Proof.
    intros h e w G c W. pose proof W as (V & P & N & B & R).
    pose proof (perm_agrees w (w_born w) G P) as A.
    destruct c as [x c|x k|x y1 y2 y3|x y1 y2 y3 y4|x y|x y|x y|x|x|x cr cl wr]; cbn [step exec].
    - (* Make *)
      destruct (try_make_rel (construct to_log acceptable strict c) (made to_log acceptable c)
                  (lost_blocks to_log acceptable c) (lost_files c) h e w G x W (construct_makes c h _ _ _ V)) as (e' & h' & G' & E & W').
      exists e', h', G'. split; [exact E|exact W'].
    - (* Borrow *)
      unfold the_caller. destruct (Nat.ltb_spec k base) as [Hk|Hk]; [|reflexivity].
      eexists _, h, G. split; [reflexivity|]. apply winv_name; [exact W|].
      split; [reflexivity|]. split; [reflexivity|]. constructor; [|constructor].
      exists k. split; [reflexivity|]. split; [exact Hk|reflexivity].
    - (* FromTables *)
      pose proof (box_rel _ _ _ _ y1 W) as K1. pose proof (box_rel _ _ _ _ y2 W) as K2. pose proof (box_rel _ _ _ _ y3 W) as K3.
      unfold bind. destruct (box w y1) as [t1|]; [|rewrite K1; reflexivity]. destruct K1 as (b1 & -> & R1).
      destruct (box w y2) as [t2|]; [|rewrite K2; reflexivity]. destruct K2 as (b2 & -> & R2).
      destruct (box w y3) as [t3|]; [|rewrite K3; reflexivity]. destruct K3 as (b3 & -> & R3).
      pose proof (photon_tables_rel _ _ _ _ _ _ _ _ _ _ _ _ V A R1 R2 R3) as Q.
      unfold contents. cbn [map all].
      assert (Inv : photon_tables to_log acceptable b1 b2 b3 h = Invalid -> try_make e x (photon_tables to_log acceptable b1 b2 b3) h = Invalid).
      { intros E. unfold try_make. rewrite E. reflexivity. }
      destruct (content w t1) as [p|]; [|apply Inv; exact Q].
      destruct (content w t2) as [r|]; [|apply Inv; exact Q].
      destruct (content w t3) as [g|]; [|apply Inv; exact Q]. clear Inv.
      destruct (photon_of to_log acceptable p r g) as [ds|].
      + destruct Q as (o & h' & ks & Q1 & Q2 & Q3 & Q4 & Q5 & Q6 & Q7).
        destruct (try_make_rel (photon_tables to_log acceptable b1 b2 b3) (Some (KPhoton, ds)) 0 0 h e w G x W) as (e' & h'' & G' & E & W').
        { exists o, h', ks. repeat (split; [assumption|]). split; [|exact Q7]. eapply hinv_cast; [exact Q6|lia|lia]. }
        exists e', h'', G'. split; [exact E|apply winv_lose0; exact W'].
      + destruct (try_make_rel (photon_tables to_log acceptable b1 b2 b3) None 0 0 h e w G x W) as (e' & h'' & G' & E & W').
        { exists h. split; [exact Q|]. split; [eapply hinv_cast; [exact V|lia|lia]|apply later_refl]. }
        exists e', h'', G'. split; [exact E|apply winv_lose0; exact W'].
    - (* FromBoxes *)
      pose proof (box_rel _ _ _ _ y1 W) as K1. pose proof (box_rel _ _ _ _ y2 W) as K2.
      pose proof (box_rel _ _ _ _ y3 W) as K3. pose proof (box_rel _ _ _ _ y4 W) as K4.
      unfold bind. destruct (box w y1) as [t1|]; [|rewrite K1; reflexivity]. destruct K1 as (b1 & -> & R1).
      destruct (box w y2) as [t2|]; [|rewrite K2; reflexivity]. destruct K2 as (b2 & -> & R2).
      destruct (box w y3) as [t3|]; [|rewrite K3; reflexivity]. destruct K3 as (b3 & -> & R3).
      destruct (box w y4) as [t4|]; [|rewrite K4; reflexivity]. destruct K4 as (b4 & -> & R4).
      eexists _, h, G. split; [reflexivity|]. apply winv_name; [exact W|].
      split; [reflexivity|]. split; [reflexivity|]. repeat constructor; assumption.
    - (* Copy *)
      pose proof (lookup_rel _ _ _ _ y W) as K. unfold bind. destruct (w_env w y) as [v|]; [|rewrite K; reflexivity].
      destruct K as (o & -> & K). eexists _, h, G. split; [reflexivity|]. apply winv_name; [exact W|exact K].
    - (* Wrap *)
      pose proof (lookup_rel _ _ _ _ y W) as K. unfold bind. destruct (w_env w y) as [v|]; [|rewrite K; reflexivity].
      destruct K as (o & -> & K). eexists _, h, G. split; [reflexivity|]. apply winv_name; [exact W|].
      destruct K as (K1 & K2 & K3). split; [exact K1|]. split; [reflexivity|exact K3].
    - (* Device *)
      pose proof (lookup_rel _ _ _ _ y W) as K. unfold bind. destruct (w_env w y) as [v|]; [|rewrite K; reflexivity].
      destruct K as (o & -> & K1 & K2 & K3).
      pose proof (device_all_rel w _ _ (w_born w) (v_tables v) (boxes o) h G (w_born w) V A (le_n _) K3) as Q.
      unfold try_make. rewrite device_boxes. unfold bind.
      destruct (duplicate w (w_born w) (v_tables v)) as [[k us]|]; [|rewrite Q; reflexivity].
      destruct Q as (bs' & h' & G' & -> & V' & P' & L & F & Le). unfold ret.
      destruct (rebuild_boxes o bs' Le) as (E1 & E2 & E3).
      eexists _, h', (G' ++ G). split; [reflexivity|]. apply winv_lose0.
      eapply winv_extend; try eassumption; cbn [v_kind v_wrapped v_tables]; try congruence.
      eapply hinv_cast; [exact V'|lia|lia].
    - (* Final *)
      pose proof (lookup_rel _ _ _ _ x W) as K. unfold bind. destruct (w_env w x) as [v|]; [|rewrite K; reflexivity].
      destruct K as (o & -> & K1 & K2 & K3). rewrite final_boxes. unfold bind.
      pose proof (final_all_rel _ _ (w_born w) (v_tables v) (boxes o) h G V N K3) as Q.
      assert (Em : finalizable strict w (v_tables v) = may_end (map fst G) (v_tables v)).
      { clear - P. unfold finalizable, may_end. f_equal. f_equal. induction (lives (v_tables v)) as [|l ls IH]; [reflexivity|].
        cbn [forallb]. rewrite IH, (member_perm l _ _ P). reflexivity. }
      rewrite Em. destruct (may_end (map fst G) (v_tables v)); [|rewrite Q; reflexivity].
      destruct Q as (bs' & h' & G' & -> & V' & P' & L & K & F & Le). unfold ret.
      destruct (rebuild_boxes o bs' Le) as (E1 & E2 & E3).
      eexists _, h', G'. split; [reflexivity|].
      assert (N' : NoDup (lives (v_tables v) ++ map fst G')) by (apply (Permutation_NoDup P'); exact N).
      assert (Sub : forall l, In l (map fst G') -> In l (map fst G)).
      { intros l H. apply (Permutation_in _ (Permutation_sym P')). apply in_or_app. right. exact H. }
      split; [exact V'|]. split; [|split; [|split]].
      + cbn [w_alive name bury]. apply NoDup_Permutation.
        * eapply NoDup_app_right. exact N'.
        * apply NoDup_filter. apply (Permutation_NoDup P). exact N.
        * intros l. rewrite filter_In. split.
          -- intros H. split; [apply (Permutation_in _ P); apply Sub; exact H|].
             apply negb_true_iff, member_not. intros H'. clear - N' H H'. induction (lives (v_tables v)) as [|a ls IH]; [contradiction|].
             simpl in N'. inversion N' as [|? ? N1 N2]; subst. destruct H' as [->|H']; [|apply IH; assumption].
             apply N1. apply in_or_app. right. exact H.
          -- intros [H1 H2]. apply negb_true_iff, member_not in H2. apply (Permutation_in _ (Permutation_sym P)) in H1.
             apply (Permutation_in _ P') in H1. apply in_app_or in H1 as [H1|H1]; [contradiction|exact H1].
      + eapply NoDup_app_right. exact N'.
      + intros l H. cbn [w_born name bury]. apply B. apply Sub. exact H.
      + cbn [w_born w_env name bury]. apply erel_bind.
        * eapply erel_step; [exact L|apply le_n|exact K| |exact R]. intros l H _. apply Sub. exact H.
        * split; [cbn [v_kind]; congruence|]. split; [cbn [v_wrapped]; congruence|]. cbn [v_tables]. rewrite E1. exact F.
    - (* Use *)
      pose proof (lookup_rel _ _ _ _ x W) as K. unfold bind. destruct (w_env w x) as [v|]; [|rewrite K; reflexivity].
      destruct K as (o & -> & K1 & K2 & K3). unfold try_values. rewrite observe_boxes, (read_all_rel _ _ _ _ _ _ V A _ _ K3).
      destruct (contents w (v_tables v)) as [ds|]; [|reflexivity]. exists e, h, G. split; [reflexivity|exact W].
    - (* Store *)
      pose proof (lookup_rel _ _ _ _ x W) as K. unfold bind. destruct (w_env w x) as [v|]; [|rewrite K; reflexivity].
      destruct K as (o & -> & K). unfold try_values.
      assert (Q : match saved from_log w v with
                  | Some ds => exists h', Save from_log strict cr cl wr o h = (if cr && cl && wr then Done ds h' else Threw h') /\
                      hinv h' (map snd G) (w_lost w) (w_files w) /\ later h h'
                  | None => Save from_log strict cr cl wr o h = Invalid
                  end).
      { destruct K as (K1 & K2 & K3). unfold saved. destruct v as [k wp ts]. cbn [v_kind v_wrapped v_tables] in *.
        revert wp K2. induction o as [|p r g|p r|a j J Y|b|o IH]; intros wp K2; cbn [kind_of is_wrapped boxes] in *; subst k wp.
        - reflexivity.
        - inversion K3 as [|t1 ? ts1 ? R1 K4]; subst. inversion K4 as [|t2 ? ts2 ? R2 K5]; subst. inversion K5 as [|t3 ? ts3 ? R3 K6]; subst.
          inversion K6; subst. pose proof (photon_save_rel _ _ _ _ _ _ _ _ _ _ _ _ cr cl wr V A R1 R2 R3) as Q.
          unfold contents. cbn [map all Save].
          destruct (content w t1) as [d1|], (content w t2) as [d2|], (content w t3) as [d3|]; exact Q.
        - pose proof (plain_save_rel _ _ _ _ _ _ _ _ cr cl wr V A K3) as Q. cbn [Save]. destruct (contents w ts); exact Q.
        - pose proof (plain_save_rel _ _ _ _ _ _ _ _ cr cl wr V A K3) as Q. cbn [Save]. destruct (contents w ts); exact Q.
        - destruct (contents w ts); reflexivity.
        - specialize (IH eq_refl K3).
          destruct o as [|p r g|p r|a j J Y|b|o'].
          + reflexivity.
          + apply (IH _ eq_refl).
          + apply (IH _ eq_refl).
          + reflexivity.
          + destruct (contents w ts); reflexivity.
          + apply (IH _ eq_refl). }
      destruct (saved from_log w v) as [ds|]; [|rewrite Q; reflexivity].
      destruct Q as (h' & -> & V' & L). exists e, h', G.
      destruct (cr && cl && wr); (split; [reflexivity|]); eapply winv_same; eassumption.
  Qed.
  Lemma execs_rel : forall cs h e w (G : Ghost), winv h e w G ->
    match steps to_log from_log acceptable strict the_caller w cs with
    | Some (w', evs) => exists e' h' G', execs to_log from_log acceptable strict base e cs h = Done (e', evs) h' /\ winv h' e' w' G'
    | None => execs to_log from_log acceptable strict base e cs h = Invalid
    end.
  Proof.
    induction cs as [|c cs IH]; intros h e w G W; cbn [steps execs].
    - exists e, h, G. split; [reflexivity|exact W].
    - pose proof (exec_rel _ _ _ _ c W) as Q. unfold bind.
      destruct (step to_log from_log acceptable strict the_caller w c) as [[w1 ev]|]; [|rewrite Q; reflexivity].
      destruct Q as (e1 & h1 & G1 & -> & W1). specialize (IH h1 e1 w1 G1 W1). cbn [fst].
      destruct (steps to_log from_log acceptable strict the_caller w1 cs) as [[w2 evs]|]; [|rewrite IH; reflexivity].
      destruct IH as (e2 & h2 & G2 & -> & W2). exists e2, h2, G2. split; [reflexivity|exact W2].
  Qed.
End Sim.
