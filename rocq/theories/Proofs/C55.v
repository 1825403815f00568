(** C55: opacities behave as values, and their storage is freed once. *)
From Coq Require Import List Arith Bool Permutation Lia.
From Verif Require Import Model.Lifetime Spec.Values Proofs.LifetimeSim.
Import ListNotations.

(** [CNuLib] is the constructor from a NuLib file *)
Definition reads_nulib {D} (c : Command D) : bool := match c with Make _ (CNuLib _) => true | _ => false end.

Section C55.
  Context {D : Type} (to_log from_log : D -> D) (acceptable : D -> D -> D -> bool) (strict : bool).
  Notation steps' h := (steps to_log from_log acceptable strict (caller_of h)).
  Notation run' := (run to_log from_log acceptable strict).

  Lemma start_inv : forall h : Heap D, settled h ->
    winv (hp_next h) (hp_data h) (in_use h) (hp_files h) h no_names start [].
  Proof.
    intros h S. split; [|split; [apply Permutation_refl|split; [constructor|split; [intros l []|intros x; exact I]]]].
    split; [constructor|]. split; [intros k d []|]. split; [exact S|]. split; [reflexivity|]. split; [apply le_n|].
    simpl. split; lia.
  Qed.
  Lemma run_steps : forall cs (h : Heap D), settled h ->
    match steps' h start cs with
    | Some (w, evs) => exists e h' G, run' cs h = Done (e, evs) h' /\
        winv (hp_next h) (hp_data h) (in_use h) (hp_files h) h' e w G
    | None => run' cs h = Invalid
    end.
  Proof. intros cs h S. apply (execs_rel _ _ _ _ _ _ _ _ cs h no_names start [] (start_inv h S)). Qed.

  Lemma values_gen : forall cs (h : Heap D) w evs, settled h -> steps' h start cs = Some (w, evs) ->
    exists e h', run' cs h = Done (e, evs) h' /\
      (forall k, k < hp_next h -> hp_data h' k = hp_data h k) /\ hp_next h <= hp_next h' /\ settled h' /\
      in_use h' = in_use h + length (w_alive w) + w_lost w /\
      hp_files h' = hp_files h + w_files w.
  Proof.
    intros cs h w evs S E. pose proof (run_steps cs h S) as Q. rewrite E in Q.
    destruct Q as (e & h' & G & R & V & P & _). exists e, h'. split; [exact R|].
    destruct V as (_ & _ & Z & C & B & U & F). split; [exact C|]. split; [exact B|]. split; [exact Z|]. split; [|exact F].
    rewrite U. rewrite map_length, <- (Permutation_length P), map_length. reflexivity.
  Qed.

  Lemma made_keeps : forall c k ds, made to_log acceptable c = Some (k, ds) -> (forall f, c <> CNuLib f) ->
    lost_blocks to_log acceptable c = 0 /\ lost_files c = 0.
  Proof.
    intros c k ds E N. destruct c; cbn [lost_blocks lost_files] in *; try (split; reflexivity);
      try (rewrite E; split; reflexivity).
    - simpl in E. destruct early, nan; try discriminate E; split; reflexivity.
    - simpl in E. destruct nan; try discriminate E; split; reflexivity.
    - exfalso. apply (N f). reflexivity.
  Qed.
  Lemma step_keeps : forall caller w c w' ev, step to_log from_log acceptable strict caller w c = Some (w', ev) ->
    reads_nulib c = false -> ev <> Exception -> w_lost w' = w_lost w /\ w_files w' = w_files w.
  Proof.
    intros caller w c w' ev E N X. destruct c as [x c|x k|x y1 y2 y3|x y1 y2 y3 y4|x y|x y|x y|x|x|x cr cl wr]; cbn [step] in E.
    - destruct (made to_log acceptable c) as [[k ds]|] eqn:M; cbn [create fst snd] in E; injection E as <- <-.
      + destruct (made_keeps c k ds M) as [-> ->]; [intros f ->; discriminate N|]. simpl. lia.
      + congruence.
    - destruct (caller k); [|discriminate E]. injection E as <- _. split; reflexivity.
    - destruct (box w y1), (box w y2), (box w y3); try discriminate E.
      destruct (contents w _) as [[|p [|r [|g [|? ?]]]]|]; try discriminate E.
      destruct (photon_of to_log acceptable p r g); cbn [create] in E; injection E as <- _; split; reflexivity.
    - destruct (box w y1), (box w y2), (box w y3), (box w y4); try discriminate E. injection E as <- _. split; reflexivity.
    - destruct (w_env w y); [|discriminate E]. injection E as <- _. split; reflexivity.
    - destruct (w_env w y); [|discriminate E]. injection E as <- _. split; reflexivity.
    - destruct (w_env w y) as [v|]; [|discriminate E]. destruct (duplicate w _ _) as [[n ts]|]; [|discriminate E].
      injection E as <- _. split; reflexivity.
    - destruct (w_env w x) as [v|]; [|discriminate E]. destruct (finalizable strict w _); [|discriminate E].
      injection E as <- _. split; reflexivity.
    - destruct (w_env w x) as [v|]; [|discriminate E]. destruct (contents w _); [|discriminate E].
      injection E as <- _. split; reflexivity.
    - destruct (w_env w x) as [v|]; [|discriminate E]. destruct (saved from_log w v); [|discriminate E].
      injection E as <- _. split; reflexivity.
  Qed.
  Lemma steps_keep : forall caller cs w w' evs, steps to_log from_log acceptable strict caller w cs = Some (w', evs) ->
    existsb reads_nulib cs = false -> ~ In Exception evs -> w_lost w' = w_lost w /\ w_files w' = w_files w.
  Proof.
    intros caller. induction cs as [|c cs IH]; intros w w' evs E N X; cbn [steps] in E.
    - injection E as <- _. split; reflexivity.
    - destruct (step to_log from_log acceptable strict caller w c) as [[w1 ev]|] eqn:E1; [|discriminate E].
      destruct (steps to_log from_log acceptable strict caller w1 cs) as [[w2 evs2]|] eqn:E2; [|discriminate E].
      injection E as <- <-. simpl in N. apply orb_false_iff in N as [N1 N2].
      destruct (IH _ _ _ E2 N2) as [A B]; [intros H; apply X; right; exact H|].
      destruct (step_keeps _ _ _ _ _ E1 N1) as [A1 B1]; [intros ->; apply X; left; reflexivity|]. lia.
  Qed.

  Lemma same_heap : forall h h' : Heap D, settled h -> settled h' -> hp_next h <= hp_next h' ->
    (forall k, k < hp_next h -> hp_data h' k = hp_data h k) -> in_use h' = in_use h ->
    forall k, hp_data h' k = hp_data h k.
  Proof.
    intros h h' S S' L C U k. destruct (Nat.lt_ge_cases k (hp_next h)) as [Hk|Hk]; [apply C; exact Hk|].
    rewrite (S k Hk). destruct (Nat.lt_ge_cases k (hp_next h')) as [Hk'|Hk']; [|apply S'; exact Hk'].
    destruct (hp_data h' k) as [d|] eqn:E; [|reflexivity]. exfalso.
    unfold in_use in U. replace (hp_next h') with (hp_next h + (hp_next h' - hp_next h)) in U by lia.
    rewrite seq_app, filter_app, app_length in U.
    rewrite (filter_ext_seq _ (fun k => match hp_data h k with Some _ => true | None => false end)) in U
      by (intros j Hj; rewrite C by exact Hj; reflexivity).
    assert (H : In k (filter (fun k => match hp_data h' k with Some _ => true | None => false end) (seq (0 + hp_next h) (hp_next h' - hp_next h)))).
    { apply filter_In. split; [apply in_seq; lia|]. rewrite E. reflexivity. }
    destruct (filter (fun k => match hp_data h' k with Some _ => true | None => false end) (seq (0 + hp_next h) (hp_next h' - hp_next h)));
      [contradiction|simpl in U; lia].
  Qed.

  (** ** Owned tables *)
  Lemma owned_lives : forall (ds : list D) n, lives (owned n ds) = seq n (length ds).
  Proof. induction ds as [|d ds IH]; intros n; [reflexivity|]. cbn [owned lives flat_map app length seq]. f_equal. apply IH. Qed.
  Lemma owned_owns : forall (ds : list D) n, forallb owns (owned n ds) = true.
  Proof. induction ds as [|d ds IH]; intros n; [reflexivity|]. simpl. apply IH. Qed.
  Lemma distinct_seq : forall m n, distinct (seq n m) = true.
  Proof.
    induction m as [|m IH]; intros n; [reflexivity|]. cbn [seq distinct]. rewrite IH, andb_true_r. apply negb_true_iff, member_not.
    intros H. apply in_seq in H. lia.
  Qed.
  Lemma alive_seq : forall ls A, (forall l, In l ls -> In l A) -> forallb (fun l => member l A) ls = true.
  Proof. intros ls A H. apply forallb_forall. intros l Hl. apply member_In. apply H. exact Hl. Qed.
  Lemma owned_finalizable : forall (w : World D) ds n, (forall l, n <= l < n + length ds -> In l (w_alive w)) ->
    finalizable strict w (owned n ds) = true.
  Proof.
    intros w ds n H. unfold finalizable. rewrite owned_lives, distinct_seq, owned_owns, orb_true_r, !andb_true_r.
    apply alive_seq. intros l Hl. apply in_seq in Hl. apply H. exact Hl.
  Qed.
  Lemma owned_contents : forall (w : World D) ds n, (forall l, n <= l < n + length ds -> In l (w_alive w)) ->
    contents w (owned n ds) = Some ds.
  Proof.
    intros w. unfold contents. induction ds as [|d ds IH]; intros n H; [reflexivity|].
    cbn [owned map all content]. rewrite (proj2 (member_In n (w_alive w))) by (apply H; simpl; lia).
    rewrite IH by (intros l Hl; apply H; simpl; lia). reflexivity.
  Qed.
  Lemma dead_contents : forall (w : World D) ds n, ds <> [] -> ~ In n (w_alive w) ->
    contents w (owned n ds) = None /\ finalizable strict w (owned n ds) = false.
  Proof.
    intros w [|d ds] n H N; [congruence|]. apply member_not in N. split.
    - unfold contents. cbn [owned map all content]. rewrite N. reflexivity.
    - unfold finalizable. rewrite owned_lives. cbn [length seq forallb]. rewrite N. reflexivity.
  Qed.
  Lemma buried : forall (l : nat) ls A, In l ls -> ~ In l (filter (fun l => negb (member l ls)) A).
  Proof. intros l ls A H K. apply filter_In in K as [_ K]. apply member_In in H. rewrite H in K. discriminate K. Qed.
End C55.

(** A program that no step of the reading by values refuses runs without undefined behaviour, and sees the
    same events and numbers as that reading; memory it did not allocate is untouched; and at the end the
    blocks in use are those there were before, those of the lives not ended, and those the specification
    lists as lost. So with files left open. *)
Lemma C55_values_proof : forall (D : Type) (to_log from_log : D -> D) (acceptable : D -> D -> D -> bool) (strict : bool)
    (cs : list (Command D)) (h : Heap D) (w : World D) (evs : list (Event D)),
  settled h ->
  steps to_log from_log acceptable strict (caller_of h) start cs = Some (w, evs) ->
  exists e h', run to_log from_log acceptable strict cs h = Done (e, evs) h' /\
    (forall k, k < hp_next h -> hp_data h' k = hp_data h k) /\
    in_use h' = in_use h + length (w_alive w) + w_lost w /\
    hp_files h' = hp_files h + w_files w.
Proof.
  intros D tl fl ac st cs h w evs S E. destruct (values_gen tl fl ac st cs h w evs S E) as (e & h' & R & C & _ & _ & U & F).
  exists e, h'. repeat (split; [assumption|]). exact F.
Qed.

(** Conversely, a program that is refused runs into undefined behaviour (or, when [strict], an assertion):
    the reading by values refuses no more than it must. *)
Lemma C55_careless_proof : forall (D : Type) (to_log from_log : D -> D) (acceptable : D -> D -> D -> bool) (strict : bool)
    (cs : list (Command D)) (h : Heap D),
  settled h ->
  steps to_log from_log acceptable strict (caller_of h) start cs = None ->
  run to_log from_log acceptable strict cs h = Invalid.
Proof. intros D tl fl ac st cs h S E. pose proof (run_steps tl fl ac st cs h S) as Q. rewrite E in Q. exact Q. Qed.

(** A program that ends every life, reads no NuLib file and meets no exception leaves the storage and the
    open files as they were. *)
Lemma C55_no_leak_proof : forall (D : Type) (to_log from_log : D -> D) (acceptable : D -> D -> D -> bool) (strict : bool)
    (cs : list (Command D)) (h : Heap D) (w : World D) (evs : list (Event D)),
  settled h ->
  steps to_log from_log acceptable strict (caller_of h) start cs = Some (w, evs) ->
  w_alive w = [] -> ~ In Exception evs -> (forall x f, ~ In (Make x (CNuLib f)) cs) ->
  exists e h', run to_log from_log acceptable strict cs h = Done (e, evs) h' /\
    (forall k, hp_data h' k = hp_data h k) /\ hp_files h' = hp_files h.
Proof.
  intros D tl fl ac st cs h w evs S E A X N. destruct (values_gen tl fl ac st cs h w evs S E) as (e & h' & R & C & L & S' & U & F).
  assert (N' : existsb reads_nulib cs = false).
  { destruct (existsb reads_nulib cs) eqn:Q; [|reflexivity]. apply existsb_exists in Q as (c & H & Hc).
    destruct c as [x c| | | | | | | | | ]; try discriminate Hc. destruct c; try discriminate Hc. exfalso. apply (N x f). exact H. }
  destruct (steps_keep tl fl ac st _ _ _ _ _ E N' X) as [Z1 Z2]. simpl in Z1, Z2.
  exists e, h'. split; [exact R|]. split; [|lia]. apply same_heap; try assumption. rewrite U, A, Z1. simpl. lia.
Qed.

(** The condition on NuLib files is needed: loading such a file and finalizing the opacity n times, with no
    error, leaves 2 n blocks in use. spiner_opac_neutrinos.hpp 416-422 allocates two buffers that are never
    finalized. *)
Lemma C55_nulib_leak_refuted_proof : forall (D : Type) (to_log from_log : D -> D) (acceptable : D -> D -> D -> bool) (strict : bool)
    (f : NuLib D) (h : Heap D) (n : nat),
  settled h ->
  nl_open f = true -> nl_close f = true -> nl_header f = true -> nl_emissivities f = true -> nl_opacities f = true ->
  let cs := concat (repeat [Make 0 (CNuLib f); Final 0] n) in
  exists e h' w evs,
    steps to_log from_log acceptable strict (caller_of h) start cs = Some (w, evs) /\
    w_alive w = [] /\ ~ In Exception evs /\
    run to_log from_log acceptable strict cs h = Done (e, evs) h' /\
    in_use h' = in_use h + 2 * n.
Proof.
  intros D tl fl ac st f h n S O C H E A cs.
  assert (K : forall m (w : World D), w_alive w = [] ->
             exists w' evs, steps tl fl ac st (caller_of h) w (concat (repeat [Make 0 (CNuLib f); Final 0] m)) = Some (w', evs) /\
               w_alive w' = [] /\ ~ In Exception evs /\ w_lost w' = w_lost w + 2 * m).
  { induction m as [|m IH]; intros w Hw.
    - exists w, []. split; [reflexivity|]. split; [exact Hw|]. split; [intros []|]. lia.
    - destruct (nl_tables f) as [[[a j] J] Y] eqn:T.
      assert (M : made tl ac (CNuLib f) = Some (KTabulated, [a; j; J; Y])) by (simpl; rewrite O, H, E, A, C, T; reflexivity).
      assert (Lb : lost_blocks tl ac (CNuLib f) = 2) by (simpl; rewrite O, H, E; reflexivity).
      cbn [repeat concat app steps step]. rewrite M. rewrite Lb. cbn [create fst snd]. cbn [w_env lose name Nat.eqb v_tables v_kind v_wrapped].
      rewrite (owned_finalizable st).
      2: { intros l Hl. cbn [w_alive lose name bear]. apply in_or_app. left. apply in_seq. exact Hl. }
      match goal with |- context [steps tl fl ac st (caller_of h) ?W] => destruct (IH W) as (w' & evs & E1 & E2 & E3 & E4) end.
      + cbn [w_alive name bury lose bear]. rewrite Hw, app_nil_r, owned_lives.
        match goal with |- filter ?p ?l = [] => destruct (filter p l) as [|y ys] eqn:Q; [reflexivity|]; exfalso; assert (Hy : In y (filter p l)) by (rewrite Q; left; reflexivity) end.
        apply filter_In in Hy as [Hy1 Hy2]. apply member_In in Hy1. rewrite Hy1 in Hy2. discriminate Hy2.
      + rewrite E1. eexists w', _. split; [reflexivity|]. split; [exact E2|]. split.
        * intros [Q|[Q|Q]]; [discriminate Q|discriminate Q|exact (E3 Q)].
        * rewrite E4. cbn [w_lost name bury lose bear]. lia. }
  destruct (K n start eq_refl) as (w & evs & E1 & E2 & E3 & E4).
  destruct (values_gen tl fl ac st cs h w evs S E1) as (e & h' & R & _ & _ & _ & U & _).
  exists e, h', w, evs. repeat (split; [assumption|]). rewrite U, E2, E4. simpl. lia.
Qed.

(** What a constructor that throws leaves behind, exactly. *)
Lemma C55_throw_proof : forall (D : Type) (to_log from_log : D -> D) (acceptable : D -> D -> D -> bool) (strict : bool)
    (c : Ctor D) (h : Heap D),
  settled h -> made to_log acceptable c = None ->
  exists e h', run to_log from_log acceptable strict [Make 0 c] h = Done (e, [Exception]) h' /\ e 0 = None /\
    in_use h' = in_use h + lost_blocks to_log acceptable c /\ hp_files h' = hp_files h + lost_files c.
Proof.
  intros D tl fl ac st c h S M.
  pose proof (run_steps tl fl ac st [Make 0 c] h S) as Q. cbn [steps step] in Q. rewrite M in Q. cbn [create fst snd] in Q.
  destruct Q as (e & h' & G & R & V & P & _ & _ & X). exists e, h'. split; [exact R|].
  specialize (X 0). cbn [w_env name lose Nat.eqb] in X. destruct (e 0); [contradiction|]. split; [reflexivity|].
  destruct V as (_ & _ & _ & _ & _ & U & F). cbn [w_lost w_files name lose start w_alive] in *.
  rewrite U, F. apply Permutation_sym, Permutation_nil, map_eq_nil in P. subst G. simpl. lia.
Qed.
(** Some of them leave tables or files behind, so the condition on exceptions is needed: an average that
    meets a NaN, a file of which one dataset is missing, tables that are refused after being read, and a
    NuLib file without emissivities. *)
Lemma C55_throw_leak_refuted_proof : forall (D : Type) (to_log from_log : D -> D) (acceptable : D -> D -> D -> bool) (strict : bool)
    (p r g : D) (h : Heap D),
  settled h ->
  let left_behind c blocks files :=
    exists e h', run to_log from_log acceptable strict [Make 0 c] h = Done (e, [Exception]) h' /\
      in_use h' = in_use h + blocks /\ hp_files h' = hp_files h + files in
  left_behind (CPhotonAverage false true p r g) 3 0 /\
  left_behind (CNeutrinoAverage true p r) 2 0 /\
  left_behind (CNeutrinoFile {| fl_open := true; fl_close := true; fl_data := fun k => if k =? 0 then Some p else None |}) 1 0 /\
  (acceptable p r g = false ->
   left_behind (CPhotonFile {| fl_open := true; fl_close := true;
                               fl_data := fun k => if k =? 0 then Some p else if k =? 1 then Some r else Some g |}) 3 0) /\
  left_behind (CNuLib {| nl_open := true; nl_close := true; nl_header := true; nl_emissivities := false; nl_opacities := true;
                         nl_jnu := p; nl_kappa := p; nl_tables := (p, p, p, p) |}) 1 1.
Proof.
  intros D tl fl ac st p r g h S lb.
  assert (K : forall c, made tl ac c = None -> lb c (lost_blocks tl ac c) (lost_files c)).
  { intros c M. destruct (C55_throw_proof D tl fl ac st c h S M) as (e & h' & R & _ & U & F). exists e, h'. split; [exact R|]. split; assumption. }
  split; [|split; [|split; [|split]]].
  - apply (K (CPhotonAverage false true p r g) eq_refl).
  - apply (K (CNeutrinoAverage true p r) eq_refl).
  - apply (K (CNeutrinoFile {| fl_open := true; fl_close := true; fl_data := fun k => if k =? 0 then Some p else None |}) eq_refl).
  - intros A. set (c := CPhotonFile _).
    assert (M : made tl ac c = None) by (unfold c; cbn; unfold photon_of; rewrite A; reflexivity).
    pose proof (K c M) as Q. replace (lost_blocks tl ac c) with 3 in Q; [exact Q|].
    unfold lost_blocks. unfold c in *. rewrite M. reflexivity.
  - apply (K (CNuLib {| nl_open := true; nl_close := true; nl_header := true; nl_emissivities := false; nl_opacities := true;
                        nl_jnu := p; nl_kappa := p; nl_tables := (p, p, p, p) |}) eq_refl).
Qed.

(** Copies share: after one of two names has been finalized, using or finalizing the other is undefined,
    whether the other is a copy or a wrapper around one. *)
Lemma C55_alias_proof : forall (D : Type) (to_log from_log : D -> D) (acceptable : D -> D -> D -> bool) (strict : bool)
    (c : Ctor D) (k : Kind) (ds : list D) (h : Heap D) (link last : Command D),
  settled h -> made to_log acceptable c = Some (k, ds) -> ds <> [] ->
  link = Copy 1 0 \/ link = Wrap 1 0 -> last = Use 1 \/ last = Final 1 ->
  run to_log from_log acceptable strict [Make 0 c; link; Final 0; last] h = Invalid.
Proof.
  intros D tl fl ac st c k ds h link last S M N Hl Hs. apply C55_careless_proof; [exact S|].
  destruct ds as [|d ds]; [congruence|].
  destruct Hl as [-> | ->]; cbn [steps step]; rewrite M; cbn [create fst snd lose name w_env Nat.eqb v_tables v_kind v_wrapped];
    rewrite (owned_finalizable st) by (intros l Hl; cbn [w_alive lose name bear]; apply in_or_app; left; apply in_seq; exact Hl).
  all: destruct Hs as [-> | ->]; cbn [steps step name bury w_env Nat.eqb v_tables].
  all: match goal with |- context [contents ?W _] => destruct (dead_contents st W (d :: ds) (w_born (@start D))) as [-> _] | |- context [finalizable _ ?W _] => destruct (dead_contents st W (d :: ds) (w_born (@start D))) as [_ ->] end;
    [discriminate|cbn [w_alive name bury lose bear]; apply buried; rewrite owned_lives; left; reflexivity|reflexivity].
Qed.

(** A copy made by GetOnDevice does not share: it can be used after the original has been finalized, and
    gives the values of the original. *)
Lemma C55_device_proof : forall (D : Type) (to_log from_log : D -> D) (acceptable : D -> D -> D -> bool) (strict : bool)
    (c : Ctor D) (k : Kind) (ds : list D) (h : Heap D),
  settled h -> made to_log acceptable c = Some (k, ds) ->
  exists e h', run to_log from_log acceptable strict [Make 0 c; Device 1 0; Final 0; Use 1; Final 1] h =
    Done (e, [Nothing_seen; Nothing_seen; Nothing_seen; Values ds; Nothing_seen]) h'.
Proof.
  intros D tl fl ac st c k ds h S M.
  assert (Du : forall (w : World D) es n m, (forall l, n <= l < n + length es -> In l (w_alive w)) ->
                 duplicate w m (owned n es) = Some (length es, owned m es)).
  { intros w es. induction es as [|d es IH]; intros n m A; [reflexivity|]. cbn [owned duplicate content].
    rewrite (proj2 (member_In n (w_alive w))) by (apply A; simpl; lia). rewrite IH by (intros l Hl; apply A; simpl; lia). reflexivity. }
  assert (E : exists w, steps tl fl ac st (caller_of h) start [Make 0 c; Device 1 0; Final 0; Use 1; Final 1] =
                        Some (w, [Nothing_seen; Nothing_seen; Nothing_seen; Values ds; Nothing_seen])).
  { cbn [steps step]. rewrite M. cbn [create fst snd lose name w_env Nat.eqb v_tables v_kind v_wrapped w_born bear].
    rewrite Du by (intros l Hl; cbn [w_alive lose name bear]; apply in_or_app; left; apply in_seq; exact Hl).
    cbn [lose name bear w_env Nat.eqb v_tables v_kind v_wrapped].
    rewrite (owned_finalizable st) by (intros l Hl; cbn [w_alive lose name bear]; apply in_or_app; right; apply in_or_app; left; apply in_seq; exact Hl).
    cbn [lose name bury bear w_env Nat.eqb v_tables v_kind v_wrapped w_born start].
    assert (A : forall l, length ds <= l < length ds + length ds -> 
                In l (filter (fun l0 => negb (member l0 (lives (owned (@w_born D start) ds))))
                   (seq (length ds) (length ds) ++ seq (@w_born D start) (length ds) ++ w_alive (@start D)))).
    { intros l Hl. apply filter_In. split; [apply in_or_app; left; apply in_seq; exact Hl|].
      apply negb_true_iff, member_not. rewrite owned_lives. intros H. apply in_seq in H. simpl in H. lia. }
    rewrite owned_contents by exact A. cbn [lose name bury bear w_env Nat.eqb v_tables v_kind v_wrapped w_born start]. rewrite (owned_finalizable st) by exact A. eexists. reflexivity. }
  destruct E as (w & E). destruct (values_gen tl fl ac st _ h w _ S E) as (e & h' & R & _). exists e, h'. exact R.
Qed.

(** Finalizing the same name twice is harmless, unless assertions are on. *)
Lemma C55_twice_proof : forall (D : Type) (to_log from_log : D -> D) (acceptable : D -> D -> D -> bool)
    (c : Ctor D) (k : Kind) (ds : list D) (h : Heap D),
  settled h -> made to_log acceptable c = Some (k, ds) -> ds <> [] ->
  (exists e h', run to_log from_log acceptable false [Make 0 c; Final 0; Final 0] h =
     Done (e, [Nothing_seen; Nothing_seen; Nothing_seen]) h') /\
  run to_log from_log acceptable true [Make 0 c; Final 0; Final 0] h = Invalid.
Proof.
  intros D tl fl ac c k ds h S M N.
  assert (Lm : forall n, @lives D (map (fun _ : Table D => Missing) (owned n ds)) = []).
  { clear. induction ds as [|d ds IH]; intros n; [reflexivity|]. simpl. apply IH. }
  split.
  - assert (E : exists w, steps tl fl ac false (caller_of h) start [Make 0 c; Final 0; Final 0] = Some (w, [Nothing_seen; Nothing_seen; Nothing_seen])).
    { cbn [steps step]. rewrite M. cbn [create fst snd lose name w_env Nat.eqb v_tables v_kind v_wrapped w_born bear].
      rewrite (owned_finalizable false) by (intros l Hl; cbn [w_alive lose name bear]; apply in_or_app; left; apply in_seq; exact Hl).
      cbn [lose name bury w_env Nat.eqb v_tables v_kind v_wrapped]. unfold finalizable. rewrite Lm. simpl. eexists. reflexivity. }
    destruct E as (w & E). destruct (values_gen tl fl ac false _ h w _ S E) as (e & h' & R & _). exists e, h'. exact R.
  - apply C55_careless_proof; [exact S|]. cbn [steps step]. rewrite M.
    cbn [create fst snd lose name w_env Nat.eqb v_tables v_kind v_wrapped w_born bear].
    rewrite (owned_finalizable true) by (intros l Hl; cbn [w_alive lose name bear]; apply in_or_app; left; apply in_seq; exact Hl).
    cbn [lose name bury w_env Nat.eqb v_tables v_kind v_wrapped]. unfold finalizable. rewrite Lm.
    destruct ds as [|d ds]; [congruence|]. reflexivity.
Qed.

(** a program that builds a mean from two tables and bounds of its own, wraps it, copies it to the device,
    saves it and finalizes everything: a heap with one block of the caller *)
Definition C55_heap : Heap nat := {| hp_next := 1; hp_data := fun k => if k =? 0 then Some 7 else None; hp_files := 0 |}.
Definition C55_program : list (Command nat) :=
  [Make 0 (CSized 5); Make 1 (CSized 6); Borrow 2 0; FromTables 3 0 1 2; Final 0; Final 1; Wrap 4 3; Device 5 4;
   Store 4 true true true; Store 4 true false true; Final 3; Use 5; Final 5].
Lemma C55_values_example :
  settled C55_heap /\
  match steps S pred (fun _ _ _ => true) true (caller_of C55_heap) start C55_program with
  | Some (w, evs) =>
    evs = [Nothing_seen; Nothing_seen; Nothing_seen; Nothing_seen; Nothing_seen; Nothing_seen; Nothing_seen; Nothing_seen;
           Values [5; 6; 7]; Exception; Nothing_seen; Values [6; 7; 7]; Nothing_seen] /\
    w_alive w = [] /\ w_lost w = 0
  | None => False
  end.
Proof.
  split.
  - intros k Hk. simpl in *. destruct (Nat.eqb_spec k 0); [lia|reflexivity].
  - vm_compute. repeat split.
Qed.
Lemma C55_no_leak_example :
  match run S pred (fun _ _ _ => true) true [Make 0 (CTabulate 1 2 3 4); Device 1 0; Wrap 2 1; Use 2; Final 0; Final 2] C55_heap with
  | Done (_, evs) h' => evs = [Nothing_seen; Nothing_seen; Nothing_seen; Values [1; 2; 3; 4]; Nothing_seen; Nothing_seen] /\
      hp_next h' = 9 /\ map (hp_data h') (seq 0 9) = Some 7 :: repeat None 8
  | _ => False
  end.
Proof. vm_compute. repeat split. Qed.
Lemma C55_careless_example :
  steps S pred (fun _ _ _ => true) false (caller_of C55_heap) start
    [Make 0 (CSized 5); FromBoxes 1 0 0 0 0; Use 1; Final 1] = None /\
  run S pred (fun _ _ _ => true) false [Make 0 (CSized 5); FromBoxes 1 0 0 0 0; Use 1; Final 1] C55_heap = Invalid.
Proof. split; vm_compute; reflexivity. Qed.
(** a NuLib file that loads *)
Definition C55_nulib : NuLib nat :=
  {| nl_open := true; nl_close := true; nl_header := true; nl_emissivities := true; nl_opacities := true;
     nl_jnu := 1; nl_kappa := 2; nl_tables := (3, 4, 5, 6) |}.
Lemma C55_nulib_leak_example :
  match run S pred (fun _ _ _ => true) true [Make 0 (CNuLib C55_nulib); Use 0; Final 0] C55_heap with
  | Done (_, evs) h' => evs = [Nothing_seen; Values [3; 4; 5; 6]; Nothing_seen] /\ in_use h' = 3 /\
      map (hp_data h') (seq 0 7) = [Some 7; Some 1; Some 2; None; None; None; None]
  | _ => False
  end.
Proof. vm_compute. repeat split. Qed.
