(** C55: opacities behave as values, and their storage is freed once. *)
From Coq Require Import List Arith Bool Permutation Lia.
From Verif Require Import Proofs.C55 Model.Lifetime Spec.Values Proofs.LifetimeSim.
Import ListNotations.

(** A program that no step of the reading by values refuses runs without undefined behaviour, and sees the
    same events and numbers as that reading; memory it did not allocate is untouched; and at the end the
    blocks in use are those there were before, those of the lives not ended, and those the specification
    lists as lost. So with files left open. *)
Theorem C55_values : forall (D : Type) (to_log from_log : D -> D) (acceptable : D -> D -> D -> bool) (strict : bool)
    (cs : list (Command D)) (h : Heap D) (w : World D) (evs : list (Event D)),
  settled h ->
  steps to_log from_log acceptable strict (caller_of h) start cs = Some (w, evs) ->
  exists e h', run to_log from_log acceptable strict cs h = Done (e, evs) h' /\
    (forall k, k < hp_next h -> hp_data h' k = hp_data h k) /\
    in_use h' = in_use h + length (w_alive w) + w_lost w /\
    hp_files h' = hp_files h + w_files w.
Proof. exact C55_values_proof. Qed.
Print Assumptions C55_values.

(** Conversely, a program that is refused runs into undefined behaviour (or, when [strict], an assertion):
    the reading by values refuses no more than it must. *)
Theorem C55_careless : forall (D : Type) (to_log from_log : D -> D) (acceptable : D -> D -> D -> bool) (strict : bool)
    (cs : list (Command D)) (h : Heap D),
  settled h ->
  steps to_log from_log acceptable strict (caller_of h) start cs = None ->
  run to_log from_log acceptable strict cs h = Invalid.
Proof. exact C55_careless_proof. Qed.
Print Assumptions C55_careless.

(** A program that ends every life, reads no NuLib file and meets no exception leaves the storage and the
    open files as they were. *)
Theorem C55_no_leak : forall (D : Type) (to_log from_log : D -> D) (acceptable : D -> D -> D -> bool) (strict : bool)
    (cs : list (Command D)) (h : Heap D) (w : World D) (evs : list (Event D)),
  settled h ->
  steps to_log from_log acceptable strict (caller_of h) start cs = Some (w, evs) ->
  w_alive w = [] -> ~ In Exception evs -> (forall x f, ~ In (Make x (CNuLib f)) cs) ->
  exists e h', run to_log from_log acceptable strict cs h = Done (e, evs) h' /\
    (forall k, hp_data h' k = hp_data h k) /\ hp_files h' = hp_files h.
Proof. exact C55_no_leak_proof. Qed.
Print Assumptions C55_no_leak.

(** The condition on NuLib files is needed: loading such a file and finalizing the opacity n times, with no
    error, leaves 2 n blocks in use. spiner_opac_neutrinos.hpp 416-422 allocates two buffers that are never
    finalized. *)
Theorem C55_nulib_leak_refuted : forall (D : Type) (to_log from_log : D -> D) (acceptable : D -> D -> D -> bool) (strict : bool)
    (f : NuLib D) (h : Heap D) (n : nat),
  settled h ->
  nl_open f = true -> nl_close f = true -> nl_header f = true -> nl_emissivities f = true -> nl_opacities f = true ->
  let cs := concat (repeat [Make 0 (CNuLib f); Final 0] n) in
  exists e h' w evs,
    steps to_log from_log acceptable strict (caller_of h) start cs = Some (w, evs) /\
    w_alive w = [] /\ ~ In Exception evs /\
    run to_log from_log acceptable strict cs h = Done (e, evs) h' /\
    in_use h' = in_use h + 2 * n.
Proof. exact C55_nulib_leak_refuted_proof. Qed.
Print Assumptions C55_nulib_leak_refuted.

(** What a constructor that throws leaves behind, exactly. *)
Theorem C55_throw : forall (D : Type) (to_log from_log : D -> D) (acceptable : D -> D -> D -> bool) (strict : bool)
    (c : Ctor D) (h : Heap D),
  settled h -> made to_log acceptable c = None ->
  exists e h', run to_log from_log acceptable strict [Make 0 c] h = Done (e, [Exception]) h' /\ e 0 = None /\
    in_use h' = in_use h + lost_blocks to_log acceptable c /\ hp_files h' = hp_files h + lost_files c.
Proof. exact C55_throw_proof. Qed.
Print Assumptions C55_throw.

(** Some of them leave tables or files behind, so the condition on exceptions is needed: an average that
    meets a NaN, a file of which one dataset is missing, tables that are refused after being read, and a
    NuLib file without emissivities. *)
Theorem C55_throw_leak_refuted : forall (D : Type) (to_log from_log : D -> D) (acceptable : D -> D -> D -> bool) (strict : bool)
    (p r g : D) (h : Heap D),
  settled h ->
  let left_behind c blocks files :=
    exists e h', run to_log from_log acceptable strict [Make 0 c] h = Done (e, [Exception]) h' /\
      in_use h' = in_use h + blocks /\ hp_files h' = hp_files h + files in
  left_behind (CPhotonAverage false true p r g) 3 0 /\
  left_behind (CNeutrinoAverage true p r) 2 0 /\
  left_behind (CNeutrinoFile {| fl_open := true; fl_close := true; fl_data := fun k => if k =? 0 then Some p else None |}) 1 0 /\
  (acceptable p r g = false ->
   left_behind (CPhotonFile {| fl_open := true; fl_close := true;
                               fl_data := fun k => if k =? 0 then Some p else if k =? 1 then Some r else Some g |}) 3 0) /\
  left_behind (CNuLib {| nl_open := true; nl_close := true; nl_header := true; nl_emissivities := false; nl_opacities := true;
                         nl_jnu := p; nl_kappa := p; nl_tables := (p, p, p, p) |}) 1 1.
Proof. exact C55_throw_leak_refuted_proof. Qed.
Print Assumptions C55_throw_leak_refuted.

(** Copies share: after one of two names has been finalized, using or finalizing the other is undefined,
    whether the other is a copy or a wrapper around one. *)
Theorem C55_alias : forall (D : Type) (to_log from_log : D -> D) (acceptable : D -> D -> D -> bool) (strict : bool)
    (c : Ctor D) (k : Kind) (ds : list D) (h : Heap D) (link last : Command D),
  settled h -> made to_log acceptable c = Some (k, ds) -> ds <> [] ->
  link = Copy 1 0 \/ link = Wrap 1 0 -> last = Use 1 \/ last = Final 1 ->
  run to_log from_log acceptable strict [Make 0 c; link; Final 0; last] h = Invalid.
Proof. exact C55_alias_proof. Qed.
Print Assumptions C55_alias.

(** A copy made by GetOnDevice does not share: it can be used after the original has been finalized, and
    gives the values of the original. *)
Theorem C55_device : forall (D : Type) (to_log from_log : D -> D) (acceptable : D -> D -> D -> bool) (strict : bool)
    (c : Ctor D) (k : Kind) (ds : list D) (h : Heap D),
  settled h -> made to_log acceptable c = Some (k, ds) ->
  exists e h', run to_log from_log acceptable strict [Make 0 c; Device 1 0; Final 0; Use 1; Final 1] h =
    Done (e, [Nothing_seen; Nothing_seen; Nothing_seen; Values ds; Nothing_seen]) h'.
Proof. exact C55_device_proof. Qed.
Print Assumptions C55_device.

(** Finalizing the same name twice is harmless, unless assertions are on. *)
Theorem C55_twice : forall (D : Type) (to_log from_log : D -> D) (acceptable : D -> D -> D -> bool)
    (c : Ctor D) (k : Kind) (ds : list D) (h : Heap D),
  settled h -> made to_log acceptable c = Some (k, ds) -> ds <> [] ->
  (exists e h', run to_log from_log acceptable false [Make 0 c; Final 0; Final 0] h =
     Done (e, [Nothing_seen; Nothing_seen; Nothing_seen]) h') /\
  run to_log from_log acceptable true [Make 0 c; Final 0; Final 0] h = Invalid.
Proof. exact C55_twice_proof. Qed.
Print Assumptions C55_twice.

Example C55_values_example_holds :
  settled C55_heap /\
  match steps S pred (fun _ _ _ => true) true (caller_of C55_heap) start C55_program with
  | Some (w, evs) =>
    evs = [Nothing_seen; Nothing_seen; Nothing_seen; Nothing_seen; Nothing_seen; Nothing_seen; Nothing_seen; Nothing_seen;
           Values [5; 6; 7]; Exception; Nothing_seen; Values [6; 7; 7]; Nothing_seen] /\
    w_alive w = [] /\ w_lost w = 0
  | None => False
  end.
Proof. exact C55_values_example. Qed.

Example C55_no_leak_example_holds :
  match run S pred (fun _ _ _ => true) true [Make 0 (CTabulate 1 2 3 4); Device 1 0; Wrap 2 1; Use 2; Final 0; Final 2] C55_heap with
  | Done (_, evs) h' => evs = [Nothing_seen; Nothing_seen; Nothing_seen; Values [1; 2; 3; 4]; Nothing_seen; Nothing_seen] /\
      hp_next h' = 9 /\ map (hp_data h') (seq 0 9) = Some 7 :: repeat None 8
  | _ => False
  end.
Proof. exact C55_no_leak_example. Qed.

Example C55_careless_example_holds :
  steps S pred (fun _ _ _ => true) false (caller_of C55_heap) start
    [Make 0 (CSized 5); FromBoxes 1 0 0 0 0; Use 1; Final 1] = None /\
  run S pred (fun _ _ _ => true) false [Make 0 (CSized 5); FromBoxes 1 0 0 0 0; Use 1; Final 1] C55_heap = Invalid.
Proof. exact C55_careless_example. Qed.

Example C55_nulib_leak_example_holds :
  match run S pred (fun _ _ _ => true) true [Make 0 (CNuLib C55_nulib); Use 0; Final 0] C55_heap with
  | Done (_, evs) h' => evs = [Nothing_seen; Values [3; 4; 5; 6]; Nothing_seen] /\ in_use h' = 3 /\
      map (hp_data h') (seq 0 7) = [Some 7; Some 1; Some 2; None; None; None; None]
  | _ => False
  end.
Proof. exact C55_nulib_leak_example. Qed.
