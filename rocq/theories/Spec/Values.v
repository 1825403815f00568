(** The reading of a program that uses tabulated opacities in which objects are plain values: no
    storage, no pointers. A name stands for the contents of its tables. All that is left of memory
    is that a table made by a constructor or by GetOnDevice has a life, which is ended once, by
    Finalize through any of the names that share it; a step that touches a table whose life has
    ended, or ends one twice, is refused ([None]). The specification also says how many blocks and
    open files each construction leaves behind that no name can reach any more. *)
From Coq Require Import List Arith Bool.
From Verif Require Import Model.Lifetime.
Import ListNotations.

Section Values.
  Context {D : Type}.
  Context (to_log from_log : D -> D) (acceptable : D -> D -> D -> bool) (strict : bool).

  (** [Lent]: storage of the caller, as it was when the program started *)
  Inductive Table := Missing | Lent (d : option D) | Owned (life : nat) (d : D).
  Inductive Kind := KAnalytic | KPhoton | KNeutrino | KTabulated | KBox.
  Record Value := { v_kind : Kind; v_wrapped : bool; v_tables : list Table }.

  Record World := {
    w_born : nat;                       (* lives so far *)
    w_alive : list nat;
    w_env : nat -> option Value;
    w_lost : nat;                       (* blocks no name can reach *)
    w_files : nat                       (* files left open *)
  }.
  Definition start : World :=
    {| w_born := 0; w_alive := []; w_env := fun _ => None; w_lost := 0; w_files := 0 |}.

  Definition name (w : World) (x : nat) (v : option Value) : World :=
    {| w_born := w_born w; w_alive := w_alive w; w_env := fun y => if y =? x then v else w_env w y;
       w_lost := w_lost w; w_files := w_files w |}.
  Definition lose (w : World) (blocks files : nat) : World :=
    {| w_born := w_born w; w_alive := w_alive w; w_env := w_env w;
       w_lost := w_lost w + blocks; w_files := w_files w + files |}.
  Definition bear (w : World) (n : nat) : World :=
    {| w_born := w_born w + n; w_alive := seq (w_born w) n ++ w_alive w; w_env := w_env w;
       w_lost := w_lost w; w_files := w_files w |}.
  Definition member (l : nat) (ls : list nat) : bool := existsb (Nat.eqb l) ls.
  Definition bury (w : World) (ls : list nat) : World :=
    {| w_born := w_born w; w_alive := filter (fun l => negb (member l ls)) (w_alive w); w_env := w_env w;
       w_lost := w_lost w; w_files := w_files w |}.

  (** the contents of a table, if it may be looked at *)
  Definition content (w : World) (t : Table) : option D :=
    match t with
    | Missing => None
    | Lent d => d
    | Owned l d => if member l (w_alive w) then Some d else None
    end.
  Fixpoint all {A} (os : list (option A)) : option (list A) :=
    match os with
    | [] => Some []
    | Some a :: os => match all os with Some l => Some (a :: l) | None => None end
    | None :: _ => None
    end.
  Definition contents (w : World) (ts : list Table) : option (list D) := all (map (content w) ts).

  (** ** What the constructors make ([None]: they throw) and what they leave behind *)
  Definition datasets (f : File D) (n : nat) : option (list D) :=
    if fl_open f && fl_close f then all (map (fl_data f) (seq 0 n)) else None.
  Definition readable (f : File D) (n : nat) : nat :=
    if fl_open f then length (filter (fun k => match fl_data f k with Some _ => true | None => false end) (seq 0 n)) else 0.
  Definition photon_of (p r g : D) : option (list D) :=
    if acceptable p r g then Some [to_log p; to_log r; g] else None.
  Definition made (c : Ctor D) : option (Kind * list D) :=
    match c with
    | CAnalytic => Some (KAnalytic, [])
    | CPhotonAverage early nan p r g => if early || nan then None else Some (KPhoton, [p; r; g])
    | CPhotonFile f =>
      match datasets f 3 with
      | Some [p; r; g] => match photon_of p r g with Some ds => Some (KPhoton, ds) | None => None end
      | _ => None
      end
    | CNeutrinoAverage nan p r => if nan then None else Some (KNeutrino, [p; r])
    | CNeutrinoFile f => match datasets f 2 with Some ds => Some (KNeutrino, ds) | None => None end
    | CTabulate a j J Y => Some (KTabulated, [a; j; J; Y])
    | CSpinerFile f => match datasets f 4 with Some ds => Some (KTabulated, ds) | None => None end
    | CNuLib f =>
      if nl_open f && nl_header f && nl_emissivities f && nl_opacities f && nl_close f
      then let '(a, j, J, Y) := nl_tables f in Some (KTabulated, [a; j; J; Y]) else None
    | CSized d => Some (KBox, [d])
    end.
  Definition lost_blocks (c : Ctor D) : nat :=
    match c with
    | CPhotonAverage early nan _ _ _ => if early then 0 else if nan then 3 else 0
    | CPhotonFile f => match made c with Some _ => 0 | None => readable f 3 end
    | CNeutrinoAverage nan _ _ => if nan then 2 else 0
    | CNeutrinoFile f => match made c with Some _ => 0 | None => readable f 2 end
    | CSpinerFile f => match made c with Some _ => 0 | None => readable f 4 end
    | CNuLib f => if nl_open f && nl_header f then if nl_emissivities f then 2 else 1 else 0
    | _ => 0
    end.
  Definition lost_files (c : Ctor D) : nat :=
    match c with
    | CNuLib f => if nl_open f && negb (nl_header f && nl_emissivities f && nl_opacities f) then 1 else 0
    | _ => 0
    end.

  Fixpoint owned (n : nat) (ds : list D) : list Table :=
    match ds with [] => [] | d :: ds => Owned n d :: owned (S n) ds end.
  (** x becomes a new object with these contents, or the construction throws *)
  Definition create (w : World) (x : nat) (made : option (Kind * list D)) : World * Event D :=
    match made with
    | Some (k, ds) =>
      (name (bear w (length ds)) x (Some {| v_kind := k; v_wrapped := false; v_tables := owned (w_born w) ds |}),
       Nothing_seen)
    | None => (name w x None, Exception)
    end.

  (** a copy with lives of its own *)
  Fixpoint duplicate (w : World) (n : nat) (ts : list Table) : option (nat * list Table) :=
    match ts with
    | [] => Some (0, [])
    | Missing :: ts =>
      match duplicate w n ts with Some (k, us) => Some (k, Missing :: us) | None => None end
    | t :: ts =>
      match content w t, duplicate w (S n) ts with
      | Some d, Some (k, us) => Some (S k, Owned n d :: us)
      | _, _ => None
      end
    end.

  (** the lives ended by Finalize *)
  Definition lives (ts : list Table) : list nat :=
    flat_map (fun t => match t with Owned l _ => [l] | _ => [] end) ts.
  Definition owns (t : Table) : bool := match t with Owned _ _ => true | _ => false end.
  Fixpoint distinct (ls : list nat) : bool :=
    match ls with [] => true | l :: ls => negb (member l ls) && distinct ls end.
  Definition finalizable (w : World) (ts : list Table) : bool :=
    forallb (fun l => member l (w_alive w)) (lives ts) && distinct (lives ts) && (negb strict || forallb owns ts).

  (** what Save writes *)
  Definition saved (w : World) (v : Value) : option (list D) :=
    match v_kind v, v_wrapped v, contents w (v_tables v) with
    | KPhoton, _, Some [p; r; g] => Some [from_log p; from_log r; g]
    | KNeutrino, _, Some ds => Some ds
    | KTabulated, false, Some ds => Some ds
    | _, _, _ => None
    end.

  Definition box (w : World) (x : nat) : option Table :=
    match w_env w x with
    | Some {| v_kind := KBox; v_wrapped := false; v_tables := [t] |} => Some t
    | _ => None
    end.

  (** [caller]: the storage of the caller *)
  Definition step (caller : nat -> option (option D)) (w : World) (c : Command D) : option (World * Event D) :=
    match c with
    | Make x c => let r := create w x (made c) in Some (lose (fst r) (lost_blocks c) (lost_files c), snd r)
    | Borrow x k =>
      match caller k with
      | Some d => Some (name w x (Some {| v_kind := KBox; v_wrapped := false; v_tables := [Lent d] |}), Nothing_seen)
      | None => None
      end
    | FromTables x y1 y2 y3 =>
      match box w y1, box w y2, box w y3 with
      | Some t1, Some t2, Some t3 =>
        match contents w [t1; t2; t3] with
        | Some [p; r; g] =>
          Some (create w x (match photon_of p r g with Some ds => Some (KPhoton, ds) | None => None end))
        | _ => None
        end
      | _, _, _ => None
      end
    | FromBoxes x y1 y2 y3 y4 =>
      match box w y1, box w y2, box w y3, box w y4 with
      | Some t1, Some t2, Some t3, Some t4 =>
        Some (name w x (Some {| v_kind := KTabulated; v_wrapped := false; v_tables := [t1; t2; t3; t4] |}), Nothing_seen)
      | _, _, _, _ => None
      end
    | Copy x y => match w_env w y with Some v => Some (name w x (Some v), Nothing_seen) | None => None end
    | Wrap x y =>
      match w_env w y with
      | Some v => Some (name w x (Some {| v_kind := v_kind v; v_wrapped := true; v_tables := v_tables v |}), Nothing_seen)
      | None => None
      end
    | Device x y =>
      match w_env w y with
      | Some v =>
        match duplicate w (w_born w) (v_tables v) with
        | Some (n, ts) =>
          Some (name (bear w n) x (Some {| v_kind := v_kind v; v_wrapped := v_wrapped v; v_tables := ts |}), Nothing_seen)
        | None => None
        end
      | None => None
      end
    | Final x =>
      match w_env w x with
      | Some v =>
        if finalizable w (v_tables v)
        then Some (name (bury w (lives (v_tables v))) x
                     (Some {| v_kind := v_kind v; v_wrapped := v_wrapped v; v_tables := map (fun _ => Missing) (v_tables v) |}),
                   Nothing_seen)
        else None
      | None => None
      end
    | Use x =>
      match w_env w x with
      | Some v => match contents w (v_tables v) with Some ds => Some (w, Values ds) | None => None end
      | None => None
      end
    | Store x created closed written =>
      match w_env w x with
      | Some v =>
        match saved w v with
        | Some ds => Some (w, if created && closed && written then Values ds else Exception)
        | None => None
        end
      | None => None
      end
    end.
  Fixpoint steps (caller : nat -> option (option D)) (w : World) (cs : list (Command D)) : option (World * list (Event D)) :=
    match cs with
    | [] => Some (w, [])
    | c :: cs =>
      match step caller w c with
      | Some (w, ev) => match steps caller w cs with Some (w, evs) => Some (w, ev :: evs) | None => None end
      | None => None
      end
    end.
End Values.

Arguments Table D : clear implicits.
Arguments Value D : clear implicits.
Arguments World D : clear implicits.

(** storage that has not been handed out is empty *)
Definition settled {D} (h : Heap D) : Prop := forall k, hp_next h <= k -> hp_data h k = None.
(** the storage of the caller when the program starts *)
Definition caller_of {D} (h : Heap D) (k : nat) : option (option D) := if k <? hp_next h then Some (hp_data h k) else None.
