(** What it means for calls that run at once to race, and which cells a call may use. *)
From Coq Require Import List ZArith.
From Verif Require Import Base.Outcome Base.Ops Model.Threads.

(** the next access of a thread: is it a write, and which cell *)
Definition next {T} (p : code T) : option (bool * nat) :=
  match p with Halt _ => None | Rd a _ => Some (false, a) | Wr a _ _ => Some (true, a) end.

(** Two threads are about to access the same cell and one of them writes: a data race, which
    makes the C++ program undefined. *)
Definition racy {T} (s : state T) : Prop :=
  exists i j p q w w' a, i <> j /\ nth_error (fst s) i = Some p /\ nth_error (fst s) j = Some q /\
    next p = Some (w, a) /\ next q = Some (w', a) /\ (w = true \/ w' = true).
(** A thread is about to access a cell that does not exist. *)
Definition stray {T} (s : state T) : Prop :=
  exists i p w a, nth_error (fst s) i = Some p /\ next p = Some (w, a) /\ (length (snd s) <= a)%nat.
(** every thread has returned *)
Definition finished {T} (s : state T) : Prop :=
  forall p, In p (fst s) -> p = Halt (Ok tt).

(** Cells a call may read or write: its bins and its output; cells it may write: its output,
    and for a unit-converting call also its bins. *)
Definition in_buffer (base : nat) (n : Z) (a : nat) : Prop := (base <= a < base + Z.to_nat n)%nat.
Definition accesses {T} (c : Call T) (a : nat) : Prop :=
  in_buffer (c_bins c) (c_n c) a \/ in_buffer (c_out c) (c_n c) a.
Definition overwrites {T} (c : Call T) (a : nat) : Prop :=
  in_buffer (c_out c) (c_n c) a \/
  (match c_text c with Plain _ => False | _ => in_buffer (c_bins c) (c_n c) a end).

Definition conflict {T} (c d : Call T) : Prop := exists a, overwrites c a /\ accesses d a.
(** no two different calls of the list conflict *)
Definition no_conflict {T} (cs : list (Call T)) : Prop :=
  forall i j c d, i <> j -> nth_error cs i = Some c -> nth_error cs j = Some d -> ~ conflict c d.

(** Running the calls at once, in any order of their accesses, is harmless: no race, no stray
    access, no endless execution, no deadlock, and at the end every cell that some call may
    write is as if that call had run alone on the initial memory, every other cell as before. *)
Definition as_if_alone {T} {O : Ops T} (cs : list (Call T)) (m : mem T) : Prop :=
  let start := (map thread cs, m) in
  (exists bound, forall n s, steps n start s -> (n <= bound)%nat) /\
  forall n s, steps n start s ->
    ~ racy s /\ ~ stray s /\ (finished s \/ exists s', step s s') /\
    (finished s ->
      length (snd s) = length m /\
      (forall c m', In c cs -> alone c m = Ok m' -> forall a, overwrites c a -> nth_error (snd s) a = nth_error m' a) /\
      (forall a, (forall c, In c cs -> ~ overwrites c a) -> nth_error (snd s) a = nth_error m a)).
