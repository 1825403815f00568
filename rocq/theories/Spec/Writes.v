(** What the cells of an indexer hold after a history of use, independently of the code. *)
From Coq Require Import ZArith List.
From Verif Require Import Base.Outcome.
Import ListNotations.

(** a caller writes a cell, or asks for the interpolation to be prepared *)
Inductive step (T : Type) : Type := Write (i : Z) (v : T) | Prepare.
Arguments Write {T} i v.
Arguments Prepare {T}.

(** the value written last to cell j, if any *)
Fixpoint latest {T} (h : list (step T)) (j : nat) : option T :=
  match h with
  | [] => None
  | Prepare :: r => latest r j
  | Write i v :: r =>
    match latest r j with
    | Some w => Some w
    | None => if (i =? Z.of_nat j)%Z then Some v else None
    end
  end.
(** [new] is [old] with the last written value in every written cell *)
Definition after {T} (h : list (step T)) (old new : list T) : Prop :=
  length new = length old /\
  forall j, (j < length old)%nat ->
    nth_error new j = match latest h j with Some v => Some v | None => nth_error old j end.
(** all writes are to the first n cells *)
Definition within {T} (n : nat) (h : list (step T)) : Prop :=
  forall i v, In (Write i v) h -> (0 <= i < Z.of_nat n)%Z.

(** an object used according to a history *)
Fixpoint use {S T} (write : S -> Z -> T -> result S) (prepare : S -> result S)
    (h : list (step T)) (s : S) : result S :=
  match h with
  | [] => Ok s
  | Write i v :: r => match write s i v with Ok s' => use write prepare r s' | Error => Error | UB => UB end
  | Prepare :: r => match prepare s with Ok s' => use write prepare r s' | Error => Error | UB => UB end
  end.
