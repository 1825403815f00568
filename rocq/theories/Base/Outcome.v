(** Outcomes of modelled calls, bounded loops and a flat memory.

    [Ok v]    the call returned [v];
    [Error]   the call reached OPAC_ERROR (base/opac_error.hpp: throw, or
              printf + exit) or an active PORTABLE_REQUIRE / assert: it never
              returns a value;
    [UB]      the C++ program has undefined behaviour (out-of-bounds access,
              use of an uninitialised value, signed overflow). *)
From Coq Require Import List ZArith Lia.
Import ListNotations.

Inductive result (A : Type) : Type :=
| Ok (a : A)
| Error
| UB.
Arguments Ok {A} a.
Arguments Error {A}.
Arguments UB {A}.

Definition bind {A B : Type} (r : result A) (f : A -> result B) : result B :=
  match r with Ok a => f a | Error => Error | UB => UB end.

Definition rmap {A B : Type} (f : A -> B) (r : result A) : result B :=
  bind r (fun a => Ok (f a)).

Declare Scope result_scope.
Delimit Scope result_scope with result.
Notation "x <- e ;; f" := (bind e (fun x => f))
  (at level 61, e at next level, right associativity) : result_scope.
Open Scope result_scope.

(** [for (int i = 0; i < n; ++i) body]; the state is threaded through and the
    first non-[Ok] outcome stops the loop. *)
Fixpoint for_from {S : Type} (fuel i : nat) (body : nat -> S -> result S) (s : S)
  : result S :=
  match fuel with
  | O => Ok s
  | Datatypes.S k => s' <- body i s ;; for_from k (Datatypes.S i) body s'
  end.

Definition for_loop {S : Type} (n : nat) (body : nat -> S -> result S) (s : S)
  : result S := for_from n 0 body s.

(** A C++ loop bound [const int n]: a negative bound runs no iteration. *)
Definition for_int {S : Type} (n : Z) (body : nat -> S -> result S) (s : S)
  : result S := for_loop (Z.to_nat n) body s.

(** Flat memory of [Real] cells. A pointer is an address; reading or writing an
    address that is not allocated is undefined behaviour. *)
Definition mem (T : Type) := list T.

Definition load {T} (m : mem T) (a : nat) : result T :=
  match nth_error m a with Some v => Ok v | None => UB end.

Fixpoint upd {T} (m : mem T) (a : nat) (v : T) : mem T :=
  match m, a with
  | [], _ => []
  | _ :: r, O => v :: r
  | x :: r, S k => x :: upd r k v
  end.

Definition store {T} (m : mem T) (a : nat) (v : T) : result (mem T) :=
  if Nat.ltb a (length m) then Ok (upd m a v) else UB.
