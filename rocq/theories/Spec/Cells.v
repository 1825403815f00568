(** An object whose operator[] reads and writes the cells of one array, and nothing else. *)
From Coq Require Import List ZArith.
From Verif Require Import Base.Outcome Model.IndexerCalls.
Import ListNotations.

(** [cells s] are the cells of s, [put s d] is s with the cells d *)
Record storage {S T : Type} (I : Indexer S T) (cells : S -> list T) (put : S -> list T -> S) : Prop := {
  st_get : forall s i v, nth_error (cells s) i = Some v -> ix_get I s (Z.of_nat i) = Ok v;
  st_set : forall s i v, (i < length (cells s))%nat ->
             exists d, ix_set I s (Z.of_nat i) v = Ok (put s d) /\ length d = length (cells s) /\
               nth_error d i = Some v /\ forall j, j <> i -> nth_error d j = nth_error (cells s) j;
  st_cells : forall s d, cells (put s d) = d;
  st_same : forall s, put s (cells s) = s;
  st_put : forall s d d', put (put s d) d' = put s d' }.
