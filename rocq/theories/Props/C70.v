(** C70: array calls given indexer objects do what they do given pointers. *)
From Coq Require Import Reals ZArith List Lia Lra Arith Bool.
From Verif Require Import Proofs.C70 Base.Outcome Base.Ops Inst.ER Inst.ERTac Model.Spiner Model.Chebyshev Model.Indexers.
From Verif Require Import Model.Constants Model.PhotonApi Model.NonCGSPhotons Model.Threads Model.IndexerCalls.
From Verif Require Import Spec.Cells Spec.Chebyshev Proofs.ArrayFacts Proofs.C50.
Import ListNotations.
Open Scope nat_scope.

(** Every arithmetic, every text of an array overload (the plain loop, or unit conversion around
    another), any two types of indexers: on separate objects with enough cells, the call ends as on
    a memory made of the cells of the bins followed by those of the output, and the objects hold
    what that memory holds; nothing else about them changes. *)
Theorem C70_objects :
  forall (T : Type) (O : Ops T) (B C : Type) (IB : Indexer B T) (IC : Indexer C T)
         (cb : B -> list T) (pb : B -> list T -> B) (cc : C -> list T) (pc : C -> list T -> C)
         (t : array_text T) (n : nat) (b : B) (c : C),
    storage IB cb pb -> storage IC cc pc -> (n <= length (cb b))%nat -> (n <= length (cc c))%nat ->
    object_call IB IC t (Z.of_nat n) (b, c) =
    match text_call t 0 (length (cb b)) (Z.of_nat n) (cb b ++ cc c) with
    | Ok m => Ok (pb b (firstn (length (cb b)) m), pc c (skipn (length (cb b)) m))
    | Error => Error
    | UB => UB
    end.
Proof. exact C70_objects_proof. Qed.
Print Assumptions C70_objects.

(** The four indexers of base/indexers.hpp are such objects; a LogCheb keeps its coefficients. *)
Theorem C70_indexers :
  forall (T : Type) (O : Ops T),
    storage ix_identity (fun d : list T => d) (fun _ d => d) /\
    storage ix_linear (@db_data T) put_box /\
    storage ix_loglinear (@db_data T) put_box /\
    storage ix_logcheb (@lc_data T) put_cheb.
Proof. exact C70_indexers_proof. Qed.
Print Assumptions C70_indexers.

(** two frequencies in a plain array, a Linear indexer for the output, the call nu + nu *)
Example C70_objects_example_holds :
  exists L L', Linear_ptr [NaN; NaN] (Fin 1) (Fin 3) 2 = Ok L /\
    object_call ix_identity ix_linear (Plain (fun nu => Ok (Oadd nu nu))) 2 ([Fin 1; Fin 3], L) = Ok ([Fin 1; Fin 3], L') /\
    Linear_ptr [Fin (1 + 1); Fin (3 + 3)] (Fin 1) (Fin 3) 2 = Ok L'.
Proof. exact C70_objects_example. Qed.
