(** The array overloads called with indexer objects instead of pointers: every one is a template
    in the type of the bins and of the output (e.g. photons/gray_opacity_photons.hpp 54-62,
    photons/non_cgs_photons.hpp 71-85), and uses them through operator[] only.

    An indexer is what operator[] reads and writes. The two objects do not share cells. *)
From Coq Require Import List ZArith.
From Verif Require Import Base.Outcome Base.Ops Model.Constants Model.PhotonApi Model.NonCGSPhotons.
From Verif Require Import Model.Spiner Model.Indexers Model.Threads.
Import ListNotations.

(** operator[] of a type of indexers *)
Record Indexer (S T : Type) := {
  ix_get : S -> Z -> result T;
  ix_set : S -> Z -> T -> result S }.
Arguments ix_get {S T}. Arguments ix_set {S T}.

Section IndexerCalls.
  Context {T : Type} {O : Ops T}.

  (** base/indexers.hpp 37-41, 69-72, 107-110, 135-138 *)
  Definition ix_identity : Indexer (list T) T := {| ix_get := Identity_at; ix_set := Identity_set |}.
  Definition ix_linear : Indexer (DataBox T) T := {| ix_get := Linear_at; ix_set := Linear_set |}.
  Definition ix_loglinear : Indexer (DataBox T) T := {| ix_get := LogLinear_at; ix_set := LogLinear_set |}.
  Definition ix_logcheb : Indexer (LogCheb T) T := {| ix_get := LogCheb_at; ix_set := LogCheb_set |}.

  (** a[i] *= factor, photons/non_cgs_photons.hpp 77, 82, 83 *)
  Definition ix_scale {S} (I : Indexer S T) (factor : T) (i : nat) (s : S) : result S :=
    v <- ix_get I s (Z.of_nat i) ;; ix_set I s (Z.of_nat i) (Omul v factor).

  (** An array overload (the texts of Model/Threads) on the objects b (bins) and c (output) *)
  Fixpoint object_call {B C} (IB : Indexer B T) (IC : Indexer C T) (t : array_text T) (nbins : Z)
      (s : B * C) : result (B * C) :=
    match t with
    | Plain F =>
        for_int nbins (fun i s =>
          nu <- ix_get IB (fst s) (Z.of_nat i) ;;
          v <- F nu ;;
          c <- ix_set IC (snd s) (Z.of_nat i) v ;;
          Ok (fst s, c)) s
    | Converting u out inner =>
        s1 <- for_int nbins (fun i s =>
                b <- ix_scale IB (un_freq u) i (fst s) ;; Ok (b, snd s)) s ;;
        s2 <- object_call IB IC inner nbins s1 ;;
        for_int nbins (fun i s =>
          b <- ix_scale IB (un_time u) i (fst s) ;;
          c <- ix_scale IC out i (snd s) ;;
          Ok (b, c)) s2
    end.
End IndexerCalls.
