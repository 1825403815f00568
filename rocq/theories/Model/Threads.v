(** The array overloads as sequences of memory accesses, and several of them running at
    once, as in a parallel loop over zones in which every iteration calls an opacity.

    A call is its text unfolded: it reads a cell and goes on with the value, or writes a
    cell and goes on, until it returns or stops. Scalar calls access no cell of this memory:
    the scalar members are const and read only the object (Lifetime says who owns its
    tables). The accesses of the threads interleave in any order.

    Simplifications: one access is one step (C++ gives no meaning to two conflicting plain
    accesses that are not ordered, which is what [racy] in Spec/Races detects; an execution
    without a racy state has this meaning). The objects are not finalized meanwhile. *)
From Coq Require Import List ZArith.
From Verif Require Import Base.Outcome Base.Ops Model.Constants Model.PhotonApi Model.NonCGSPhotons.
Import ListNotations.

Inductive code (T : Type) : Type :=
| Halt (r : result unit)            (* returned, or stopped by an error *)
| Rd (a : nat) (k : T -> code T)
| Wr (a : nat) (v : T) (k : code T).
Arguments Halt {T}. Arguments Rd {T}. Arguments Wr {T}.

(** The text of an array overload: the plain loop around a scalar call (e.g.
    photons/gray_opacity_photons.hpp 59-61), or the unit-converting body around another
    overload (photons/non_cgs_photons.hpp 76-84, and likewise for the other overloads and
    neutrinos/non_cgs_neutrinos.hpp). *)
Inductive array_text (T : Type) : Type :=
| Plain (F : T -> result T)
| Converting (u : Units T) (out : T) (inner : array_text T).
Arguments Plain {T}. Arguments Converting {T}.

Section Threads.
  Context {T : Type} {O : Ops T}.

  (** a scalar call *)
  Definition scalar_call (r : result T) (k : T -> code T) : code T :=
    match r with Ok v => k v | Error => Halt Error | UB => Halt UB end.

  (** for (int i = 0; i < n; ++i) body(i); then k *)
  Fixpoint loop_from (n i : nat) (body : nat -> code T -> code T) (k : code T) : code T :=
    match n with
    | Datatypes.O => k
    | S n' => body i (loop_from n' (S i) body k)
    end.
  Definition loop_int (n : Z) := loop_from (Z.to_nat n) 0.

  (** coeffs[i] = F(nu_bins[i]), e.g. photons/gray_opacity_photons.hpp 60 *)
  Definition fill (F : T -> result T) (nu_bins coeffs i : nat) (k : code T) : code T :=
    Rd (nu_bins + i) (fun nu => scalar_call (F nu) (fun v => Wr (coeffs + i) v k)).
  (** a[i] *= factor, photons/non_cgs_photons.hpp 77, 82, 83 *)
  Definition scale (a : nat) (factor : T) (i : nat) (k : code T) : code T :=
    Rd (a + i) (fun v => Wr (a + i) (Omul v factor) k).

  (** the accesses of a text, then those of k *)
  Fixpoint text_code (t : array_text T) (nu_bins coeffs : nat) (nbins : Z) (k : code T) : code T :=
    match t with
    | Plain F => loop_int nbins (fill F nu_bins coeffs) k
    | Converting u out inner =>
        loop_int nbins (scale nu_bins (un_freq u))
          (text_code inner nu_bins coeffs nbins
            (loop_int nbins (fun i k => scale nu_bins (un_time u) i (scale coeffs out i k)) k))
    end.

  (** The same text as a function on the whole memory, as in PhotonApi and NonCGSPhotons. *)
  Fixpoint text_call (t : array_text T) : array_call T :=
    match t with
    | Plain F => array_loop F
    | Converting u out inner => noncgs_array u out (text_call inner)
    end.

  (** One call of an array overload: its text and its three arguments. *)
  Record Call := { c_text : array_text T; c_bins : nat; c_out : nat; c_n : Z }.
  Definition thread (c : Call) : code T :=
    text_code (c_text c) (c_bins c) (c_out c) (c_n c) (Halt (Ok tt)).
  Definition alone (c : Call) : mem T -> result (mem T) :=
    text_call (c_text c) (c_bins c) (c_out c) (c_n c).

  (** Threads and memory; thread i takes a step. *)
  Definition state : Type := list (code T) * mem T.
  Inductive step : state -> state -> Prop :=
  | step_read ps m i a k v :
      nth_error ps i = Some (Rd a k) -> nth_error m a = Some v ->
      step (ps, m) (upd ps i (k v), m)
  | step_write ps m i a v k :
      nth_error ps i = Some (Wr a v k) -> (a < length m)%nat ->
      step (ps, m) (upd ps i k, upd m a v).
  Inductive steps : nat -> state -> state -> Prop :=
  | steps_none s : steps 0 s s
  | steps_more n s s1 s2 : step s s1 -> steps n s1 s2 -> steps (S n) s s2.
End Threads.
Arguments Call : clear implicits.
Arguments state : clear implicits.
