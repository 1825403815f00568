(** Frequency groups, stated over the extended reals and independently of the code. *)
From Coq Require Import Reals ZArith List Lia Lra Bool.
From Verif Require Import Base.Ops Base.Outcome Inst.ER.
Import ListNotations.
Open Scope R_scope.

(** the order of the extended reals; NaN is comparable with nothing *)
Definition ltE (a b : ER) : Prop :=
  match a, b with
  | Fin x, Fin y => x < y
  | Fin _, PInf | NInf, Fin _ | NInf, PInf => True
  | _, _ => False
  end.
Definition leE (a b : ER) : Prop := ltE a b \/ (a = b /\ a <> NaN).

(** [values val] says that the comparisons, the NaN and infinity tests and the literal
    0 of an arithmetic are those of the extended reals under the value map [val].
    Exact arithmetic (identity) and IEEE binary64 (value of a double) are instances. *)
Record values {T : Type} (O : Ops T) (val : T -> ER) : Prop := {
  val_ltb : forall a b, Oltb a b = true <-> ltE (val a) (val b);
  val_leb : forall a b, Oleb a b = true <-> leE (val a) (val b);
  val_eqb : forall a b, Oeqb a b = true <-> val a = val b /\ val a <> NaN;
  val_nan : forall a, Oisnan a = true <-> val a = NaN;
  val_inf : forall a, Oisinf a = true <-> val a = PInf \/ val a = NInf;
  val_0 : val (OofZ 0) = Fin 0;
}.

(** [b 0, ..., b n] delimit n groups: at least one group, the edges are nonnegative
    reals in strictly increasing order, the last edge may be +infinity instead. *)
Definition partition (b : nat -> ER) (n : nat) : Prop :=
  (0 < n)%nat /\
  forall g, (g < n)%nat -> exists lo, b g = Fin lo /\ 0 <= lo /\
    ((exists hi, b (S g) = Fin hi /\ lo < hi) \/ (S g = n /\ b (S g) = PInf)).

(** group g of n contains nu: lower edge included, upper edge excluded except for the
    last group *)
Definition in_group (b : nat -> ER) (n g : nat) (nu : ER) : Prop :=
  (g < n)%nat /\ leE (b g) nu /\ (ltE nu (b (S g)) \/ (S g = n /\ leE nu (b (S g)))).

(** nu is in the closed covered range *)
Definition covered (b : nat -> ER) (n : nat) (nu : ER) : Prop := leE (b 0%nat) nu /\ leE nu (b n).

(** the edges read from a buffer *)
Definition edge {T} (val : T -> ER) (gb : list T) (g : nat) : ER :=
  match nth_error gb g with Some x => val x | None => NaN end.
