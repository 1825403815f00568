(** Arithmetic used by the code, abstracted.

    The C++ sources compute with [Real] (ports-of-call: double). The model is
    written once over an arbitrary record of operations [Ops T]; see Inst/ for
    the instances (exact extended reals, IEEE binary64). A theorem stated for
    every [Ops T] uses no algebraic law at all, so it holds bit for bit for
    doubles with whatever libm. *)
From Coq Require Import ZArith.

(** int has 32 bits *)
Definition int_fits (z : Z) : bool := ((- 2 ^ 31 <=? z) && (z <? 2 ^ 31))%bool%Z.

Class Ops (T : Type) : Type := {
  Oadd : T -> T -> T;
  Osub : T -> T -> T;
  Omul : T -> T -> T;
  Odiv : T -> T -> T;
  Oopp : T -> T;
  Oabs : T -> T;                    (* std::abs / std::fabs *)
  Oexp : T -> T;
  Oexpm1 : T -> T;
  Olog10 : T -> T;                  (* std::log10 *)
  Olog : T -> T;                    (* std::log *)
  Olog10f : T -> T;                 (* BDMath::log10, utils/fast-math/logs.hpp 41-50 *)
  Osqrt : T -> T;
  Ocos : T -> T;
  Opow : T -> T -> T;               (* std::pow *)
  Oltb : T -> T -> bool;            (* a < b ; false if either is NaN *)
  Oleb : T -> T -> bool;            (* a <= b *)
  Oeqb : T -> T -> bool;            (* a == b *)
  Oisnan : T -> bool;
  Oisinf : T -> bool;
  Otrunc : T -> option Z;           (* conversion to int; None: not representable (undefined behaviour) *)
  OofZ : Z -> T;                    (* int -> Real conversion, integral literals *)
  Odec : Z -> Z -> T;               (* decimal literal: mantissa * 10^exponent *)
  Opi : T;                          (* M_PI *)
  Oinf : T;                         (* numeric_limits<Real>::infinity() *)
  Onum_min : T;                     (* numeric_limits<Real>::min() *)
  Onum_eps : T;                     (* numeric_limits<Real>::epsilon() *)
}.

Declare Scope ops_scope.
Delimit Scope ops_scope with o.
Notation "a + b" := (Oadd a b) : ops_scope.
Notation "a - b" := (Osub a b) : ops_scope.
Notation "a * b" := (Omul a b) : ops_scope.
Notation "a / b" := (Odiv a b) : ops_scope.
Notation "- a" := (Oopp a) : ops_scope.
Notation "a <? b" := (Oltb a b) : ops_scope.
Notation "a <=? b" := (Oleb a b) : ops_scope.
Notation "# z" := (OofZ z) (at level 5, z at level 4, format "# z") : ops_scope.

Section Derived.
  Context {T : Type} {O : Ops T}.
  Local Open Scope ops_scope.

  (** std::max(a, b) is (a < b) ? b : a ; std::min(a, b) is (b < a) ? b : a. *)
  Definition Omax (a b : T) : T := if a <? b then b else a.
  Definition Omin (a b : T) : T := if b <? a then b else a.
  (** a > b, a >= b, a != b *)
  Definition Ogtb (a b : T) : bool := b <? a.
  Definition Ogeb (a b : T) : bool := b <=? a.
  Definition Oneqb (a b : T) : bool := negb (Oeqb a b).
  Definition Oisfinite (a : T) : bool := negb (Oisnan a) && negb (Oisinf a).
End Derived.
