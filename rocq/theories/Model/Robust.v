(** Model of singularity-opac/base/robust_utils.hpp. *)
From Coq Require Import ZArith Bool.
From Verif Require Import Base.Ops.
Open Scope ops_scope.

Section Robust.
  Context {T : Type} {O : Ops T}.

  (** SMALL<Real>(), 23-26 *)
  Definition SMALL : T := #10 * Onum_min.
  (** EPS<Real>(), 28-31 *)
  Definition EPS : T := #10 * Onum_eps.
  (** make_positive, 33-36 *)
  Definition make_positive (val : T) : T := Omax val EPS.
  (** make_bounded, 38-41 *)
  Definition make_bounded (val vmin vmax : T) : T :=
    Omin (Omax val (vmin + EPS)) (vmax * (#1 - EPS)).
  (** sgn, 43-46: an int, (0 <= val) - (val < 0) *)
  Definition sgn (val : T) : Z :=
    (Z.b2z (#0 <=? val)%o - Z.b2z (val <? #0)%o)%Z.
  (** ratio, 48-51; sgn(b) * SMALL converts the int to Real *)
  Definition ratio (a b : T) : T := a / (b + OofZ (sgn b) * SMALL).
End Robust.
