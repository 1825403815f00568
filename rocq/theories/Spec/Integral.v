(** Integrals over all frequencies, stated with Coquelicot's improper Riemann
    integral, and how they apply to calls of the library. *)
From Coq Require Import Reals.
From Coquelicot Require Import Coquelicot.
From Verif Require Import Base.Outcome Inst.ER.
Open Scope R_scope.

(** the integral of [f] over (0, +infinity) converges to [l] *)
Definition int_0_inf (f : R -> R) (l : R) : Prop :=
  is_RInt_gen f (at_right 0) (Rbar_locally p_infty) l.

(** a call returned the real number [r] *)
Definition returns (c : result ER) (r : R) : Prop := c = Ok (Fin r).

(** the call, as a function of a positive frequency, returns the real function [f] *)
Definition spectrum (F : ER -> result ER) (f : R -> R) : Prop :=
  forall nu, 0 < nu -> returns (F (Fin nu)) (f nu).
