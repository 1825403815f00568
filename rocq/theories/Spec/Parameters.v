(** Documented parameter domain of the power-law models (the error messages of
    powerlaw_opacity_photons.hpp 54-71: references positive, offsets nonnegative). *)
From Coq Require Import Reals.
From Flocq Require Import Core IEEE754.BinarySingleNaN.
From Verif Require Import Inst.ER Inst.B64 Model.PowerLawPhotons.
Open Scope R_scope.

Definition positive_er (x : ER) : Prop := match x with Fin r => 0 < r | PInf => True | _ => False end.
Definition negative_er (x : ER) : Prop := match x with Fin r => r < 0 | NInf => True | _ => False end.
Definition positive_b64 (x : b64) : Prop :=
  x = B754_infinity false \/ (is_finite x = true /\ 0 < B2R x).
Definition negative_b64 (x : b64) : Prop :=
  x = B754_infinity true \/ (is_finite x = true /\ B2R x < 0).

Definition accepted {T} (pos neg : T -> Prop) (p : PowerLawParams T) : Prop :=
  pos (pl_rho_ref p) /\ pos (pl_temp_ref p) /\ pos (pl_nu_ref p) /\
  ~ neg (pl_rho_off p) /\ ~ neg (pl_temp_off p) /\ ~ neg (pl_nu_off p).
(** without the condition on the density reference *)
Definition accepted_s {T} (pos neg : T -> Prop) (p : PowerLawParams T) : Prop :=
  pos (pl_temp_ref p) /\ pos (pl_nu_ref p) /\
  ~ neg (pl_rho_off p) /\ ~ neg (pl_temp_off p) /\ ~ neg (pl_nu_off p).
