(** C38. Constructors accept exactly the documented parameters. *)
From Coq Require Import Reals ZArith Lra Lia Bool.
From Flocq Require Import Core IEEE754.BinarySingleNaN.
From Verif Require Import Proofs.C38 Base.Outcome Base.Ops Inst.ER Inst.ERTac Inst.B64 Model.Constants
  Model.PowerLawPhotons Model.ScatteringPhotons Spec.Parameters.
Open Scope R_scope.

(** PowerLaw absorption, doubles (any libm) and exact numbers: constructed exactly
    when the three references are positive (NaN refused) and no offset is negative;
    an error in every other case. *)
Theorem C38_powerlaw :
  (forall (L : Libm) (p : PowerLawParams b64),
     (@powerlaw_ctor _ (B64_ops L) p = Ok p <-> accepted positive_b64 negative_b64 p) /\
     (@powerlaw_ctor _ (B64_ops L) p = Error <-> ~ accepted positive_b64 negative_b64 p)) /\
  (forall p : PowerLawParams ER,
     (powerlaw_ctor p = Ok p <-> accepted positive_er negative_er p) /\
     (powerlaw_ctor p = Error <-> ~ accepted positive_er negative_er p)).
Proof. exact C38_powerlaw_proof. Qed.
Print Assumptions C38_powerlaw.

(** PowerLaw scattering: the same, except that the density reference is not looked
    at. *)
Theorem C38_powerlaw_scattering_partial :
  (forall (L : Libm) (p : PowerLawParams b64) (apm : b64),
     (@powerlaw_s_ctor _ (B64_ops L) p apm = Ok (p, apm) <-> accepted_s positive_b64 negative_b64 p) /\
     (@powerlaw_s_ctor _ (B64_ops L) p apm = Error <-> ~ accepted_s positive_b64 negative_b64 p)) /\
  (forall (p : PowerLawParams ER) (apm : ER),
     (powerlaw_s_ctor p apm = Ok (p, apm) <-> accepted_s positive_er negative_er p) /\
     (powerlaw_s_ctor p apm = Error <-> ~ accepted_s positive_er negative_er p)).
Proof. exact C38_powerlaw_scattering_partial_proof. Qed.
Print Assumptions C38_powerlaw_scattering_partial.

(** The full claim is false of scattering: a zero or negative density reference is
    accepted, and the cross section at a positive state is then infinite or
    negative. *)
Theorem C38_scattering_rho_ref_refuted :
  exists (p q : PowerLawParams ER) (apm : ER) (s : R),
  ~ positive_er (pl_rho_ref p) /\ powerlaw_s_ctor p apm = Ok (p, apm) /\
  s_TotalCrossSection (PowerLawSOpacity p apm) (Fin 1) (Fin 1) (Fin 1) = Ok PInf /\
  ~ positive_er (pl_rho_ref q) /\ powerlaw_s_ctor q apm = Ok (q, apm) /\
  s_TotalCrossSection (PowerLawSOpacity q apm) (Fin 1) (Fin 1) (Fin 1) = Ok (Fin s) /\ s < 0.
Proof. exact C38_scattering_rho_ref_refuted_proof. Qed.
Print Assumptions C38_scattering_rho_ref_refuted.

(** Offsets: a NaN offset is accepted, and makes every coefficient NaN. *)
Theorem C38_nan_offset_refuted :
  exists p : PowerLawParams ER,
  pl_rho_off p = NaN /\ powerlaw_ctor p = Ok p /\
  forall pc, powerlaw_alpha pc p (Fin 1) (Fin 1) (Fin 1) = NaN.
Proof. exact C38_nan_offset_refuted_proof. Qed.
Print Assumptions C38_nan_offset_refuted.

Example C38_powerlaw_example_holds : accepted positive_er negative_er (pl_with (Fin 1) (Fin 0)).
Proof. exact C38_powerlaw_example. Qed.
