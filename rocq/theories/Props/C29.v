(** C29. Coefficient by frequency agrees with coefficient by group. *)
From Coq Require Import Reals ZArith List Lia Lra Bool.
From Verif Require Import Proofs.C29 Base.Outcome Base.Ops Inst.ER Inst.ERTac Model.Constants Model.Robust Model.Spiner Model.MeanUtils
  Model.MeanPhotons Model.MeanVariants Model.NonCGSPhotons Spec.Tables Proofs.InterpFacts Proofs.TableFacts Proofs.C35.
Import ListNotations.
Open Scope R_scope.

(** The photon mean opacities, absorption and scattering, in any arithmetic. *)
Theorem C29_object :
  forall (T : Type) (O : Ops T) (pc : PhysConst T) (m : MeanTable T),
  by_frequency_is_by_group (mean_api pc m) /\ coefficients_do_not_fail (mean_api pc m).
Proof. exact C29_object_proof. Qed.
Print Assumptions C29_object.

(** Wrapped in any number of unit conversions. *)
Theorem C29_units :
  forall (T : Type) (O : Ops T) (o : MeanApi T) (u : Units T),
  by_frequency_is_by_group o -> by_frequency_is_by_group (MeanNonCGSUnits o u).
Proof. exact C29_units_proof. Qed.
Print Assumptions C29_units.

(** Through the variant, whatever it holds: the variant's own members. *)
Theorem C29_variant :
  forall (T : Type) (O : Ops T) (pc : PhysConst T) (v : MeanAlt T) (rho temp nu : T) (gmode : Z),
  (forall g, mv_GroupOfNu pc v nu = Ok g ->
     mv_FromNu pc v rho temp nu gmode = mv_Coefficient pc v rho temp g gmode /\
     mv_PlanckFromNu pc v rho temp nu = mv_PlanckGroup pc v rho temp g /\
     mv_RosselandFromNu pc v rho temp nu = mv_RosselandGroup pc v rho temp g) /\
  (mv_FromNu pc v rho temp nu gmode = Error <-> mv_GroupOfNu pc v nu = Error) /\
  (mv_PlanckFromNu pc v rho temp nu = Error <-> mv_GroupOfNu pc v nu = Error) /\
  (mv_RosselandFromNu pc v rho temp nu = Error <-> mv_GroupOfNu pc v nu = Error).
Proof. exact C29_variant_proof. Qed.
Print Assumptions C29_variant.

(** A two-group table split at frequency 1: frequency 2 is in group 1; the coefficient is
    that of group 1. A negative frequency is an error. *)
Example C29_object_example_holds : forall pc,
  let m := ex_table [0; 1; 2; 3; 4; 5; 6; 7] in
  ma_GroupOfNu (mean_api pc m) (Fin 2) = Ok 1%Z /\
  ma_FromNu (mean_api pc m) (Fin (10 - tiny)) (Fin (1 - tiny)) (Fin 2) 1 = Ok (Fin ((10 - tiny) * pow10 5)) /\
  ma_FromNu (mean_api pc m) (Fin (10 - tiny)) (Fin (1 - tiny)) (Fin (-1)) 1 = Error.
Proof. exact C29_object_example. Qed.
