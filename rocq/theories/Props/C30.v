(** C30. Gray calls on a table with several groups. *)
From Coq Require Import Reals ZArith List Lia Lra Bool.
From Verif Require Import Proofs.C30 Base.Outcome Base.Ops Inst.ER Inst.ERTac Model.Constants Model.Robust Model.Spiner Model.MeanUtils
  Model.ThermalPhotons Model.MeanPhotons Model.MeanVariants Spec.Groups Spec.Tables Spec.TableShape Proofs.OrderLaws
  Proofs.InterpFacts Proofs.TableFacts Proofs.C28 Proofs.C35 Proofs.C37.
Import ListNotations.
Open Scope R_scope.

(** In debug builds the gray calls of a table that does not have exactly one group report an
    error, and Emissivity does so in every build, in any arithmetic. *)
Theorem C30_error :
  forall (T : Type) (O : Ops T) (pc : PhysConst T) (m : MeanTable T) (rho temp : T) (gmode : Z),
  mt_ngroups m <> 1%Z ->
  mt_PlanckMean true m rho temp = Error /\ mt_RosselandMean true m rho temp = Error /\
  mt_Emissivity pc m rho temp gmode = Error.
Proof. exact C30_error_proof. Qed.
Print Assumptions C30_error.

(** On a table of one group the gray calls answer for that group, in every build; Emissivity
    is that coefficient times the integrated Planck function. *)
Theorem C30_single :
  forall (T : Type) (O : Ops T) (pc : PhysConst T) (dbg : bool) (m : MeanTable T) (rho temp : T) (gmode : Z),
  mt_ngroups m = 1%Z ->
  mt_PlanckMean dbg m rho temp = mt_Coefficient m rho temp 0 Planck /\
  mt_RosselandMean dbg m rho temp = mt_Coefficient m rho temp 0 Rosseland /\
  mt_Emissivity pc m rho temp gmode =
    bind (mt_Coefficient m rho temp 0 gmode) (fun a => Ok (Omul a (planck_T pc temp))).
Proof. exact C30_single_proof. Qed.
Print Assumptions C30_single.

Example C30_single_example_holds :
  exists m, LoadTables {| db_dims := [1; 2; 2]%Z; db_ranges := db_ranges (ex_box []); db_data := map Fin [1; 1; 1; 1] |}
     {| db_dims := [1; 2; 2]%Z; db_ranges := db_ranges (ex_box []); db_data := map Fin [1; 1; 1; 1] |} [Fin 0; PInf] = Ok m /\
  mt_ngroups m = 1%Z.
Proof. exact C30_single_example. Qed.

(** The full statement is false in release builds, where PORTABLE_REQUIRE does nothing: on a
    loaded table of two groups with different coefficients the gray calls answer with the
    coefficient of group 0. *)
Theorem C30_release_refuted :
  exists (m : MeanTable ER) (rho temp a b : R), constructed m /\ mt_ngroups m = 2%Z /\ 0 < rho /\ 0 < temp /\
  mt_PlanckMean false m (Fin rho) (Fin temp) = Ok (Fin a) /\
  mt_PlanckGroup m (Fin rho) (Fin temp) 0 = Ok (Fin a) /\ mt_PlanckGroup m (Fin rho) (Fin temp) 1 = Ok (Fin b) /\ a <> b /\
  mt_RosselandMean false m (Fin rho) (Fin temp) = mt_RosselandGroup m (Fin rho) (Fin temp) 0 /\
  mt_RosselandGroup m (Fin rho) (Fin temp) 0 <> mt_RosselandGroup m (Fin rho) (Fin temp) 1.
Proof. exact C30_release_refuted_proof. Qed.
Print Assumptions C30_release_refuted.

(** The same spelling means different things on the object and on the variant: with three
    arguments the object takes a group and averages after Rosseland, the variant takes the
    averaging and group 0. Neither reports an error on the two-group table, and the numbers
    differ, for the third argument 1 (Planck, or the second group). *)
Theorem C30_variant_refuted :
  exists (m : MeanTable ER) (rho temp a b : R), constructed m /\ mt_ngroups m = 2%Z /\ 0 < rho /\ 0 < temp /\ a <> b /\
  forall pc, ma_Coefficient3 (mean_api pc m) (Fin rho) (Fin temp) 1 = Ok (Fin a) /\
             mv_Coefficient3 pc (MeanBase m) (Fin rho) (Fin temp) 1 = Ok (Fin b).
Proof. exact C30_variant_refuted_proof. Qed.
Print Assumptions C30_variant_refuted.

(** With one group and the third argument 0 the two spellings agree; and the calls with all
    four arguments always do. *)
Theorem C30_variant_agrees :
  forall (T : Type) (O : Ops T) (pc : PhysConst T) (v : MeanAlt T) (rho temp : T),
  mv_Coefficient3 pc v rho temp 0 = ma_Coefficient3 (mean_visit pc v) rho temp 0 /\
  forall group gmode, mv_Coefficient pc v rho temp group gmode = ma_Coefficient (mean_visit pc v) rho temp group gmode.
Proof. exact C30_variant_agrees_proof. Qed.
Print Assumptions C30_variant_agrees.
