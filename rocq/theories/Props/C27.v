(** C27. Group-bound validation accepts exactly the well-formed partitions. *)
From Coq Require Import Reals ZArith List Lia Lra Bool.
From Verif Require Import Proofs.C27 Base.Outcome Base.Ops Inst.ER Inst.B64 Model.Constants Model.Robust Model.Spiner Model.MeanUtils
  Model.MeanPhotons Spec.Groups Proofs.OrderLaws Proofs.GroupFacts.
Import ListNotations.
Open Scope R_scope.

(** Validation of a buffer that holds ngroups + 1 numbers accepts exactly the
    partitions and reports an error on everything else. Any arithmetic whose
    comparisons are those of the extended reals. *)
Theorem C27_exact :
  forall (T : Type) (O : Ops T) (val : T -> ER), values O val ->
  forall (gb : list T) (ngroups : Z), (ngroups < Z.of_nat (length gb))%Z ->
  (partition (edge val gb) (Z.to_nat ngroups) -> ValidateGroupBounds gb ngroups = Ok tt) /\
  (~ partition (edge val gb) (Z.to_nat ngroups) -> ValidateGroupBounds gb ngroups = Error).
Proof. exact C27_exact_proof. Qed.
Print Assumptions C27_exact.

(** Constructors: every malformed list is an error of every constructor, whatever the
    other arguments; every object that exists stores exactly the given ngroups + 1
    bounds; and well-formed bounds never make the table constructor fail. *)
Theorem C27_constructors :
  forall (T : Type) (O : Ops T) (val : T -> ER), values O val ->
  forall (gb : list T),
  (forall pc dbg opc coef r0 r1 NRho t0 t1 NT ngroups N, (ngroups < Z.of_nat (length gb))%Z ->
    (~ partition (edge val gb) (Z.to_nat ngroups) ->
      MeanImpl pc dbg opc coef r0 r1 NRho t0 t1 NT gb ngroups N = Error) /\
    (forall m, MeanImpl pc dbg opc coef r0 r1 NRho t0 t1 NT gb ngroups N = Ok m ->
      partition (edge val gb) (Z.to_nat ngroups) /\ mt_ngroups m = ngroups /\
      mt_bounds m = firstn (Z.to_nat (ngroups + 1)) gb)) /\
  (forall p r, (db_dim p 1 < Z.of_nat (length gb))%Z ->
    (~ partition (edge val gb) (Z.to_nat (db_dim p 1)) ->
      LoadTables p r gb = Error /\
      LoadFile (Some {| mf_planck := Some p; mf_rosseland := Some r; mf_bounds := Some gb |}) = Error) /\
    (forall m, LoadTables p r gb = Ok m ->
      partition (edge val gb) (Z.to_nat (db_dim p 1)) /\ mt_ngroups m = db_dim p 1 /\
      mt_bounds m = firstn (Z.to_nat (db_dim p 1 + 1)) gb) /\
    (partition (edge val gb) (Z.to_nat (db_dim p 1)) ->
      validate_tables p r = Ok tt -> (db_size p <= db_size r)%Z -> exists m, LoadTables p r gb = Ok m)).
Proof. exact C27_constructors_proof. Qed.
Print Assumptions C27_constructors.

(** GetGroupBounds gives back the bounds an averaged or loaded table was made with. *)
Theorem C27_reported :
  forall (T : Type) (O : Ops T) (val : T -> ER), values O val ->
  forall (gb : list T),
  (forall pc dbg opc coef r0 r1 NRho t0 t1 NT ngroups N m, (ngroups < Z.of_nat (length gb))%Z ->
    MeanImpl pc dbg opc coef r0 r1 NRho t0 t1 NT gb ngroups N = Ok m ->
    mt_GetGroupBounds m = Ok (firstn (Z.to_nat (ngroups + 1)) gb)) /\
  (forall p r m, (db_dim p 1 < Z.of_nat (length gb))%Z -> LoadTables p r gb = Ok m ->
    mt_GetGroupBounds m = Ok (firstn (Z.to_nat (db_dim p 1 + 1)) gb)).
Proof. exact C27_reported_proof. Qed.
Print Assumptions C27_reported.

(** The laws hold of exact arithmetic and of IEEE doubles with any libm; [0, 1, +inf)
    is accepted in both, and a list with a NaN or out of order is not. *)
Example C27_exact_example_holds :
  values ER_ops (fun x => x) /\ (forall L, values (B64_ops L) b64_val) /\
  ValidateGroupBounds (T := ER) [Fin 0; Fin 1; PInf] 2 = Ok tt /\
  (forall L, let _ := B64_ops L in ValidateGroupBounds [OofZ 0; OofZ 1; Oinf] 2 = Ok tt /\
     ValidateGroupBounds [OofZ 0; OofZ 2; OofZ 1] 2 = Error).
Proof. exact C27_exact_example. Qed.
