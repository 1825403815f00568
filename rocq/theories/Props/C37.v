(** C37. Table loading: what is rejected, what is accepted, what is read. *)
From Coq Require Import Reals ZArith List Lia Lra Bool.
From Verif Require Import Proofs.C37 Base.Outcome Base.Ops Inst.ER Inst.ERTac Model.Constants Model.Robust Model.Spiner Model.MeanUtils
  Model.MeanPhotons Spec.Groups Spec.Tables Spec.TableShape Proofs.ArrayFacts Proofs.OrderLaws Proofs.GroupFacts
  Proofs.InterpFacts Proofs.TableFacts Proofs.LoadFacts Proofs.C35.
Import ListNotations.
Open Scope R_scope.

(** Tables of different or wrong ranks, sizes or grids, or without a group, are rejected,
    whatever the bounds array; in exact arithmetic and in binary64. *)
Theorem C37_shape :
  forall (T : Type) (O : Ops T) (val : T -> ER), values O val ->
  forall (p r : DataBox T) (gb : list T), ~ compatible val p r -> LoadTables p r gb = Error.
Proof. exact C37_shape_proof. Qed.
Print Assumptions C37_shape.

(** Compatible tables and a bounds array of at least one number more than there are groups:
    the load succeeds if the bounds delimit the groups and is an error otherwise; no read is
    outside a buffer. The object made has the dimensions and grids of the tables, the
    guarded logarithms of their entries, and the first ngroups + 1 bounds. *)
Theorem C37_load :
  forall (T : Type) (O : Ops T) (val : T -> ER), values O val ->
  forall (p r : DataBox T) (gb : list T), compatible val p r -> well_formed p -> well_formed r ->
  let n := nth 0 (db_dims p) 0%Z in
  (n < Z.of_nat (length gb))%Z ->
  (~ partition (edge val gb) (Z.to_nat n) -> LoadTables p r gb = Error) /\
  (partition (edge val gb) (Z.to_nat n) ->
   exists m, LoadTables p r gb = Ok m /\ mt_ngroups m = n /\
     length (mt_bounds m) = Z.to_nat (n + 1) /\
     (forall g, (g <= Z.to_nat n)%nat -> nth_error (mt_bounds m) g = nth_error gb g) /\
     db_dims (mt_lPlanck m) = db_dims p /\ db_dims (mt_lRosseland m) = db_dims p /\
     db_ranges (mt_lPlanck m) = db_ranges p /\ db_ranges (mt_lRosseland m) = db_ranges r /\
     db_data (mt_lPlanck m) = map ToLog (db_data p) /\ db_data (mt_lRosseland m) = map ToLog (db_data r)).
Proof. exact C37_load_proof. Qed.
Print Assumptions C37_load.

(** The full statement "never reads outside the supplied bounds array" is false of the file
    constructor, which uses the array of the file whatever its length: it is read past its
    end exactly when it is too short and its numbers are acceptable as far as they go. *)
Theorem C37_short_bounds :
  forall (T : Type) (O : Ops T) (val : T -> ER), values O val ->
  forall (p r : DataBox T) (gb : list T), well_formed p -> well_formed r ->
  let n := nth 0 (db_dims p) 0%Z in
  (LoadFile (Some {| mf_planck := Some p; mf_rosseland := Some r; mf_bounds := Some gb |}) = UB <->
   compatible val p r /\ (Z.of_nat (length gb) <= n)%Z /\
   forall g, (g < length gb)%nat -> exists e, edge val gb g = Fin e /\ 0 <= e /\
     forall k, (k < g)%nat -> ltE (edge val gb k) (Fin e)).
Proof. exact C37_short_bounds_proof. Qed.
Print Assumptions C37_short_bounds.

(** A file with tables for two groups and the two bounds 0, 1 is read past the end of its
    bounds. *)
Theorem C37_short_bounds_refuted :
  exists f : MeanFile ER, LoadFile (Some f) = UB /\
  (exists p r gb, f = {| mf_planck := Some p; mf_rosseland := Some r; mf_bounds := Some gb |} /\
   compatible (fun x => x) p r /\ well_formed p /\ well_formed r).
Proof. exact C37_short_bounds_refuted_proof. Qed.
Print Assumptions C37_short_bounds_refuted.

(** The full statement "succeeds with consistent tables" is false too: the number of nodes of
    a grid is not compared with the size of its dimension. Here grids of three nodes come
    with 2 x 2 entries per group; the object is made and a lookup within the grid reads
    outside the data. *)
Theorem C37_grid_size_refuted :
  exists (p : DataBox ER) (gb : list ER) (m : MeanTable ER) (rho temp : R),
  well_formed p /\ partition (edge (fun x => x) gb) 1 /\ LoadTables p p gb = Ok m /\ 0 < rho /\ 0 < temp /\
  (forall k g, k = 1%nat \/ k = 2%nat -> nth k (db_ranges p) None = Some g ->
     ltE (g_min g) (ToLog (Fin rho)) /\ ltE (ToLog (Fin rho)) (g_max g) /\
     ltE (g_min g) (ToLog (Fin temp)) /\ ltE (ToLog (Fin temp)) (g_max g)) /\
  mt_PlanckGroup m (Fin rho) (Fin temp) 0 = UB.
Proof. exact C37_grid_size_refuted_proof. Qed.
Print Assumptions C37_grid_size_refuted.

(** The two-group example tables with the bounds 0, 1, infinity load. *)
Example C37_load_example_holds :
  exists m, LoadFile (ex_file [1; 2; 3; 4; 5; 6; 7; 8] [Fin 0; Fin 1; PInf]) = Ok m /\ mt_ngroups m = 2%Z /\
    mt_bounds m = [Fin 0; Fin 1; PInf].
Proof. exact C37_load_example. Qed.

(** Tables of two and of three groups are rejected. *)
Example C37_shape_example_holds : forall gb,
  LoadTables (ex_box [1; 1; 1; 1; 1; 1; 1; 1])
    {| db_dims := [3; 2; 2]%Z; db_ranges := db_ranges (ex_box []); db_data := repeat (Fin 1) 12 |} gb = Error.
Proof. exact C37_shape_example. Qed.
