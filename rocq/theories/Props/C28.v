(** C28. GroupOfNu returns the unique group containing the frequency. *)
From Coq Require Import Reals ZArith List Lia Lra Bool.
From Verif Require Import Proofs.C28 Base.Outcome Base.Ops Inst.ER Inst.B64 Model.Constants Model.Robust Model.Spiner Model.MeanUtils
  Model.MeanPhotons Spec.Groups Proofs.OrderLaws Proofs.GroupFacts.
Import ListNotations.
Open Scope R_scope.

(** For every constructed object with at most 2^30 groups: inside the covered range
    GroupOfNu returns the one group containing the frequency; outside, and for NaN, it
    reports an error. *)
Theorem C28_unique_group :
  forall (T : Type) (O : Ops T) (val : T -> ER), values O val ->
  forall m : MeanTable T, constructed m -> (mt_ngroups m <= 2 ^ 30)%Z ->
  let b := edge val (mt_bounds m) in
  let n := Z.to_nat (mt_ngroups m) in
  forall nu : T,
  (covered b n (val nu) -> exists g,
     mt_GroupOfNu m nu = Ok (Z.of_nat g) /\ in_group b n g (val nu) /\
     forall h, in_group b n h (val nu) -> h = g) /\
  (~ covered b n (val nu) -> mt_GroupOfNu m nu = Error) /\
  (val nu = NaN -> mt_GroupOfNu m nu = Error).
Proof. exact C28_unique_group_proof. Qed.
Print Assumptions C28_unique_group.

(** Monotone, and every group is reached (by its own lower edge). *)
Theorem C28_monotone_onto :
  forall (T : Type) (O : Ops T) (val : T -> ER), values O val ->
  forall m : MeanTable T, constructed m -> (mt_ngroups m <= 2 ^ 30)%Z ->
  (forall nu nu' g g', mt_GroupOfNu m nu = Ok g -> mt_GroupOfNu m nu' = Ok g' ->
     leE (val nu) (val nu') -> (0 <= g <= g')%Z /\ (g' < mt_ngroups m)%Z) /\
  (forall g, (0 <= g < mt_ngroups m)%Z -> exists nu, nth_error (mt_bounds m) (Z.to_nat g) = Some nu /\
     mt_GroupOfNu m nu = Ok g).
Proof. exact C28_monotone_onto_proof. Qed.
Print Assumptions C28_monotone_onto.

(** Beyond: with 1431655766 (about 2^30.4) groups or more the midpoint of the search
    overflows int for every frequency in the upper half of the partition. *)
Theorem C28_overflow :
  forall (T : Type) (O : Ops T) (val : T -> ER), values O val ->
  forall (gb : list T) (ng : Z) (nu : T),
  ValidateGroupBounds gb ng = Ok tt -> (1431655766 <= ng < 2 ^ 31)%Z ->
  leE (edge val gb (Z.to_nat (ng / 2))) (val nu) -> ltE (val nu) (edge val gb (Z.to_nat ng)) ->
  GroupOfNuImpl gb ng nu = UB.
Proof. exact C28_overflow_proof. Qed.
Print Assumptions C28_overflow.

Theorem C28_overflow_refuted :
  exists (gb : list ER) (ng : Z) (nu : ER),
  ValidateGroupBounds gb ng = Ok tt /\ (ng < 2 ^ 31)%Z /\
  covered (edge (fun x => x) gb) (Z.to_nat ng) nu /\ GroupOfNuImpl gb ng nu = UB.
Proof. exact C28_overflow_refuted_proof. Qed.
Print Assumptions C28_overflow_refuted.

(** A three-group partition [1,2), [2,4), [4,+inf] of a constructed object. *)
Example C28_unique_group_example_holds :
  let gb := [Fin 1; Fin 2; Fin 4; PInf] in
  let box := {| db_dims := [3; 1; 1]%Z; db_ranges := repeat (Some {| g_min := Fin 0; g_max := Fin 1; g_dx := Fin 1; g_idx := Fin 1; g_N := 2 |}) 3;
                db_data := [Fin 1; Fin 1; Fin 1] |} in
  exists m, LoadTables box box gb = Ok m /\ mt_GroupOfNu m (Fin 3) = Ok 1%Z /\
    mt_GroupOfNu m PInf = Ok 2%Z /\ mt_GroupOfNu m (Fin (1 / 2)) = Error.
Proof. exact C28_unique_group_example. Qed.
