(** What a pair of opacity tables must satisfy to be accepted, independently of the code. *)
From Coq Require Import ZArith List.
From Verif Require Import Base.Ops Inst.ER Model.Spiner.
Import ListNotations.

Section Shape.
  Context {T : Type} (val : T -> ER).

  (** the number of entries of a box with the given dimensions *)
  Definition volume (dims : list Z) : Z := fold_right Z.mul 1%Z dims.
  (** a box as the library makes it: as many entries as its dimensions say *)
  Definition well_formed (b : DataBox T) : Prop :=
    Forall (fun n => (0 <= n)%Z) (db_dims b) /\ Z.of_nat (length (db_data b)) = volume (db_dims b).

  Definition same_number (a b : ER) : Prop := a = b /\ a <> NaN.
  Definition same_grid (g h : Grid T) : Prop :=
    same_number (val (g_min g)) (val (g_min h)) /\ same_number (val (g_max g)) (val (g_max h)) /\
    same_number (val (g_dx g)) (val (g_dx h)) /\ same_number (val (g_idx g)) (val (g_idx h)) /\
    g_N g = g_N h.

  (** the two tables have three dimensions each, of the same sizes, at least one group, and
      the same temperature and density grids *)
  Definition compatible (p r : DataBox T) : Prop :=
    length (db_dims p) = 3%nat /\ db_dims r = db_dims p /\ (0 < nth 0 (db_dims p) 0)%Z /\
    forall k, k = 1%nat \/ k = 2%nat ->
      exists g h, nth k (db_ranges p) None = Some g /\ nth k (db_ranges r) None = Some h /\ same_grid g h.
End Shape.
