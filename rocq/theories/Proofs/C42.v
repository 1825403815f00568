(** C42: Chebyshev basis, nodes and cell maps. *)
From Coq Require Import Reals ZArith List Lia Lra Arith Bool.
From Verif Require Import Base.Outcome Base.Ops Inst.ER Inst.ERTac Model.Chebyshev.
From Verif Require Import Spec.Means Spec.Chebyshev Proofs.ArrayFacts Proofs.ChebFacts Proofs.ChebModel.
Import ListNotations.
Open Scope R_scope.

(** Every arithmetic: T_0 = 1, T_1 = x and T_{i+2} = 2 x T_{i+1} - T_i, for every degree and
    every number. *)
Lemma C42_recurrence_proof :
  forall (T : Type) (O : Ops T) (x : T),
    ChebT 0 x = Ok (OofZ 1) /\ ChebT 1 x = Ok x /\
    forall i, (0 <= i)%Z -> exists a b, ChebT i x = Ok a /\ ChebT (i + 1) x = Ok b /\
      ChebT (i + 2) x = Ok (Osub (Omul (Omul (OofZ 2) x) b) a).
Proof.
  intros T O x. split; [reflexivity|]. split; [reflexivity|]. intros i Hi.
  exists (chebO (Z.to_nat i) x), (chebO (S (Z.to_nat i)) x).
  rewrite <- (Z2Nat.id i) at 1 3 5 by exact Hi.
  replace (Z.of_nat (Z.to_nat i) + 1)%Z with (Z.of_nat (S (Z.to_nat i))) by lia.
  replace (Z.of_nat (Z.to_nat i) + 2)%Z with (Z.of_nat (S (S (Z.to_nat i)))) by lia.
  rewrite !ChebT_eq. auto.
Qed.

(** T_5 (2) = 16 * 32 - 20 * 8 + 5 * 2 = 362 *)
Lemma C42_recurrence_example : ChebT 5 (Fin 2) = Ok (Fin 362).
Proof. change 5%Z with (Z.of_nat 5). rewrite ChebT_fin. do 2 f_equal. cbn [cheb]. ring. Qed.

(** Exact arithmetic: T(n, x) = cos (n arccos x) on [-1, 1], for every degree. *)
Lemma C42_cosine_proof :
  forall (n : Z) (x : R), (0 <= n)%Z -> -1 <= x <= 1 ->
    ChebT n (Fin x) = Ok (Fin (cos (IZR n * acos x))).
Proof.
  intros n x Hn Hx. rewrite <- (Z2Nat.id n) by exact Hn. rewrite ChebT_fin, <- INR_IZR_INZ.
  rewrite <- cheb_cos, cos_acos by exact Hx. reflexivity.
Qed.

(** T_3 (cos 60 degrees) = cos 180 degrees *)
Lemma C42_cosine_example : ChebT 3 (Fin (1 / 2)) = Ok (Fin (-1)).
Proof. change 3%Z with (Z.of_nat 3). rewrite ChebT_fin. do 2 f_equal. cbn [cheb]. field. Qed.

(** Exact arithmetic: the maps to and from [-1, 1] are mutually inverse, and take the ends of
    the interval to the ends, in both builds. *)
Lemma C42_cells_proof :
  forall (dbg : bool) (a b : R), a < b ->
    (forall x, exists t, ToUnitCell dbg (Fin x) (Fin a) (Fin b) = Ok (Fin t) /\
       FromUnitCell dbg (Fin t) (Fin a) (Fin b) = Ok (Fin x) /\ (a <= x <= b <-> -1 <= t <= 1)) /\
    (forall t, exists x, FromUnitCell dbg (Fin t) (Fin a) (Fin b) = Ok (Fin x) /\
       ToUnitCell dbg (Fin x) (Fin a) (Fin b) = Ok (Fin t)) /\
    FromUnitCell dbg (Fin (-1)) (Fin a) (Fin b) = Ok (Fin a) /\
    FromUnitCell dbg (Fin 1) (Fin a) (Fin b) = Ok (Fin b).
Proof.
  intros dbg a b Hab.
  assert (E1 : from_cell a b (-1) = a) by (unfold from_cell; field).
  assert (E2 : from_cell a b 1 = b) by (unfold from_cell; field).
  split; [|split; [|split]].
  - intros x. exists (to_cell a b x). rewrite ToUnitCell_fin, FromUnitCell_fin, from_to by exact Hab.
    split; [reflexivity|]. split; [reflexivity|].
    pose proof (from_to a b x Hab) as E. set (t := to_cell a b x) in *.
    pose proof (from_cell_incr a b (-1) t Hab). pose proof (from_cell_incr a b t (-1) Hab).
    pose proof (from_cell_incr a b 1 t Hab). pose proof (from_cell_incr a b t 1 Hab).
    rewrite E, E1, E2 in *.
    destruct (Rtotal_order (-1) t) as [?|[Et|?]]; destruct (Rtotal_order t 1) as [?|[Eu|?]];
      try (rewrite <- Et, E1 in E); try (rewrite Eu, E2 in E); split; intros; lra.
  - intros t. exists (from_cell a b t). rewrite FromUnitCell_fin, ToUnitCell_fin, to_from by exact Hab. auto.
  - rewrite FromUnitCell_fin, E1 by exact Hab. reflexivity.
  - rewrite FromUnitCell_fin, E2 by exact Hab. reflexivity.
Qed.

(** 7 is the middle of [4, 10] *)
Lemma C42_cells_example :
  ToUnitCell true (Fin 7) (Fin 4) (Fin 10) = Ok (Fin 0) /\
  FromUnitCell true (Fin 0) (Fin 4) (Fin 10) = Ok (Fin 7).
Proof.
  rewrite ToUnitCell_fin, FromUnitCell_fin by lra. unfold to_cell, from_cell.
  split; do 2 f_equal; field.
Qed.

(** Exact arithmetic: for every interval and every number of points up to 2^30 - 1, GetPoints
    fills the first n cells with strictly increasing points of the open interval, leaves the
    rest of the array alone, and these points are exactly the places where T(n, .) of the unit
    cell coordinate is zero. *)
Lemma C42_points_proof :
  forall (dbg : bool) (a b : R) (n : nat) (points : list ER),
    a < b -> (0 < n)%nat -> (Z.of_nat n < 2 ^ 30)%Z -> (n <= length points)%nat ->
    exists out p, GetPoints dbg (Fin a) (Fin b) (Z.of_nat n) points = Ok out /\
      same_from n points out /\ reals out n p /\
      (forall i j, (i < j)%nat -> (j < n)%nat -> p i < p j) /\
      (forall i, (i < n)%nat -> a < p i < b) /\
      forall x, (exists i, (i < n)%nat /\ x = p i) <->
        (exists t, ToUnitCell dbg (Fin x) (Fin a) (Fin b) = Ok t /\ ChebT (Z.of_nat n) t = Ok (Fin 0)).
Proof.
  intros dbg a b n pts Hab Hn Hf Hl.
  destruct (GetPoints_fin dbg a b n pts Hab Hn Hf Hl) as [out [E [H1 H2]]].
  exists out, (point a b n). split; [exact E|]. split; [exact H1|]. split; [exact H2|]. split; [|split].
  - intros i j Hij Hj. apply from_cell_incr; [exact Hab|]. apply zero_incr; assumption.
  - intros i Hi. apply point_range; assumption.
  - intros x. rewrite ToUnitCell_fin by exact Hab. split.
    + intros [i [Hi ->]]. eexists. split; [reflexivity|]. rewrite ChebT_fin. unfold point.
      rewrite to_from by exact Hab. rewrite cheb_zero by exact Hi. reflexivity.
    + intros [t [Et Ht]]. injection Et as <-. rewrite ChebT_fin in Ht. injection Ht as Ht.
      apply cheb_zero_only in Ht. destruct Ht as [j [Hj Ej]]. exists j. split; [exact Hj|].
      unfold point. rewrite <- Ej, from_to by exact Hab. reflexivity.
Qed.

(** one point: the middle *)
Lemma C42_points_example :
  GetPoints false (Fin 4) (Fin 10) 1 [NaN; NaN] = Ok [Fin 7; NaN].
Proof.
  destruct (GetPoints_fin false 4 10 1 [NaN; NaN]) as [out [E [[Hl Hs] Hr]]]; [lra|lia|lia|cbn; lia|].
  change 1%Z with (Z.of_nat 1). rewrite E. f_equal.
  destruct out as [|u [|v [|w out]]]; try discriminate Hl.
  specialize (Hr 0%nat ltac:(lia)). specialize (Hs 1%nat ltac:(lia)). cbn in Hr, Hs.
  injection Hr as ->. injection Hs as ->. do 2 f_equal. unfold point, zero, from_cell.
  change (INR 0) with 0. change (INR 1) with 1.
  replace ((2 * 0 + 1) * PI / (2 * 1)) with (PI / 2) by field. rewrite cos_PI2. field.
Qed.

(** Every arithmetic, outside these bounds: from 2^30 points on, the int product 2 * npoints
    overflows; a negative degree reads before the array of three; with asserts compiled in an
    interval that is not increasing never returns. *)
Lemma C42_limits_proof :
  forall (T : Type) (O : Ops T) (dbg : bool) (a b x : T),
    (forall n points, (2 ^ 30 <= n)%Z -> GetPoints dbg a b n points = UB) /\
    (forall i, (i < 0)%Z -> ChebT i x = UB) /\
    (Ogtb b a = false -> ToUnitCell true x a b = Error /\ FromUnitCell true x a b = Error).
Proof.
  intros T O dbg a b x. split; [|split].
  - intros n pts Hn. unfold GetPoints, for_int, for_loop.
    destruct (Z.to_nat n) as [|k] eqn:E; [lia|]. cbn [for_from].
    assert (F : int_fits (2 * n) = false) by (unfold int_fits; lia). rewrite F. reflexivity.
  - intros i Hi. apply ChebT_neg. exact Hi.
  - intros H. unfold ToUnitCell, FromUnitCell, cell_assert. rewrite H. auto.
Qed.
