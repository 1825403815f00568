(** The model of chebyshev.hpp in exact arithmetic. *)
From Coq Require Import Reals ZArith List Lia Lra Arith Bool.
From Verif Require Import Base.Outcome Base.Ops Inst.ER Inst.ERTac Model.Chebyshev.
From Verif Require Import Spec.Means Spec.Chebyshev Proofs.ArrayFacts Proofs.MeanExact Proofs.ChebFacts.
Import ListNotations.
Open Scope R_scope.

(** the recurrence with the operations of the arithmetic *)
Fixpoint chebO {T : Type} {O : Ops T} (n : nat) (x : T) : T :=
  match n with
  | O => OofZ 1
  | S m => match m with
           | O => x
           | S k => Osub (Omul (Omul (OofZ 2) x) (chebO m x)) (chebO k x)
           end
  end.

Lemma T_iter {T : Type} {O : Ops T} (x : T) k :
  Nat.iter k (T_next x) (chebO 0 x, chebO 1 x, chebO 2 x) = (chebO k x, chebO (S k) x, chebO (S (S k)) x).
Proof.
  induction k as [|k IH]; [reflexivity|].
  change (T_next x (Nat.iter k (T_next x) (chebO 0 x, chebO 1 x, chebO 2 x)) =
          (chebO (S k) x, chebO (S (S k)) x, chebO (S (S (S k))) x)).
  rewrite IH. reflexivity.
Qed.

Lemma ChebT_eq {T : Type} {O : Ops T} (n : nat) (x : T) : ChebT (Z.of_nat n) x = Ok (chebO n x).
Proof.
  unfold ChebT. destruct (Z.ltb_spec (Z.of_nat n) 0); [lia|].
  destruct (Z.ltb_spec (Z.of_nat n) 3) as [H3|H3].
  - rewrite Nat2Z.id. destruct n as [|[|[|n]]]; try reflexivity. lia.
  - rewrite Nat2Z.id.
    change (OofZ 1, x, Osub (Omul (Omul (OofZ 2) x) x) (OofZ 1)) with (chebO 0 x, chebO 1 x, chebO 2 x).
    rewrite T_iter. replace (S (S (n - 2)))%nat with n by lia. reflexivity.
Qed.
Lemma ChebT_neg {T : Type} {O : Ops T} (i : Z) (x : T) : (i < 0)%Z -> ChebT i x = UB.
Proof. intros H. unfold ChebT. destruct (Z.ltb_spec i 0); [reflexivity|lia]. Qed.

Lemma chebO_fin n x : chebO n (Fin x) = Fin (cheb n x).
Proof.
  assert (H : chebO n (Fin x) = Fin (cheb n x) /\ chebO (S n) (Fin x) = Fin (cheb (S n) x)).
  { induction n as [|n [IH1 IH2]]; [split; reflexivity|]. split; [exact IH2|].
    rewrite cheb_SS.
    change (chebO (S (S n)) (Fin x)) with (Osub (Omul (Omul (OofZ 2) (Fin x)) (chebO (S n) (Fin x))) (chebO n (Fin x))).
    rewrite IH1, IH2. reflexivity. }
  apply H.
Qed.
Lemma ChebT_fin n x : ChebT (Z.of_nat n) (Fin x) = Ok (Fin (cheb n x)).
Proof. rewrite ChebT_eq, chebO_fin. reflexivity. Qed.

Lemma cell_ok dbg a b : a < b -> cell_assert dbg (Fin a) (Fin b) = Ok tt.
Proof.
  intros H. unfold cell_assert, Ogtb. rewrite fin_ltb. unfold Rltb.
  destruct (Rlt_dec a b); [|contradiction]. rewrite andb_false_r. reflexivity.
Qed.
Lemma ToUnitCell_fin dbg x a b : a < b -> ToUnitCell dbg (Fin x) (Fin a) (Fin b) = Ok (Fin (to_cell a b x)).
Proof.
  intros H. unfold ToUnitCell. rewrite cell_ok by exact H. cbn [bind]. unfold to_cell.
  rewrite !fin_sub, !fin_ofZ, fin_mul, fin_div, fin_sub by lra. reflexivity.
Qed.
Lemma FromUnitCell_fin dbg t a b : a < b -> FromUnitCell dbg (Fin t) (Fin a) (Fin b) = Ok (Fin (from_cell a b t)).
Proof.
  intros H. unfold FromUnitCell. rewrite cell_ok by exact H. cbn [bind]. unfold from_cell.
  rewrite !fin_ofZ, fin_add, fin_sub, fin_mul, fin_div, fin_add by lra. reflexivity.
Qed.

Lemma cheb_node_fin n j : (j < n)%nat -> cheb_node (Z.of_nat n) (Z.of_nat j + 1) = Fin (zero n j).
Proof.
  intros Hj. unfold cheb_node, zero.
  assert (0 < INR n) by (apply lt_0_INR; lia).
  assert (E2 : IZR (2 * Z.of_nat n) = 2 * INR n) by (rewrite mult_IZR, <- INR_IZR_INZ; reflexivity).
  rewrite !fin_ofZ, fin_pi, fin_mul, fin_div, fin_cos by lra.
  rewrite E2. replace (IZR (2 * (Z.of_nat j + 1) - 1)) with (2 * INR j + 1); [reflexivity|].
  rewrite minus_IZR, mult_IZR, plus_IZR, <- INR_IZR_INZ. ring.
Qed.

Lemma reals_length l n d : reals l n d -> (n <= length l)%nat.
Proof.
  intros H. destruct n as [|n]; [lia|].
  assert (nth_error l n <> None) by (rewrite H by lia; discriminate).
  apply nth_error_Some in H0. lia.
Qed.

Lemma GetPoints_fin dbg a b n pts : a < b -> (0 < n)%nat -> (Z.of_nat n < 2 ^ 30)%Z -> (n <= length pts)%nat ->
  exists out, GetPoints dbg (Fin a) (Fin b) (Z.of_nat n) pts = Ok out /\
    same_from n pts out /\ reals out n (point a b n).
Proof.
  intros Hab Hn Hfit Hl. unfold GetPoints, for_int. rewrite Nat2Z.id.
  destruct (for_loop_inv (fun k out => same_from k pts out /\ reals out k (point a b n)) n
    (fun (i : nat) points =>
      if negb (int_fits (2 * Z.of_nat n)) then UB else
      p <- FromUnitCell dbg (cheb_node (Z.of_nat n) (Z.of_nat i + 1)) (Fin a) (Fin b) ;;
      store points i p) pts) as [out [E [H1 H2]]].
  - split; [split; [reflexivity|auto]|]. intros j Hj. lia.
  - intros i s Hi [[Hsl Hs] Hr].
    assert (Hf : int_fits (2 * Z.of_nat n) = true) by (unfold int_fits; lia).
    rewrite Hf. cbn [negb]. rewrite cheb_node_fin, FromUnitCell_fin by assumption. cbn [bind].
    rewrite store_ok by lia. eexists. split; [reflexivity|]. split.
    + split; [rewrite upd_length; exact Hsl|]. intros j Hj. rewrite nth_upd_other by lia. apply Hs. lia.
    + intros j Hj. destruct (Nat.eq_dec j i) as [->|Hne].
      * rewrite nth_upd_same by lia. reflexivity.
      * rewrite nth_upd_other by lia. apply Hr. lia.
  - exists out. split; [exact E|]. split; assumption.
Qed.

(** row i of a matrix times x, in any arithmetic *)
Lemma row_any {T : Type} {O : Ops T} (a : nat -> nat -> result T) (A : nat -> T) x (d : nat -> T) n i y :
  (forall j, (j < n)%nat -> a i j = Ok (A j)) -> (forall j, (j < n)%nat -> nth_error x j = Some (d j)) ->
  (i < length y)%nat ->
  for_loop n (fun j y => yi <- load y i ;; aij <- a i j ;; xj <- load x j ;; store y i (Oadd yi (Omul aij xj)))
    (upd y i (OofZ 0)) = Ok (upd y i (dot n A d)).
Proof.
  intros Ha Hx Hi.
  destruct (for_loop_inv (fun k s => s = upd y i (dot k A d)) n
    (fun j y => yi <- load y i ;; aij <- a i j ;; xj <- load x j ;; store y i (Oadd yi (Omul aij xj)))
    (upd y i (OofZ 0))) as [out [E H]].
  - reflexivity.
  - intros k s Hk ->. rewrite (load_some _ i (dot k A d)) by (apply nth_upd_same; exact Hi).
    cbn [bind]. rewrite Ha by exact Hk. cbn [bind]. rewrite (load_some x k _ (Hx k Hk)). cbn [bind].
    rewrite store_ok by (rewrite upd_length; exact Hi).
    eexists. split; [reflexivity|]. cbn [dot].
    clear. revert i. generalize (dot k A d) as u, (Oadd (dot k A d) (Omul (A k) (d k))) as v.
    induction y as [|z y IH]; intros u v [|i]; cbn; try reflexivity. f_equal. apply IH.
  - rewrite E, H. reflexivity.
Qed.

Lemma MatMultiply_any {T : Type} {O : Ops T} (a : nat -> nat -> result T) (A : nat -> nat -> T) x d y n :
  (forall i j, (i < n)%nat -> (j < n)%nat -> a i j = Ok (A i j)) ->
  (forall j, (j < n)%nat -> nth_error x j = Some (d j)) -> (n <= length y)%nat ->
  exists c, MatMultiply a x y (Z.of_nat n) = Ok c /\ same_from n y c /\
    forall i, (i < n)%nat -> nth_error c i = Some (dot n (A i) d).
Proof.
  intros Ha Hx Hl. unfold MatMultiply, for_int. rewrite Nat2Z.id.
  destruct (for_loop_inv (fun k out => same_from k y out /\
      forall i, (i < k)%nat -> nth_error out i = Some (dot n (A i) d)) n
    (fun i y => y <- store y i (OofZ 0) ;;
      for_loop n (fun j y => yi <- load y i ;; aij <- a i j ;; xj <- load x j ;; store y i (Oadd yi (Omul aij xj))) y) y)
    as [out [E [H1 H2]]].
  - split; [split; [reflexivity|auto]|]. intros j Hj. lia.
  - intros i s Hi [[Hsl Hs] Hr]. rewrite store_ok by lia. cbn [bind].
    rewrite (row_any a (A i) x d n i s) by (try assumption; try lia; intros; apply Ha; assumption).
    eexists. split; [reflexivity|]. split.
    + split; [rewrite upd_length; exact Hsl|]. intros j Hj. rewrite nth_upd_other by lia. apply Hs. lia.
    + intros j Hj. destruct (Nat.eq_dec j i) as [->|Hne].
      * rewrite nth_upd_same by lia. reflexivity.
      * rewrite nth_upd_other by lia. apply Hr. lia.
  - exists out. split; [exact E|]. split; assumption.
Qed.

Lemma dot_fin n A d : dot n (fun j => Fin (A j)) (fun j => Fin (d j)) = Fin (rsum n (fun j => A j * d j)).
Proof. induction n as [|n IH]; cbn [dot rsum]; [reflexivity|]. rewrite IH. reflexivity. Qed.

Lemma MatMultiply_fin (a : nat -> nat -> result ER) (A : nat -> nat -> R) x d y n :
  (forall i j, (i < n)%nat -> (j < n)%nat -> a i j = Ok (Fin (A i j))) -> reals x n d ->
  (n <= length y)%nat ->
  exists c, MatMultiply a x y (Z.of_nat n) = Ok c /\ same_from n y c /\ reals c n (transform n A d).
Proof.
  intros Ha Hx Hl.
  destruct (MatMultiply_any a (fun i j => Fin (A i j)) x (fun j => Fin (d j)) y n Ha Hx Hl) as [c [E [H1 H2]]].
  exists c. split; [exact E|]. split; [exact H1|]. intros i Hi. rewrite H2 by exact Hi. rewrite dot_fin. reflexivity.
Qed.

Lemma InterpFromCoeffs_fin dbg x a b cf c n : a < b -> reals cf n c ->
  InterpFromCoeffs dbg (Fin x) (Fin a) (Fin b) cf (Z.of_nat n) = Ok (Fin (series n c (to_cell a b x))).
Proof.
  intros Hab Hc. unfold InterpFromCoeffs. rewrite ToUnitCell_fin by exact Hab. cbn [bind].
  unfold for_int. rewrite Nat2Z.id.
  destruct (for_loop_inv (fun k s => s = Fin (series k c (to_cell a b x))) n
    (fun i out => cc <- load cf i ;; t <- ChebT (Z.of_nat i) (Fin (to_cell a b x)) ;; Ok (Oadd out (Omul cc t)))
    (OofZ 0)) as [out [E H]].
  - reflexivity.
  - intros k s Hk ->. rewrite (load_some cf k _ (Hc k Hk)). cbn [bind]. rewrite ChebT_fin. cbn [bind].
    eexists. split; [reflexivity|]. reflexivity.
  - rewrite E, H. reflexivity.
Qed.
