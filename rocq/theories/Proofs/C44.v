(** C44: the inverse Vandermonde tables of chebyshev/vandermonde.hpp. *)
From Coq Require Import Reals ZArith List Lia Lra Arith Bool.
From Verif Require Import Base.Outcome Base.Ops Inst.ER Inst.ERTac Model.Spiner Model.Chebyshev Model.Vandermonde.
From Verif Require Import Model.Indexers Spec.Means Spec.Tables Spec.Chebyshev Proofs.ArrayFacts Proofs.MeanExact.
From Verif Require Import Proofs.InterpFacts Proofs.ChebFacts Proofs.ChebModel Proofs.ChebRoots Proofs.ChebNodes Proofs.C50.
Import ListNotations.
Open Scope R_scope.

(** the tables, their sizes, and half a unit in the 14th decimal place; the tables for 15 and 21
    nodes are printed to more than 55 places *)
Definition half14 : R := 5 / 10 ^ 15.
Definition unit55 : R := 1 / 10 ^ 55.
Definition tables : list (nat * table * R) :=
  [(3%nat, Vandermonde3, half14); (5%nat, Vandermonde5, half14); (7%nat, Vandermonde7, half14);
   (9%nat, Vandermonde9, half14); (11%nat, Vandermonde11, half14); (13%nat, Vandermonde13, half14);
   (15%nat, Vandermonde15, unit55); (21%nat, Vandermonde21, unit55)].

(** integer test of one literal m * 10^e against w_i/n T_i within t / 10^D, given the zero to
    within w / s as p / s *)
Definition entry_ok (n : nat) (s w t : Z) (D : nat) (i : nat) (F : Z) (l : Z * Z) : bool :=
  let c := if (i =? 0)%nat then 1%Z else 2%Z in
  let E := (10 ^ (- snd l))%Z in
  ((snd l <=? 0) &&
   ((Z.abs (fst l * Z.of_nat n * s - c * F * E) + c * 3 ^ Z.of_nat i * (w + 1) * E) * 10 ^ Z.of_nat D
    <=? t * Z.of_nat n * s * E))%Z.
Definition row_ok (n : nat) (s w t : Z) (D : nat) (i : nat) (cols : list (list Z)) (r : list (Z * Z)) : bool :=
  (length r =? n)%nat && forallb (fun pl => entry_ok n s w t D i (nth i (fst pl) 0%Z) (snd pl)) (combine cols r).
Definition table_ok (n : nat) (s w t : Z) (D : nat) (ps : list Z) (v : table) : bool :=
  let cols := map (fun p => chebL n p s s p) ps in
  encloses n s w ps && (length v =? n)%nat &&
  forallb (fun ir => row_ok n s w t D (fst ir) cols (snd ir)) (combine (seq 0 n) v).

(** units of 10^-40 are enough for the 14-figure tables *)
Definition scale40 : Z := 10 ^ 40.
Definition scale80 : Z := 10 ^ 80.
Definition coarse (l : list Z) : list Z := map (fun p => p / scale40)%Z l.
Lemma table3_ok : table_ok 3 scale40 (10 ^ 8) 5 15 (coarse roots3) Vandermonde3 = true.
Proof. vm_compute. reflexivity. Qed.
Lemma table5_ok : table_ok 5 scale40 (10 ^ 8) 5 15 (coarse roots5) Vandermonde5 = true.
Proof. vm_compute. reflexivity. Qed.
Lemma table7_ok : table_ok 7 scale40 (10 ^ 8) 5 15 (coarse roots7) Vandermonde7 = true.
Proof. vm_compute. reflexivity. Qed.
Lemma table9_ok : table_ok 9 scale40 (10 ^ 8) 5 15 (coarse roots9) Vandermonde9 = true.
Proof. vm_compute. reflexivity. Qed.
Lemma table11_ok : table_ok 11 scale40 (10 ^ 8) 5 15 (coarse roots11) Vandermonde11 = true.
Proof. vm_compute. reflexivity. Qed.
Lemma table13_ok : table_ok 13 scale40 (10 ^ 8) 5 15 (coarse roots13) Vandermonde13 = true.
Proof. vm_compute. reflexivity. Qed.
Lemma table15_ok : table_ok 15 scale80 (10 ^ 11) 1 55 roots15 Vandermonde15 = true.
Proof. vm_compute. reflexivity. Qed.
Lemma table21_ok : table_ok 21 scale80 (10 ^ 11) 1 55 roots21 Vandermonde21 = true.
Proof. vm_compute. reflexivity. Qed.

Lemma pow10Z k : (0 <= k)%Z -> IZR (10 ^ k) = powerRZ 10 k.
Proof.
  intros H. destruct k as [|k|k]; [reflexivity| |lia].
  rewrite <- (Z2Nat.id (Z.pos k)) by lia. rewrite <- pow_IZR. rewrite <- pow_powerRZ. reflexivity.
Qed.
Lemma literal_value m e : (e <= 0)%Z -> IZR m * powerRZ 10 e = IZR m / IZR (10 ^ (- e)).
Proof.
  intros H. rewrite pow10Z by lia. unfold Rdiv. f_equal.
  replace e with (- - e)%Z at 1 by lia. rewrite powerRZ_neg by lra. apply powerRZ_inv. lra.
Qed.

Lemma entry_ok_spec n s w t D i j p m e : (0 < n)%nat -> (j < n)%nat -> (0 < s)%Z -> (- s <= p <= s)%Z ->
  Rabs (zero n j - IZR p / IZR s) <= IZR w / IZR s ->
  entry_ok n s w t D i (chebF i p s) (m, e) = true ->
  Rabs (IZR m * powerRZ 10 e - dct n i j) <= IZR t / 10 ^ D.
Proof.
  intros Hn Hj Hs Hp Hz H. unfold entry_ok in H. cbn [fst snd] in H.
  apply andb_true_iff in H. destruct H as [He H]. apply Z.leb_le in He. apply Z.leb_le in H.
  rewrite literal_value by exact He. set (E := (10 ^ (- e))%Z) in *.
  assert (HE : 0 < IZR E) by (apply (IZR_lt 0); apply Z.pow_pos_nonneg; lia).
  assert (HN : 0 < INR n) by (apply lt_0_INR; lia).
  assert (HS : 0 < IZR s) by (apply (IZR_lt 0); exact Hs).
  assert (HT : 0 < 10 ^ D) by (apply pow_lt; lra).
  set (c := if (i =? 0)%nat then 1 else 2).
  assert (Hw : IZR (if (i =? 0)%nat then 1%Z else 2%Z) = c) by (unfold c; destruct (i =? 0)%nat; reflexivity).
  assert (Hw0 : 0 < c) by (unfold c; destruct (i =? 0)%nat; lra).
  apply IZR_le in H. repeat rewrite ?mult_IZR, ?plus_IZR, ?abs_IZR, ?minus_IZR in H. rewrite Hw in H.
  rewrite <- !pow_IZR, <- !INR_IZR_INZ in H.
  assert (Hps : -1 <= IZR p / IZR s <= 1).
  { split; apply Rmult_le_reg_r with (IZR s); try exact HS;
      unfold Rdiv; rewrite Rmult_assoc, Rinv_l, Rmult_1_r by lra.
    - replace (-1 * IZR s) with (IZR (- s)) by (rewrite opp_IZR; ring). apply IZR_le. lia.
    - rewrite Rmult_1_l. apply IZR_le. lia. }
  pose proof (cheb_lipschitz i (zero n j) (IZR p / IZR s)) as L.
  pose proof (zero_range n j Hj) as Z.
  specialize (L ltac:(lra) Hps). pose proof (chebF_spec i p s Hs Hp) as F.
  set (P := IZR (chebF i p s)) in *. set (S := IZR s) in *. set (x := IZR p / S) in *.
  assert (F' : Rabs (cheb i x - P / S) <= 3 ^ i / S).
  { replace (cheb i x - P / S) with ((P - S * cheb i x) * (- / S)) by (field; lra).
    rewrite Rabs_mult, Rabs_Ropp, (Rabs_right (/ S)) by (left; apply Rinv_0_lt_compat; exact HS).
    apply Rmult_le_compat_r; [left; apply Rinv_0_lt_compat; exact HS|exact F]. }
  assert (L' : Rabs (cheb i (zero n j) - P / S) <= 3 ^ i * (IZR w + 1) / S).
  { replace (cheb i (zero n j) - P / S) with ((cheb i (zero n j) - cheb i x) + (cheb i x - P / S)) by ring.
    eapply Rle_trans; [apply Rabs_triang|].
    assert (3 ^ i * Rabs (zero n j - x) <= 3 ^ i * (IZR w / S)) by (apply Rmult_le_compat_l; [apply pow_le; lra|exact Hz]).
    replace (3 ^ i * (IZR w + 1) / S) with (3 ^ i * (IZR w / S) + 3 ^ i / S) by (field; lra). lra. }
  unfold dct. fold c.
  replace (IZR m / IZR E - c / INR n * cheb i (zero n j))
    with ((IZR m / IZR E - c / INR n * (P / S)) + c / INR n * (P / S - cheb i (zero n j))) by ring.
  eapply Rle_trans; [apply Rabs_triang|].
  rewrite (Rabs_mult (c / INR n)), (Rabs_minus_sym (P / S)).
  rewrite (Rabs_right (c / INR n)) by (left; apply Rdiv_lt_0_compat; assumption).
  assert (B2 : c / INR n * Rabs (cheb i (zero n j) - P / S) <= c / INR n * (3 ^ i * (IZR w + 1) / S)).
  { apply Rmult_le_compat_l; [left; apply Rdiv_lt_0_compat; assumption|exact L']. }
  eapply Rle_trans; [apply Rplus_le_compat_l; exact B2|].
  replace (IZR m / IZR E - c / INR n * (P / S)) with ((IZR m * INR n * S - c * P * IZR E) * / (IZR E * INR n * S))
    by (field; repeat split; lra).
  rewrite Rabs_mult, (Rabs_right (/ _)).
  2:{ left. apply Rinv_0_lt_compat. repeat apply Rmult_lt_0_compat; assumption. }
  set (A := Rabs (IZR m * INR n * S - c * P * IZR E)) in *.
  apply Rmult_le_reg_r with (IZR E * INR n * S * 10 ^ D); [repeat apply Rmult_lt_0_compat; assumption|].
  replace ((A * / (IZR E * INR n * S) + c / INR n * (3 ^ i * (IZR w + 1) / S)) * (IZR E * INR n * S * 10 ^ D))
    with ((A + c * 3 ^ i * (IZR w + 1) * IZR E) * 10 ^ D) by (field; repeat split; lra).
  replace (IZR t / 10 ^ D * (IZR E * INR n * S * 10 ^ D)) with (IZR t * INR n * S * IZR E) by (field; lra).
  exact H.
Qed.

Lemma nth_error_combine {A B} (l : list A) (r : list B) k a b :
  nth_error l k = Some a -> nth_error r k = Some b -> In (a, b) (combine l r).
Proof.
  revert r k. induction l as [|x l IH]; intros [|y r] [|k] Ha Hb; cbn in *; try discriminate.
  - left. congruence.
  - right. apply (IH r k); assumption.
Qed.

Lemma table_ok_spec n s w t D ps v : (0 < n)%nat -> table_ok n s w t D ps v = true ->
  forall i j, (i < n)%nat -> (j < n)%nat ->
  exists x, entry v i j = Ok (Fin x) /\ Rabs (x - dct n i j) <= IZR t / 10 ^ D.
Proof.
  intros Hn H i j Hi Hj. unfold table_ok in H. cbv zeta in H. repeat rewrite andb_true_iff in H. destruct H as [[He Hl] Hr].
  apply Nat.eqb_eq in Hl. rewrite forallb_forall in Hr.
  destruct (nth_error v i) as [r|] eqn:Ev; [|apply nth_error_None in Ev; lia].
  assert (Es : nth_error (seq 0 n) i = Some i).
  { rewrite (nth_error_nth' _ 0%nat) by (rewrite seq_length; exact Hi). f_equal. apply seq_nth. exact Hi. }
  specialize (Hr (i, r) (nth_error_combine _ _ i i r Es Ev)). cbn [fst snd] in Hr. unfold row_ok in Hr.
  apply andb_true_iff in Hr. destruct Hr as [Hlr Hrr]. apply Nat.eqb_eq in Hlr. rewrite forallb_forall in Hrr.
  destruct (nth_error r j) as [[m e]|] eqn:Er; [|apply nth_error_None in Er; lia].
  assert (Hps : length ps = n).
  { unfold encloses in He. repeat rewrite andb_true_iff in He. destruct He as [[[[[_ _] Hx] _] _] _]. apply Nat.eqb_eq. exact Hx. }
  set (p := nth j ps 0%Z).
  assert (Ep : nth_error (map (fun p => chebL n p s s p) ps) j = Some (chebL n p s s p)).
  { apply (map_nth_error (fun p => chebL n p s s p)). apply nth_error_nth'. lia. }
  specialize (Hrr (_, (m, e)) (nth_error_combine _ _ j _ _ Ep Er)). cbn [fst snd] in Hrr.
  change (chebL n p s s p) with (chebL n p s (fst (chebF2 0 p s)) (snd (chebF2 0 p s))) in Hrr.
  rewrite (chebL_nth n p s i 0 Hi) in Hrr. cbn [Nat.add] in Hrr.
  destruct (encloses_spec n s w ps He j Hj) as [Hz [Hp Hs]].
  exists (IZR m * powerRZ 10 e). split.
  - unfold entry. rewrite Ev, Er. reflexivity.
  - apply (entry_ok_spec n s w t D i j p m e Hn Hj Hs Hp Hz Hrr).
Qed.

(** Every entry of every table, read as the decimal number printed, is the exact coefficient
    (2 - [i = 0]) / n * T_i(t_j) to within half a unit of the 14th decimal, and to within 1e-55
    for the two tables printed with more figures. *)
Lemma C44_entries_proof :
  forall n v tol, In (n, v, tol) tables ->
  forall i j, (i < n)%nat -> (j < n)%nat ->
  exists x, entry v i j = Ok (Fin x) /\ Rabs (x - dct n i j) <= tol.
Proof.
  intros n v tol Hin.
  destruct Hin as [Hin|Hin].
  { injection Hin as <- <- <-. exact (table_ok_spec 3 scale40 (10 ^ 8) 5 15 (coarse roots3) Vandermonde3 (Nat.lt_0_succ _) table3_ok). }
  destruct Hin as [Hin|Hin].
  { injection Hin as <- <- <-. exact (table_ok_spec 5 scale40 (10 ^ 8) 5 15 (coarse roots5) Vandermonde5 (Nat.lt_0_succ _) table5_ok). }
  destruct Hin as [Hin|Hin].
  { injection Hin as <- <- <-. exact (table_ok_spec 7 scale40 (10 ^ 8) 5 15 (coarse roots7) Vandermonde7 (Nat.lt_0_succ _) table7_ok). }
  destruct Hin as [Hin|Hin].
  { injection Hin as <- <- <-. exact (table_ok_spec 9 scale40 (10 ^ 8) 5 15 (coarse roots9) Vandermonde9 (Nat.lt_0_succ _) table9_ok). }
  destruct Hin as [Hin|Hin].
  { injection Hin as <- <- <-. exact (table_ok_spec 11 scale40 (10 ^ 8) 5 15 (coarse roots11) Vandermonde11 (Nat.lt_0_succ _) table11_ok). }
  destruct Hin as [Hin|Hin].
  { injection Hin as <- <- <-. exact (table_ok_spec 13 scale40 (10 ^ 8) 5 15 (coarse roots13) Vandermonde13 (Nat.lt_0_succ _) table13_ok). }
  destruct Hin as [Hin|Hin].
  { injection Hin as <- <- <-. exact (table_ok_spec 15 scale80 (10 ^ 11) 1 55 roots15 Vandermonde15 (Nat.lt_0_succ _) table15_ok). }
  destruct Hin as [Hin|Hin].
  { injection Hin as <- <- <-. exact (table_ok_spec 21 scale80 (10 ^ 11) 1 55 roots21 Vandermonde21 (Nat.lt_0_succ _) table21_ok). }
  contradiction.
Qed.

(** the exact value of one entry: - 2/3 sin 60 degrees = - 1 / sqrt 3, printed -0.57735026918963 *)
Lemma C44_entries_example :
  entry Vandermonde3 1 0 = Ok (Fin (-57735026918963 * / 10 ^ 14)) /\ dct 3 1 0 = - (2 / 3 * (sqrt 3 / 2)).
Proof.
  split; [reflexivity|]. unfold dct, zero. cbn [Nat.eqb cheb]. change (INR 0) with 0.
  replace (INR 3) with 3 by (cbn; ring).
  replace ((2 * 0 + 1) * PI / (2 * 3)) with (PI / 6) by field. rewrite cos_PI6. ring.
Qed.

(** Every arithmetic: get_vmbox fills 81 cells and no more, and the element (i, j) of a 9 x 9
    box on them is entry (i, j) of the 9-point table. *)
Lemma C44_layout_proof :
  forall (T : Type) (O : Ops T) (r : list T), (81 <= length r)%nat ->
    exists r', get_vmbox r = Ok r' /\ same_from 81 r r' /\
      forall i j, (i < 9)%nat -> (j < 9)%nat ->
        at_flat r' (flat [9; 9]%Z [Z.of_nat i; Z.of_nat j] 0) = entry Vandermonde9 i j.
Proof.
  intros T O r Hr.
  assert (Ent : forall i j, (i < 9)%nat -> (j < 9)%nat -> exists m, entry (O := O) Vandermonde9 i j = Ok m).
  { intros i j Hi Hj. unfold entry.
    do 9 (destruct i as [|i]; [do 9 (destruct j as [|j]; [eexists; reflexivity|]); lia|]). lia. }
  pose (good := fun (k : nat) (s : list T) => same_from (9 * 9) r s /\
     forall i j, (i < 9)%nat -> (j < 9)%nat -> (j + i * 9 < k)%nat ->
       load s (j + i * 9) = entry Vandermonde9 i j).
  unfold get_vmbox, for_int. change (Z.to_nat 9) with 9%nat.
  destruct (for_loop_inv (fun i s => good (i * 9)%nat s) 9 (fun i r =>
      for_loop 9 (fun j r => v <- entry Vandermonde9 i j ;; store r (j + i * 9) v) r) r) as [r' [E G]].
  - split; [split; auto|]. intros; lia.
  - intros i s Hi G0.
    destruct (for_loop_inv (fun j s => good (i * 9 + j)%nat s) 9
       (fun j r => v <- entry Vandermonde9 i j ;; store r (j + i * 9) v) s) as [s' [E' G']].
    + rewrite Nat.add_0_r. exact G0.
    + intros j u Hj [[Hl Hs] Hv]. destruct (Ent i j Hi Hj) as [m Em]. rewrite Em. cbn [bind].
      rewrite store_ok by lia. eexists. split; [reflexivity|]. split.
      * split; [rewrite upd_length; exact Hl|]. intros k Hk. rewrite nth_upd_other by lia. apply Hs. exact Hk.
      * intros i' j' Hi' Hj' Hk. destruct (Nat.eq_dec (j' + i' * 9) (j + i * 9)) as [Ek|Nk].
        -- assert (i' = i) by lia. assert (j' = j) by lia. subst.
           unfold load. rewrite nth_upd_same by lia. symmetry. exact Em.
        -- unfold load. rewrite nth_upd_other by lia. apply Hv; lia.
    + exists s'. split; [exact E'|]. replace (S i * 9)%nat with (i * 9 + 9)%nat by lia. exact G'.
  - exists r'. split; [exact E|]. destruct G as [G1 G2]. split; [exact G1|].
    intros i j Hi Hj. cbn [flat]. unfold at_flat.
    replace ((0 * 9 + Z.of_nat i) * 9 + Z.of_nat j)%Z with (Z.of_nat (j + i * 9)) by lia.
    destruct (Z.ltb_spec (Z.of_nat (j + i * 9)) 0); [lia|]. rewrite Nat2Z.id. apply G2; lia.
Qed.

Lemma rsum_abs n f b : (forall i, (i < n)%nat -> Rabs (f i) <= b) -> Rabs (rsum n f) <= INR n * b.
Proof.
  induction n as [|n IH]; intros H; cbn [rsum].
  - rewrite Rabs_R0. change (INR 0) with 0. lra.
  - eapply Rle_trans; [apply Rabs_triang|]. rewrite S_INR.
    specialize (IH ltac:(intros; apply H; lia)). specialize (H n ltac:(lia)). lra.
Qed.

Lemma series_close n A B d t tol M : -1 <= t <= 1 -> 0 <= tol ->
  (forall i j, (i < n)%nat -> (j < n)%nat -> Rabs (A i j - B i j) <= tol) ->
  (forall j, (j < n)%nat -> Rabs (d j) <= M) ->
  Rabs (series n (transform n A d) t - series n (transform n B d) t) <= INR n * (INR n * (tol * M)).
Proof.
  intros Ht Htol HAB Hd.
  replace (series n (transform n A d) t - series n (transform n B d) t)
    with (rsum n (fun i => rsum n (fun j => (A i j - B i j) * d j) * cheb i t)).
  2:{ unfold series, transform, Rminus at 2.
      replace (- rsum n (fun i => rsum n (fun j => B i j * d j) * cheb i t))
        with (-1 * rsum n (fun i => rsum n (fun j => B i j * d j) * cheb i t)) by ring.
      rewrite <- rsum_scal, <- rsum_plus. apply rsum_ext. intros i Hi.
      replace (rsum n (fun j => (A i j - B i j) * d j))
        with (rsum n (fun j => A i j * d j) + -1 * rsum n (fun j => B i j * d j)).
      2:{ rewrite <- rsum_scal, <- rsum_plus. apply rsum_ext. intros; ring. }
      ring. }
  apply rsum_abs. intros i Hi. rewrite Rabs_mult.
  assert (H1 : Rabs (rsum n (fun j => (A i j - B i j) * d j)) <= INR n * (tol * M)).
  { apply rsum_abs. intros j Hj. rewrite Rabs_mult.
    apply Rmult_le_compat; try apply Rabs_pos; [apply HAB|apply Hd]; assumption. }
  pose proof (cheb_bound i t Ht) as H2. pose proof (Rabs_pos (rsum n (fun j => (A i j - B i j) * d j))).
  eapply Rle_trans; [apply Rmult_le_compat_l; [assumption|exact H2]|]. lra.
Qed.

Lemma tables_tol n v tol : In (n, v, tol) tables -> 0 <= tol.
Proof.
  intros H. assert (0 <= half14 /\ 0 <= unit55).
  { unfold half14, unit55. split; apply Rmult_le_pos; try lra; left; apply Rinv_0_lt_compat, pow_lt; lra. }
  repeat (destruct H as [H|H]; [injection H as <- <- <-; lra|]). contradiction.
Qed.
Lemma tables_matrix n v tol : In (n, v, tol) tables ->
  exists A, (forall i j, (i < n)%nat -> (j < n)%nat -> entry v i j = Ok (Fin (A i j))) /\
    forall i j, (i < n)%nat -> (j < n)%nat -> Rabs (A i j - dct n i j) <= tol.
Proof.
  intros H.
  exists (fun i j => match entry (O := ER_ops) v i j with Ok (Fin x) => x | _ => 0 end).
  split; intros i j Hi Hj; destruct (C44_entries_proof n v tol H i j Hi Hj) as [x [E B]]; rewrite E; [reflexivity|exact B].
Qed.

Lemma to_cell_inside a b x : a < b -> a <= x <= b -> -1 <= to_cell a b x <= 1.
Proof.
  intros Hab Hx. unfold to_cell.
  assert (0 <= (x - a) / (b - a) <= 1); [|unfold Rdiv in *; lra].
  split; [apply Rmult_le_pos; [lra|left; apply Rinv_0_lt_compat; lra]|].
  apply Rmult_le_reg_r with (b - a); [lra|]. unfold Rdiv. rewrite Rmult_assoc, Rinv_l by lra. lra.
Qed.

(** Exact arithmetic: with the printed tables instead of the exact matrix, interpolation returns
    the data at the nodes, and polynomials of degree below n in the whole interval, up to
    n^2 * tolerance * the largest datum. *)
Lemma C44_interpolation_proof :
  forall n v tol, In (n, v, tol) tables ->
  forall (dbg : bool) (a b M : R) (x y : list ER),
    a < b -> (n <= length y)%nat ->
    (forall d, reals x n d -> (forall j, (j < n)%nat -> Rabs (d j) <= M) ->
       exists c, MatMultiply (entry v) x y (Z.of_nat n) = Ok c /\
       forall k, (k < n)%nat -> exists u,
         InterpFromCoeffs dbg (Fin (point a b n k)) (Fin a) (Fin b) c (Z.of_nat n) = Ok (Fin u) /\
         Rabs (u - d k) <= INR n * (INR n * (tol * M))) /\
    (forall p, (length p <= n)%nat -> reals x n (fun j => peval p (point a b n j)) ->
       (forall j, (j < n)%nat -> Rabs (peval p (point a b n j)) <= M) ->
       exists c, MatMultiply (entry v) x y (Z.of_nat n) = Ok c /\
       forall z, a <= z <= b -> exists u,
         InterpFromCoeffs dbg (Fin z) (Fin a) (Fin b) c (Z.of_nat n) = Ok (Fin u) /\
         Rabs (u - peval p z) <= INR n * (INR n * (tol * M))).
Proof.
  intros n v tol Hin dbg a b M x y Hab Hy.
  destruct (tables_matrix n v tol Hin) as [A [HA HB]]. pose proof (tables_tol n v tol Hin) as Ht.
  split.
  - intros d Hx HM. destruct (MatMultiply_fin (entry v) A x d y n HA Hx Hy) as [c [E [_ Hc]]].
    exists c. split; [exact E|]. intros k Hk.
    rewrite (InterpFromCoeffs_fin dbg _ a b c _ n Hab Hc). eexists. split; [reflexivity|].
    unfold point. rewrite to_from by exact Hab. rewrite <- (dct_interpolates n d k Hk).
    pose proof (zero_range n k Hk). apply series_close; [lra|exact Ht|exact HB|exact HM].
  - intros p Hp Hx HM. destruct (MatMultiply_fin (entry v) A x _ y n HA Hx Hy) as [c [E [_ Hc]]].
    exists c. split; [exact E|]. intros z Hz.
    rewrite (InterpFromCoeffs_fin dbg _ a b c _ n Hab Hc). eexists. split; [reflexivity|].
    rewrite <- (dct_polynomial_cell a b n p Hab Hp z).
    apply series_close; [apply to_cell_inside; assumption|exact Ht|exact HB|exact HM].
Qed.

(** nine data of size at most 1 come back within 4.05e-13 *)
Lemma C44_interpolation_example :
  In (9%nat, Vandermonde9, half14) tables /\ INR 9 * (INR 9 * (half14 * 1)) = 405 / 10 ^ 15.
Proof.
  split; [do 3 right; left; reflexivity|]. unfold half14. replace (INR 9) with 9 by (cbn; ring). field.
Qed.

(** Exact arithmetic: LogCheb with a printed table returns the guarded data at its nodes up to a
    factor 10 to the power n^2 * tolerance * the largest |log10| of them. *)
Lemma C44_logcheb_proof :
  forall n v tol, In (n, v, tol) tables ->
  forall (dbg : bool) (a b M : R) (data logdata coeffs : list ER) (d : nat -> R),
    0 < a -> a < b -> reals data n d -> (n <= length logdata)%nat -> (n <= length coeffs)%nat ->
    (forall j, (j < n)%nat -> Rabs (log10 (Rabs (d j) + / 10 ^ 20)) <= M) ->
    exists c, SetInterpCoeffs (Z.of_nat n) (entry v) (mk_LogCheb data logdata coeffs (Fin a) (Fin b)) = Ok c /\
      forall k, (k < n)%nat -> exists r,
        LogCheb_call dbg (Z.of_nat n) c (Fin (pow10 (point (log10 a) (log10 b) n k)))
        = Ok (Fin ((Rabs (d k) + / 10 ^ 20) * pow10 r)) /\
        Rabs r <= INR n * (INR n * (tol * M)).
Proof.
  intros n v tol Hin dbg a b M data logdata coeffs d Ha Hab Hd Hl Hc HM.
  destruct (tables_matrix n v tol Hin) as [A [HA HB]]. pose proof (tables_tol n v tol Hin) as Ht.
  destruct (set_coeffs n (entry v) (mk_LogCheb data logdata coeffs (Fin a) (Fin b)) d Hd Hl Hc A HA)
    as [c [E [_ [E1 [E2 Hcf]]]]].
  exists c. split; [exact E|]. intros k Hk.
  rewrite (logcheb_value dbg n c _ a b _ Ha Hab (pow10_pos _) E1 E2 Hcf).
  rewrite log10_pow10. unfold point. rewrite to_from by (apply log10_incr; assumption).
  assert (G : forall j, guarded (d j) = Rabs (d j) + / 10 ^ 20).
  { intros j. unfold guarded. change (powerRZ 10 (-20)) with (/ 10 ^ 20). ring. }
  set (L := fun j => log10 (guarded (d j))).
  exists (series n (transform n A L) (zero n k) - series n (transform n (dct n) L) (zero n k)). split.
  - rewrite <- (G k), <- (pow10_log10 (guarded (d k))) by apply guarded_pos.
    rewrite <- pow10_add. fold (L k). rewrite <- (dct_interpolates n L k Hk) at 1. do 3 f_equal. ring.
  - pose proof (zero_range n k Hk). apply series_close; [lra|exact Ht|exact HB|].
    intros j Hj. unfold L. rewrite G. apply HM. exact Hj.
Qed.

(** three data equal to 1 between frequencies 1 and 10 meet the hypotheses with M = 1 *)
Lemma C44_logcheb_example :
  In (3%nat, Vandermonde3, half14) tables /\
  reals [Fin 1; Fin 1; Fin 1] 3 (fun _ => 1) /\
  Rabs (log10 (Rabs 1 + / 10 ^ 20)) <= 1.
Proof.
  split; [left; reflexivity|]. split.
  - intros j Hj. destruct j as [|[|[|j]]]; try reflexivity. lia.
  - rewrite Rabs_R1. assert (P : 0 < / 10 ^ 20 <= 1).
    { split; [apply Rinv_0_lt_compat, pow_lt; lra|]. rewrite <- Rinv_1. apply Rinv_le_contravar; [lra|]. apply pow_R1_Rle. lra. }
    assert (E0 : log10 1 = 0) by (unfold log10; rewrite ln_1; unfold Rdiv; ring).
    assert (E1 : log10 10 = 1).
    { unfold log10. apply Rinv_r. apply Rgt_not_eq. rewrite <- ln_1. apply ln_increasing; lra. }
    rewrite Rabs_right; [|apply Rle_ge; rewrite <- E0; apply log10_le; lra].
    rewrite <- E1 at 2. apply log10_le; lra.
Qed.
