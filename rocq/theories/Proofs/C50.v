(** C50: the frequency-bin interpolators of base/indexers.hpp. *)
From Coq Require Import Reals ZArith List Lia Lra Arith Bool.
From Verif Require Import Base.Outcome Base.Ops Inst.ER Inst.ERTac Model.Spiner Model.Chebyshev Model.Indexers.
From Verif Require Import Spec.Means Spec.Tables Spec.Chebyshev Proofs.ArrayFacts Proofs.MeanExact.
From Verif Require Import Proofs.InterpFacts Proofs.ChebFacts Proofs.ChebModel.
Import ListNotations.
Open Scope R_scope.

(** frequencies of N bins from a to b, equally spaced in frequency, in its logarithm *)
Definition lin_bin (a b : R) (N : nat) (i : nat) : R := a + INR i * ((b - a) / (INR N - 1)).
Definition log_bin (a b : R) (N : nat) (i : nat) : R := a * Rpower (b / a) (INR i / (INR N - 1)).
(** the straight line through (x0, y0) and (x1, y1) *)
Definition line (x0 y0 x1 y1 x : R) : R := y0 + (x - x0) / (x1 - x0) * (y1 - y0).

Lemma line_between x0 y0 x1 y1 x : x0 < x1 -> x0 <= x <= x1 ->
  Rmin y0 y1 <= line x0 y0 x1 y1 x <= Rmax y0 y1.
Proof.
  intros H0 H. unfold line. set (w := (x - x0) / (x1 - x0)).
  assert (W : 0 <= w <= 1).
  { unfold w. split.
    - apply Rmult_le_pos; [lra|]. left. apply Rinv_0_lt_compat. lra.
    - apply Rmult_le_reg_r with (x1 - x0); [lra|]. unfold Rdiv. rewrite Rmult_assoc, Rinv_l by lra. lra. }
  unfold Rmin, Rmax. destruct (Rle_dec y0 y1).
  - assert (0 <= w * (y1 - y0) <= 1 * (y1 - y0)); [|lra].
    split; [apply Rmult_le_pos; lra|apply Rmult_le_compat_r; lra].
  - assert (0 <= w * (y0 - y1) <= 1 * (y0 - y1)); [|lra].
    split; [apply Rmult_le_pos; lra|apply Rmult_le_compat_r; lra].
Qed.

Lemma at_flat_reals l n d i : reals l n d -> (i < n)%nat -> at_flat l (Z.of_nat i) = Ok (Fin (d i)).
Proof.
  intros H Hi. unfold at_flat. destruct (Z.ltb_spec (Z.of_nat i) 0); [lia|]. rewrite Nat2Z.id.
  apply load_some. apply H. exact Hi.
Qed.

Lemma box1_call g data N d x : rg_ok g -> rg_n g = Z.of_nat N -> reals data N d -> rg_fits g x ->
  exists i, (S i < N)%nat /\ rg_cell g x = Z.of_nat i /\
    interpToReal {| db_dims := [rg_n g]; db_ranges := [Some (grid_of g)]; db_data := data |} [Along (Fin x)]
    = Ok (Fin ((1 - rg_w g x) * d i + rg_w g x * d (S i))).
Proof.
  intros Hg HN Hd Hf. pose proof (cell_range g Hg x) as C. exists (Z.to_nat (rg_cell g x)).
  split; [lia|]. split; [lia|].
  unfold interpToReal. cbn [db_dims db_ranges db_data combine rev app interp].
  rewrite weights_of by assumption. cbn [bind]. cbn [Z.mul Z.add].
  set (c := rg_cell g x) in *. set (w := rg_w g x).
  replace (at_flat data c) with (Ok (Fin (d (Z.to_nat c)))).
  2:{ symmetry. rewrite <- (Z2Nat.id c) at 1 by lia. apply (at_flat_reals data N); [exact Hd|lia]. }
  replace (at_flat data (c + 1)) with (Ok (Fin (d (S (Z.to_nat c))))).
  2:{ symmetry. replace (c + 1)%Z with (Z.of_nat (S (Z.to_nat c))) by lia. apply (at_flat_reals data N); [exact Hd|lia]. }
  cbn [bind]. reflexivity.
Qed.

Lemma grid_bins g N i : rg_ok g -> rg_n g = Z.of_nat N -> rg_node g (Z.of_nat i) = lin_bin (rg_lo g) (rg_hi g) N i.
Proof.
  intros _ HN. unfold rg_node, lin_bin, rg_dx. rewrite HN, minus_IZR, <- !INR_IZR_INZ. ring.
Qed.

Lemma box1_at_node g data N d k : rg_ok g -> rg_n g = Z.of_nat N -> reals data N d -> (k < N)%nat ->
  interpToReal {| db_dims := [rg_n g]; db_ranges := [Some (grid_of g)]; db_data := data |}
    [Along (Fin (rg_node g (Z.of_nat k)))] = Ok (Fin (d k)).
Proof.
  intros Hg HN Hd Hk. set (x := rg_node g (Z.of_nat k)).
  assert (Hf : rg_fits g x) by (apply inside_fits; [exact Hg|]; apply node_inside; [exact Hg|lia]).
  destruct (box1_call g data N d x Hg HN Hd Hf) as [i [Hi [Hc E]]]. rewrite E. do 2 f_equal.
  destruct (cell_node g Hg (Z.of_nat k) ltac:(lia)) as [[C W]|[C W]]; fold x in C, W; rewrite W.
  - replace i with k by lia. ring.
  - replace (S i) with k by lia. ring.
Qed.

Lemma box1_between g data N d x : rg_ok g -> rg_n g = Z.of_nat N -> reals data N d ->
  rg_lo g <= x <= rg_hi g ->
  exists i, (S i < N)%nat /\
    rg_node g (Z.of_nat i) <= x <= rg_node g (Z.of_nat (S i)) /\
    interpToReal {| db_dims := [rg_n g]; db_ranges := [Some (grid_of g)]; db_data := data |} [Along (Fin x)]
    = Ok (Fin (line (rg_node g (Z.of_nat i)) (d i) (rg_node g (Z.of_nat (S i))) (d (S i)) x)).
Proof.
  intros Hg HN Hd Hx. pose proof (dx_pos g Hg) as D.
  destruct (box1_call g data N d x Hg HN Hd (inside_fits g Hg x Hx)) as [i [Hi [Hc E]]].
  pose proof (w_inside g Hg x Hx) as W. pose proof (pos_of_cell g Hg x) as P. rewrite Hc in P.
  exists i. split; [exact Hi|].
  replace (Z.of_nat (S i)) with (Z.of_nat i + 1)%Z by lia. rewrite node_succ.
  set (w := rg_w g x) in *. set (n := rg_node g (Z.of_nat i)) in *.
  assert (0 <= w * rg_dx g <= 1 * rg_dx g).
  { split; [apply Rmult_le_pos; lra|apply Rmult_le_compat_r; lra]. }
  split; [lra|]. rewrite E. do 2 f_equal. unfold line.
  replace ((x - n) / (n + rg_dx g - n)) with w by (rewrite P; field; lra). ring.
Qed.

(** Exact arithmetic: for every range, number of bins from 2 on and data, the Linear indexer
    built on an array holding them reads the stored datum at every bin frequency, and between
    two bins the straight line through them, so a value between the two data. *)
Lemma C50_linear_proof :
  forall (a b : R) (N : nat) (data : list ER) (d : nat -> R),
    a < b -> (2 <= N)%nat -> (Z.of_nat N < 2 ^ 31)%Z -> reals data N d ->
    exists L, Linear_ptr data (Fin a) (Fin b) (Z.of_nat N) = Ok L /\
      (forall i, (i < N)%nat ->
         Linear_at L (Z.of_nat i) = Ok (Fin (d i)) /\
         Linear_call L (Fin (lin_bin a b N i)) = Ok (Fin (d i))) /\
      (forall nu, a <= nu <= b -> exists i v, (S i < N)%nat /\
         lin_bin a b N i <= nu <= lin_bin a b N (S i) /\
         Linear_call L (Fin nu) = Ok (Fin v) /\
         v = line (lin_bin a b N i) (d i) (lin_bin a b N (S i)) (d (S i)) nu /\
         Rmin (d i) (d (S i)) <= v <= Rmax (d i) (d (S i))).
Proof.
  intros a b N data d Hab HN Hint Hd.
  set (g := {| rg_lo := a; rg_hi := b; rg_n := Z.of_nat N |}).
  assert (Hg : rg_ok g) by (split; cbn; [exact Hab|lia]).
  exists {| db_dims := [rg_n g]; db_ranges := [Some (grid_of g)]; db_data := data |}.
  split; [|split].
  - unfold Linear_ptr, Linear_box, setRange0. pose proof (mk_grid_of g Hg) as M. cbn [rg_lo rg_hi rg_n g] in M.
    rewrite M. reflexivity.
  - intros i Hi. split; [apply (at_flat_reals data N); assumption|].
    unfold Linear_call. pose proof (box1_at_node g data N d i Hg eq_refl Hd Hi) as E.
    rewrite (grid_bins g N i Hg eq_refl) in E. exact E.
  - intros nu Hnu. destruct (box1_between g data N d nu Hg eq_refl Hd Hnu) as [i [Hi [Hn E]]].
    rewrite !(grid_bins g N _ Hg eq_refl) in *. cbn [rg_lo rg_hi g] in *.
    eexists i, _. split; [exact Hi|]. split; [exact Hn|]. split; [exact E|]. split; [reflexivity|].
    apply line_between; [|exact Hn].
    pose proof (dx_pos g Hg). pose proof (node_succ g (Z.of_nat i)).
    replace (Z.of_nat i + 1)%Z with (Z.of_nat (S i)) in H0 by lia.
    rewrite !(grid_bins g N _ Hg eq_refl) in H0. cbn [rg_lo rg_hi g] in H0. lra.
Qed.

(** three bins at 1, 2, 3 *)
Lemma C50_linear_example :
  exists L, Linear_ptr [Fin 5; Fin 7; Fin 1] (Fin 1) (Fin 3) 3 = Ok L /\
    Linear_call L (Fin 2) = Ok (Fin 7).
Proof.
  pose (d := fun i => match i with O => 5 | S O => 7 | _ => 1 end).
  destruct (C50_linear_proof 1 3 3 [Fin 5; Fin 7; Fin 1] d) as [L [E [H _]]]; [lra|lia|lia| |].
  { intros [|[|[|j]]] Hj; [reflexivity|reflexivity|reflexivity|lia]. }
  exists L. split; [exact E|]. destruct (H 1%nat ltac:(lia)) as [_ H1].
  replace (lin_bin 1 3 3 1) with 2 in H1; [exact H1|]. unfold lin_bin. cbn [INR]. field.
Qed.

Lemma log_bin_log a b N i : 0 < a -> a < b ->
  log10 (log_bin a b N i) = lin_bin (log10 a) (log10 b) N i.
Proof.
  intros Ha Hab. pose proof ln10_pos. unfold log_bin, lin_bin, log10.
  rewrite ln_mult by (try apply exp_pos; lra). unfold Rpower at 1. rewrite ln_exp.
  unfold Rdiv at 3. rewrite (ln_mult b) by (try apply Rinv_0_lt_compat; lra).
  rewrite ln_Rinv by lra. unfold Rdiv. ring.
Qed.
Lemma log_bin_pos a b N i : 0 < a -> 0 < log_bin a b N i.
Proof. intros. unfold log_bin. apply Rmult_lt_0_compat; [lra|apply exp_pos]. Qed.
Lemma log10_le_inv x y : 0 < x -> 0 < y -> log10 x <= log10 y -> x <= y.
Proof. intros Hx Hy Hl. rewrite <- (pow10_log10 x Hx), <- (pow10_log10 y Hy). apply pow10_le. exact Hl. Qed.

(** Exact arithmetic (BDMath::log10 as the exact logarithm): the same for LogLinear, with the
    bins equally spaced in the logarithm of frequency and straight lines in that logarithm. *)
Lemma C50_loglinear_proof :
  forall (a b : R) (N : nat) (data : list ER) (d : nat -> R),
    0 < a -> a < b -> (2 <= N)%nat -> (Z.of_nat N < 2 ^ 31)%Z -> reals data N d ->
    exists L, LogLinear_ptr data (Fin a) (Fin b) (Z.of_nat N) = Ok L /\
      (forall i, (i < N)%nat ->
         LogLinear_at L (Z.of_nat i) = Ok (Fin (d i)) /\
         LogLinear_call L (Fin (log_bin a b N i)) = Ok (Fin (d i))) /\
      (forall nu, a <= nu <= b -> exists i v, (S i < N)%nat /\
         log_bin a b N i <= nu <= log_bin a b N (S i) /\
         LogLinear_call L (Fin nu) = Ok (Fin v) /\
         v = line (log10 (log_bin a b N i)) (d i) (log10 (log_bin a b N (S i))) (d (S i)) (log10 nu) /\
         Rmin (d i) (d (S i)) <= v <= Rmax (d i) (d (S i))).
Proof.
  intros a b N data d Ha Hab HN Hint Hd.
  set (g := {| rg_lo := log10 a; rg_hi := log10 b; rg_n := Z.of_nat N |}).
  assert (Hg : rg_ok g) by (split; cbn; [apply log10_incr; assumption|lia]).
  exists {| db_dims := [rg_n g]; db_ranges := [Some (grid_of g)]; db_data := data |}.
  split; [|split].
  - unfold LogLinear_ptr, LogLinear_box, setRange0. rewrite !fin_log10f by lra.
    pose proof (mk_grid_of g Hg) as M. cbn [rg_lo rg_hi rg_n g] in M. unfold log10 in M at 1 2.
    rewrite M. reflexivity.
  - intros i Hi. split; [apply (at_flat_reals data N); assumption|].
    unfold LogLinear_call. rewrite fin_log10f by (apply log_bin_pos; exact Ha).
    fold (log10 (log_bin a b N i)). rewrite log_bin_log by assumption.
    pose proof (box1_at_node g data N d i Hg eq_refl Hd Hi) as E.
    rewrite (grid_bins g N i Hg eq_refl) in E. exact E.
  - intros nu Hnu. unfold LogLinear_call. rewrite fin_log10f by lra. fold (log10 nu).
    assert (Hl : rg_lo g <= log10 nu <= rg_hi g) by (cbn; split; apply log10_le; lra).
    destruct (box1_between g data N d (log10 nu) Hg eq_refl Hd Hl) as [i [Hi [Hn E]]].
    rewrite !(grid_bins g N _ Hg eq_refl) in *. cbn [rg_lo rg_hi g] in *.
    rewrite <- !log_bin_log in * by assumption.
    eexists i, _. split; [exact Hi|]. split.
    { split; apply log10_le_inv; try apply log_bin_pos; lra. }
    split; [exact E|]. split; [reflexivity|].
    apply line_between; [|exact Hn].
    pose proof (dx_pos g Hg). pose proof (node_succ g (Z.of_nat i)).
    replace (Z.of_nat i + 1)%Z with (Z.of_nat (S i)) in H0 by lia.
    rewrite !(grid_bins g N _ Hg eq_refl) in H0. cbn [rg_lo rg_hi g] in H0.
    rewrite <- !log_bin_log in H0 by assumption. lra.
Qed.

(** three bins at 1, 10, 100 *)
Lemma C50_loglinear_example :
  exists L, LogLinear_ptr [Fin 5; Fin 7; Fin 1] (Fin 1) (Fin 100) 3 = Ok L /\
    LogLinear_call L (Fin 10) = Ok (Fin 7).
Proof.
  pose (d := fun i => match i with O => 5 | S O => 7 | _ => 1 end).
  destruct (C50_loglinear_proof 1 100 3 [Fin 5; Fin 7; Fin 1] d) as [L [E [H _]]]; [lra|lra|lia|lia| |].
  { intros [|[|[|j]]] Hj; [reflexivity|reflexivity|reflexivity|lia]. }
  exists L. split; [exact E|]. destruct (H 1%nat ltac:(lia)) as [_ H1].
  replace (log_bin 1 100 3 1) with 10 in H1; [exact H1|]. unfold log_bin. cbn [INR].
  replace (1 / (1 + 1 + 1 - 1)) with (/ 2) by field. rewrite Rpower_sqrt by lra.
  replace (100 / 1) with (10 * 10) by field. rewrite sqrt_square by lra. ring.
Qed.

(** what LogCheb stands for at its nodes: |d| + 1e-20 *)
Definition guarded (d : R) : R := Rabs d + 1 * powerRZ 10 (-20).
Lemma guarded_pos d : 0 < guarded d.
Proof. unfold guarded. pose proof (Rabs_pos d). assert (0 < powerRZ 10 (-20)) by (apply powerRZ_lt; lra). lra. Qed.

Lemma set_coeffs n m c d : reals (lc_data c) n d -> (n <= length (lc_logdata c))%nat -> (n <= length (lc_coeffs c))%nat ->
  forall A, (forall i j, (i < n)%nat -> (j < n)%nat -> m i j = Ok (Fin (A i j))) ->
  exists c', SetInterpCoeffs (Z.of_nat n) m c = Ok c' /\ lc_data c' = lc_data c /\
    lc_lnumin c' = lc_lnumin c /\ lc_lnumax c' = lc_lnumax c /\
    reals (lc_coeffs c') n (transform n A (fun j => log10 (guarded (d j)))).
Proof.
  intros Hd Hl Hc A HA. unfold SetInterpCoeffs, for_int. rewrite Nat2Z.id.
  destruct (for_loop_inv (fun k (ld : mem ER) => (n <= length ld)%nat /\ reals ld k (fun j => log10 (guarded (d j)))) n
    (fun i ld => d <- load (lc_data c) i ;; store ld i (Olog10f (Oadd (Oabs d) (Odec 1 (-20)))))
    (lc_logdata c)) as [ld [E [H1 H2]]].
  - split; [exact Hl|]. intros j Hj; lia.
  - intros i s Hi [Hsl Hr]. rewrite (load_some _ i _ (Hd i Hi)). cbn [bind].
    rewrite fin_abs, fin_dec, fin_add. fold (guarded (d i)).
    rewrite fin_log10f by apply guarded_pos. rewrite store_ok by lia.
    eexists. split; [reflexivity|]. split; [rewrite upd_length; exact Hsl|].
    intros j Hj. destruct (Nat.eq_dec j i) as [->|Hne].
    + rewrite nth_upd_same by lia. reflexivity.
    + rewrite nth_upd_other by lia. apply Hr. lia.
  - rewrite E. cbn [bind].
    destruct (MatMultiply_fin m A ld _ (lc_coeffs c) n HA H2 Hc) as [cf [Ecf [_ Hcf]]].
    rewrite Ecf. cbn [bind]. eexists. split; [reflexivity|]. cbn. auto.
Qed.

Lemma logcheb_value dbg n c cf a b nu : 0 < a -> a < b -> 0 < nu ->
  lc_lnumin c = Olog10f (Fin a) -> lc_lnumax c = Olog10f (Fin b) -> reals (lc_coeffs c) n cf ->
  LogCheb_call dbg (Z.of_nat n) c (Fin nu) =
    Ok (Fin (pow10 (series n cf (to_cell (log10 a) (log10 b) (log10 nu))))).
Proof.
  intros Ha Hab Hnu E1 E2 Hc. unfold LogCheb_call. rewrite E1, E2, !fin_log10f by lra.
  fold (log10 a) (log10 b) (log10 nu).
  rewrite (InterpFromCoeffs_fin dbg _ _ _ _ cf n (log10_incr a b Ha Hab) Hc). cbn [bind].
  rewrite fin_ofZ, fin_pow by lra. reflexivity.
Qed.

(** Exact arithmetic: after SetInterpCoeffs with the matrix of discrete orthogonality, LogCheb
    keeps its data and returns, at every Chebyshev node of the logarithmic interval, the
    magnitude of the datum plus the guard 1e-20; and everywhere it returns a positive number. *)
Lemma C50_logcheb_proof :
  forall (dbg : bool) (a b : R) (n : nat) (m : nat -> nat -> result ER)
         (data logdata coeffs : list ER) (d : nat -> R),
    0 < a -> a < b -> reals data n d -> (n <= length logdata)%nat -> (n <= length coeffs)%nat ->
    (forall i j, (i < n)%nat -> (j < n)%nat -> m i j = Ok (Fin (dct n i j))) ->
    exists c, SetInterpCoeffs (Z.of_nat n) m (mk_LogCheb data logdata coeffs (Fin a) (Fin b)) = Ok c /\
      (forall i, (i < n)%nat -> LogCheb_at c (Z.of_nat i) = Ok (Fin (d i))) /\
      (forall k, (k < n)%nat ->
         LogCheb_call dbg (Z.of_nat n) c (Fin (pow10 (point (log10 a) (log10 b) n k)))
         = Ok (Fin (Rabs (d k) + / 10 ^ 20))) /\
      (forall nu, 0 < nu -> exists v, LogCheb_call dbg (Z.of_nat n) c (Fin nu) = Ok (Fin v) /\ 0 < v).
Proof.
  intros dbg a b n m data logdata coeffs d Ha Hab Hd Hl Hc Hm.
  destruct (set_coeffs n m (mk_LogCheb data logdata coeffs (Fin a) (Fin b)) d Hd Hl Hc (dct n) Hm)
    as [c [E [Ed [E1 [E2 Hcf]]]]].
  cbn [lc_data lc_lnumin lc_lnumax mk_LogCheb] in Ed, E1, E2.
  exists c. split; [exact E|]. split; [|split].
  - intros i Hi. unfold LogCheb_at. rewrite Ed. apply (at_flat_reals data n); assumption.
  - intros k Hk. rewrite (logcheb_value dbg n c _ a b _ Ha Hab (pow10_pos _) E1 E2 Hcf).
    rewrite log10_pow10. unfold point. rewrite to_from by (apply log10_incr; assumption).
    rewrite dct_interpolates by exact Hk. rewrite pow10_log10 by apply guarded_pos.
    unfold guarded. change (powerRZ 10 (-20)) with (/ 10 ^ 20). do 3 f_equal. ring.
  - intros nu Hnu. rewrite (logcheb_value dbg n c _ a b _ Ha Hab Hnu E1 E2 Hcf).
    eexists. split; [reflexivity|]. apply pow10_pos.
Qed.

(** one bin: its node is the middle of the logarithmic interval *)
Lemma C50_logcheb_example :
  exists c, SetInterpCoeffs 1 (fun i j => Ok (Fin (dct 1 i j)))
      (mk_LogCheb [Fin 4] [NaN] [NaN] (Fin 1) (Fin 100)) = Ok c /\
    LogCheb_call true 1 c (Fin 10) = Ok (Fin (4 + / 10 ^ 20)).
Proof.
  destruct (C50_logcheb_proof true 1 100 1 (fun i j => Ok (Fin (dct 1 i j))) [Fin 4] [NaN] [NaN] (fun _ => 4))
    as [c [E [_ [H _]]]]; [lra|lra| |cbn; lia|cbn; lia|reflexivity|].
  { intros [|j] Hj; [reflexivity|lia]. }
  exists c. split; [exact E|]. specialize (H 0%nat ltac:(lia)).
  replace (pow10 (point (log10 1) (log10 100) 1 0)) with 10 in H.
  - change (Z.of_nat 1) with 1%Z in H. rewrite H. rewrite Rabs_right by lra. reflexivity.
  - unfold point, from_cell, zero. change (INR 0) with 0. change (INR 1) with 1.
    replace ((2 * 0 + 1) * PI / (2 * 1)) with (PI / 2) by field. rewrite cos_PI2.
    replace ((- 0 + 1) * (log10 100 - log10 1) / 2 + log10 1) with ((log10 1 + log10 100) / 2) by field.
    pose proof ln10_pos. unfold log10, pow10, Rpower. rewrite ln_1.
    replace 100 with (10 * 10) by ring. rewrite ln_mult by lra.
    replace ((0 / ln 10 + (ln 10 + ln 10) / ln 10) / 2 * ln 10) with (ln 10) by (field; lra).
    rewrite exp_ln by lra. reflexivity.
Qed.

(** The magnitude and the guard are lost for good: LogCheb holding -1 returns more than 1 at its
    node, and holding 0 it returns 1e-20, so "the datum at the node" is false without them. *)
Lemma C50_logcheb_refuted_proof :
  exists (m : nat -> nat -> result ER) (nu : R),
    (forall i j, m i j = Ok (Fin (dct 1 i j))) /\ 0 < nu /\
    (exists c, SetInterpCoeffs 1 m (mk_LogCheb [Fin (-1)] [NaN] [NaN] (Fin 1) (Fin 100)) = Ok c /\
       LogCheb_call false 1 c (Fin nu) = Ok (Fin (1 + / 10 ^ 20))) /\
    (exists c, SetInterpCoeffs 1 m (mk_LogCheb [Fin 0] [NaN] [NaN] (Fin 1) (Fin 100)) = Ok c /\
       LogCheb_call false 1 c (Fin nu) = Ok (Fin (/ 10 ^ 20))).
Proof.
  exists (fun i j => Ok (Fin (dct 1 i j))), (pow10 (point (log10 1) (log10 100) 1 0)).
  split; [reflexivity|]. split; [apply pow10_pos|]. split.
  - destruct (C50_logcheb_proof false 1 100 1 (fun i j => Ok (Fin (dct 1 i j))) [Fin (-1)] [NaN] [NaN] (fun _ => -1))
      as [c [E [_ [H _]]]]; [lra|lra| |cbn; lia|cbn; lia|reflexivity|].
    { intros [|j] Hj; [reflexivity|lia]. }
    exists c. split; [exact E|]. specialize (H 0%nat ltac:(lia)). change (Z.of_nat 1) with 1%Z in H.
    rewrite H, Rabs_left by lra. do 3 f_equal. ring.
  - destruct (C50_logcheb_proof false 1 100 1 (fun i j => Ok (Fin (dct 1 i j))) [Fin 0] [NaN] [NaN] (fun _ => 0))
      as [c [E [_ [H _]]]]; [lra|lra| |cbn; lia|cbn; lia|reflexivity|].
    { intros [|j] Hj; [reflexivity|lia]. }
    exists c. split; [exact E|]. specialize (H 0%nat ltac:(lia)). change (Z.of_nat 1) with 1%Z in H.
    rewrite H, Rabs_R0, Rplus_0_l. reflexivity.
Qed.

(** Every arithmetic: writing a bin through Linear, LogLinear or Identity is read back, and
    changes no other bin; an index outside the storage is out of bounds. *)
Lemma C50_bins_proof :
  forall (T : Type) (O : Ops T) (L : DataBox T) (data : list T) (i j : Z) (v : T),
    ((0 <= i < Z.of_nat (length (db_data L)))%Z ->
       (exists L', Linear_set L i v = Ok L' /\ Linear_at L' i = Ok v /\
         (j <> i -> Linear_at L' j = Linear_at L j)) /\
       (exists L', LogLinear_set L i v = Ok L' /\ LogLinear_at L' i = Ok v /\
         (j <> i -> LogLinear_at L' j = LogLinear_at L j))) /\
    (~ (0 <= i < Z.of_nat (length (db_data L)))%Z ->
       Linear_set L i v = UB /\ Linear_at L i = UB /\ LogLinear_set L i v = UB /\ LogLinear_at L i = UB) /\
    ((0 <= i < Z.of_nat (length data))%Z ->
       exists d, Identity_set data i v = Ok d /\ Identity_at d i = Ok v /\ (j <> i -> Identity_at d j = Identity_at data j)) /\
    (~ (0 <= i < Z.of_nat (length data))%Z -> Identity_set data i v = UB /\ Identity_at data i = UB).
Proof.
  assert (H : forall (T : Type) (data : list T) (i j : Z) (v : T),
    ((0 <= i < Z.of_nat (length data))%Z -> exists d, set_flat data i v = Ok d /\ at_flat d i = Ok v /\ (j <> i -> at_flat d j = at_flat data j)) /\
    (~ (0 <= i < Z.of_nat (length data))%Z -> set_flat data i v = UB /\ at_flat data i = UB)).
  { intros T data i j v. unfold set_flat, at_flat. split.
    - intros Hi. destruct (Z.ltb_spec i 0); [lia|]. rewrite store_ok by lia.
      eexists. split; [reflexivity|]. split.
      + apply load_some. apply nth_upd_same. lia.
      + intros Hj. destruct (Z.ltb_spec j 0); [reflexivity|]. unfold load. rewrite nth_upd_other by lia. reflexivity.
    - intros Hi. destruct (Z.ltb_spec i 0); [split; reflexivity|].
      rewrite store_ub, load_ub by lia. split; reflexivity. }
  intros T O L data i j v. destruct (H T (db_data L) i j v) as (H1 & H2). destruct (H T data i j v) as (H3 & H4).
  unfold LogLinear_set, LogLinear_at, Linear_set, Linear_at, Identity_set, Identity_at. repeat split; try assumption.
  - destruct (H1 H0) as (d & E1 & E2 & E3). rewrite E1. eexists. split; [reflexivity|]. now split.
  - destruct (H1 H0) as (d & E1 & E2 & E3). rewrite E1. eexists. split; [reflexivity|]. now split.
  - destruct (H2 H0) as (E1 & E2). rewrite E1. reflexivity.
  - now apply H2.
  - destruct (H2 H0) as (E1 & E2). rewrite E1. reflexivity.
  - now apply H2.
  - now apply H4.
  - now apply H4.
Qed.
