(** Multilinear interpolation on regular grids, exact arithmetic. *)
From Coq Require Import Reals ZArith List Lia Lra Bool.
From Verif Require Import Base.Ops Base.Outcome Inst.ER Inst.ERTac Model.Spiner Spec.Tables.
Import ListNotations.
Open Scope R_scope.

Lemma Zfl_spec r : IZR (Zfl r) <= r < IZR (Zfl r) + 1.
Proof.
  unfold Zfl. destruct (archimed r) as [A B]. rewrite minus_IZR. lra.
Qed.

Lemma Ztrunc_nonneg r : 0 <= r -> IZR (Ztrunc_R r) <= r < IZR (Ztrunc_R r) + 1 /\ (0 <= Ztrunc_R r)%Z.
Proof.
  intros H. unfold Ztrunc_R. destruct (Rlt_dec r 0); [lra|]. pose proof (Zfl_spec r). split; [assumption|].
  assert (IZR (-1) < IZR (Zfl r)) by (change (IZR (-1)) with (-(1)); lra). apply lt_IZR in H1. lia.
Qed.
Lemma Ztrunc_neg r : r < 0 -> IZR (Ztrunc_R r) - 1 < r <= IZR (Ztrunc_R r) /\ (Ztrunc_R r <= 0)%Z.
Proof.
  intros H. unfold Ztrunc_R. destruct (Rlt_dec r 0); [|lra]. pose proof (Zfl_spec (- r)). rewrite opp_IZR.
  split; [lra|]. assert (IZR (-1) < IZR (Zfl (- r))) by (change (IZR (-1)) with (-(1)); lra). apply lt_IZR in H1. lia.
Qed.

Lemma trunc_fits r : -2147483649 < r < 2147483648 -> er_trunc (Fin r) = Some (Ztrunc_R r).
Proof.
  intros H. unfold er_trunc. cbv zeta. replace (int_fits (Ztrunc_R r)) with true; [reflexivity|].
  symmetry. unfold int_fits. change (2 ^ 31)%Z with 2147483648%Z. apply andb_true_iff.
  destruct (Rlt_dec r 0) as [N|N].
  - destruct (Ztrunc_neg r N) as [A B]. split; [apply Z.leb_le|apply Z.ltb_lt; lia].
    assert (IZR (-2147483649) < IZR (Ztrunc_R r)) by lra. apply lt_IZR in H0. lia.
  - destruct (Ztrunc_nonneg r ltac:(lra)) as [A B]. split; [apply Z.leb_le; lia|apply Z.ltb_lt].
    assert (IZR (Ztrunc_R r) < IZR 2147483648) by lra. now apply lt_IZR in H0.
Qed.

Section OneGrid.
  Context (g : rgrid) (H : rg_ok g).

  Lemma dx_pos : 0 < rg_dx g.
  Proof.
    destruct H as [A B]. unfold rg_dx. apply Rdiv_lt_0_compat; [lra|]. apply (IZR_lt 0). lia.
  Qed.

  Lemma mk_grid_of : mk_grid (Fin (rg_lo g)) (Fin (rg_hi g)) (rg_n g) = Ok (grid_of g).
  Proof.
    pose proof dx_pos. destruct H as [A B]. unfold mk_grid. rewrite fin_ltb, Rltb_true by exact A.
    destruct (Z.ltb_spec 0 (rg_n g)); [|lia]. cbn [andb].
    rewrite !fin_ofZ, fin_sub, fin_div.
    2:{ apply Rgt_not_eq. apply (IZR_lt 0). lia. }
    fold (rg_dx g). rewrite fin_div by lra. reflexivity.
  Qed.

  Lemma g_x_of i : g_x (grid_of g) i = Fin (rg_node g i).
  Proof. reflexivity. Qed.

  Definition rg_u (x : R) : R := (x - rg_lo g) / rg_dx g.
  Definition rg_cell (x : R) : Z := g_bound (grid_of g) (Ztrunc_R (rg_u x)).
  Definition rg_w (x : R) : R := rg_u x - IZR (rg_cell x).

  Lemma cell_range x : (0 <= rg_cell x <= rg_n g - 2)%Z.
  Proof.
    destruct H as [_ B]. unfold rg_cell, g_bound. cbn [g_N grid_of].
    destruct (Z.ltb_spec (Ztrunc_R (rg_u x)) 0).
    - destruct (Z.leb_spec (rg_n g - 1) 0); lia.
    - destruct (Z.leb_spec (rg_n g - 1) (Ztrunc_R (rg_u x))); lia.
  Qed.

  Lemma weights_of x : rg_fits g x ->
    g_weights (grid_of g) (Fin x) = Ok (rg_cell x, (Fin (1 - rg_w x), Fin (rg_w x))).
  Proof.
    intros F. pose proof dx_pos as D. unfold g_weights, g_index.
    assert (U : (g_idx (grid_of g) * (Fin x - g_min (grid_of g)))%o = Fin (rg_u x)).
    { unfold grid_of, rg_u. cbn [g_idx g_min]. rewrite fin_sub, fin_mul. f_equal. field. lra. }
    rewrite U. change (@Otrunc ER ER_ops) with er_trunc. rewrite trunc_fits by exact F. cbn [bind].
    fold (rg_cell x). set (i := rg_cell x).
    change (g_dx (grid_of g)) with (Fin (rg_dx g)). change (g_min (grid_of g)) with (Fin (rg_lo g)).
    change (g_idx (grid_of g)) with (Fin (1 / rg_dx g)).
    rewrite !fin_ofZ, fin_mul, fin_add, fin_sub, fin_mul, fin_sub.
    assert (E : 1 / rg_dx g * (x - (IZR i * rg_dx g + rg_lo g)) = rg_w x).
    { unfold rg_w, rg_u. fold i. field. lra. }
    rewrite E. reflexivity.
  Qed.

  Lemma pos_of_cell x : x = rg_node g (rg_cell x) + rg_w x * rg_dx g.
  Proof. pose proof dx_pos. unfold rg_node, rg_w, rg_u. field. lra. Qed.

  Lemma node_succ i : rg_node g (i + 1) = rg_node g i + rg_dx g.
  Proof. unfold rg_node. rewrite plus_IZR. ring. Qed.

  Lemma hi_node : rg_hi g = rg_node g (rg_n g - 1).
  Proof.
    unfold rg_node, rg_dx. destruct H as [_ B].
    assert (IZR (rg_n g - 1) <> 0) by (apply Rgt_not_eq; apply (IZR_lt 0); lia). field. assumption.
  Qed.
  Lemma lo_node : rg_lo g = rg_node g 0.
  Proof. unfold rg_node. ring. Qed.

  Lemma u_inside x : rg_inside g x -> 0 <= rg_u x <= IZR (rg_n g - 1).
  Proof.
    intros [A B]. pose proof dx_pos as D. unfold rg_u. split.
    - apply Rmult_le_pos; [lra|]. left. now apply Rinv_0_lt_compat.
    - apply (Rmult_le_reg_r (rg_dx g)); [exact D|]. unfold Rdiv. rewrite Rmult_assoc, Rinv_l, Rmult_1_r by lra.
      rewrite hi_node in B. unfold rg_node in B. lra.
  Qed.
  Lemma inside_fits x : rg_inside g x -> rg_fits g x.
  Proof.
    intros I. pose proof (u_inside x I) as [A B]. unfold rg_fits. fold (rg_u x). destruct H as [_ K].
    assert (IZR (rg_n g - 1) <= IZR 2147483646) by (apply IZR_le; lia). lra.
  Qed.

  Lemma w_inside x : rg_inside g x -> 0 <= rg_w x <= 1.
  Proof.
    intros I. pose proof (u_inside x I) as [A B]. destruct (Ztrunc_nonneg _ A) as [T1 T2].
    destruct H as [_ K]. unfold rg_w, rg_cell, g_bound. cbn [g_N grid_of].
    destruct (Z.ltb_spec (Ztrunc_R (rg_u x)) 0); [lia|].
    destruct (Z.leb_spec (rg_n g - 1) (Ztrunc_R (rg_u x))) as [L|L].
    - apply IZR_le in L. rewrite minus_IZR in L |- *. rewrite minus_IZR in B. lra.
    - lra.
  Qed.

  Lemma node_inside k : (0 <= k < rg_n g)%Z -> rg_inside g (rg_node g k).
  Proof.
    intros K. pose proof dx_pos. unfold rg_inside. rewrite hi_node. unfold rg_node.
    assert (0 <= IZR k <= IZR (rg_n g - 1)) by (split; apply IZR_le; lia). split.
    - assert (0 <= IZR k * rg_dx g) by (apply Rmult_le_pos; lra). lra.
    - assert (IZR k * rg_dx g <= IZR (rg_n g - 1) * rg_dx g) by (apply Rmult_le_compat_r; lra). lra.
  Qed.

  Lemma u_node k : rg_u (rg_node g k) = IZR k.
  Proof. pose proof dx_pos. unfold rg_u, rg_node. field. lra. Qed.

  Lemma cell_node k : (0 <= k < rg_n g)%Z ->
    (rg_cell (rg_node g k) = k /\ rg_w (rg_node g k) = 0) \/
    (rg_cell (rg_node g k) = (k - 1)%Z /\ rg_w (rg_node g k) = 1).
  Proof.
    intros K. unfold rg_w, rg_cell. rewrite u_node.
    assert (E : Ztrunc_R (IZR k) = k).
    { unfold Ztrunc_R. destruct (Rlt_dec (IZR k) 0) as [L|_]; [apply lt_IZR in L; lia|apply Zfl_IZR]. }
    rewrite E. unfold g_bound. cbn [g_N grid_of]. destruct (Z.ltb_spec k 0); [lia|].
    destruct (Z.leb_spec (rg_n g - 1) k).
    - right. replace (rg_n g - 2)%Z with (k - 1)%Z by lia. split; [reflexivity|]. rewrite minus_IZR. lra.
    - left. split; [reflexivity|]. lra.
  Qed.
End OneGrid.

(** the interpolant over the reals *)
Fixpoint mlin (cs : list rcoord) (dims : list rdim) (f : list Z -> R) : R :=
  match cs, dims with
  | Pos x :: cs, Axis g :: ds =>
    (1 - rg_w g x) * mlin cs ds (fun is => f (rg_cell g x :: is)) +
    rg_w g x * mlin cs ds (fun is => f ((rg_cell g x + 1)%Z :: is))
  | Num i :: cs, Index _ :: ds => mlin cs ds (fun is => f (i :: is))
  | _, _ => f []
  end.

Lemma interp_mlin cs dims : Forall rd_ok dims -> query_ok cs dims ->
  forall d acc f, stores dims d acc f ->
  interp (map coord_of cs) (map dim_of dims) d acc = Ok (Fin (mlin cs dims f)).
Proof.
  revert dims. induction cs as [|c cs IH]; intros [|D ds] W Q d acc f St; cbn in Q; try contradiction;
    try (destruct c; contradiction).
  - exact St.
  - inversion W as [|? ? W1 W2]; subst. destruct c as [x|i], D as [g|n]; try contradiction; destruct Q as [Q1 Q2].
    + cbn [map coord_of dim_of interp]. rewrite (weights_of g W1 x Q1). cbn [bind].
      pose proof (cell_range g W1 x) as C. cbn [stores rd_size] in St.
      rewrite (IH ds W2 Q2 d _ _ (St (rg_cell g x) ltac:(lia))). cbn [bind].
      rewrite (IH ds W2 Q2 d _ _ (St (rg_cell g x + 1)%Z ltac:(lia))). cbn [bind].
      rewrite !fin_mul, fin_add. reflexivity.
    + cbn [map coord_of dim_of interp]. apply IH; auto.
Qed.

Lemma mlin_ext cs dims f f' : (forall is, f is = f' is) -> mlin cs dims f = mlin cs dims f'.
Proof.
  revert dims f f'. induction cs as [|[x|i] cs IH]; intros [|[g|n] ds] f f' E; cbn; auto.
  f_equal; f_equal; apply IH; auto.
Qed.

Lemma at_node_ok cs dims is : Forall rd_ok dims -> at_node cs dims is -> query_ok cs dims /\ inside cs dims.
Proof.
  revert dims is. induction cs as [|[x|j] cs IH]; intros [|[g|n] ds] [|i is] W A; cbn in A; try contradiction; cbn; auto.
  - inversion W as [|? ? W1 W2]; subst. destruct A as (A1 & -> & A3). destruct (IH ds is W2 A3).
    pose proof (node_inside g W1 i A1). split; split; auto. now apply inside_fits.
  - inversion W as [|? ? W1 W2]; subst. destruct A as (A1 & -> & A3). destruct (IH ds is W2 A3). auto.
Qed.

Lemma inside_ok cs dims : Forall rd_ok dims -> inside cs dims -> query_ok cs dims.
Proof.
  revert dims. induction cs as [|[x|j] cs IH]; intros [|[g|n] ds] W A; cbn in A; try contradiction; cbn; auto.
  - inversion W as [|? ? W1 W2]; subst. destruct A as (A1 & A2). split; auto. now apply inside_fits.
  - inversion W as [|? ? W1 W2]; subst. destruct A as (A1 & A2). auto.
Qed.

Lemma mlin_node cs dims is f : Forall rd_ok dims -> at_node cs dims is -> mlin cs dims f = f is.
Proof.
  revert dims is f. induction cs as [|[x|j] cs IH]; intros [|[g|n] ds] [|i is] f W A; cbn in A; try contradiction; auto.
  - inversion W as [|? ? W1 W2]; subst. destruct A as (A1 & -> & A3). cbn [mlin].
    rewrite !(IH ds is _ W2 A3).
    destruct (cell_node g W1 i A1) as [[-> ->]|[-> ->]]; [ring|]. replace (i - 1 + 1)%Z with i by lia. ring.
  - inversion W as [|? ? W1 W2]; subst. destruct A as (A1 & -> & A3). cbn [mlin]. now rewrite (IH ds is _ W2 A3).
Qed.

Lemma mlin_between cs dims f lo hi : Forall rd_ok dims -> inside cs dims ->
  (forall is, near cs dims is -> lo <= f is <= hi) -> lo <= mlin cs dims f <= hi.
Proof.
  revert dims f. induction cs as [|[x|j] cs IH]; intros [|[g|n] ds] f W I B; cbn in I; try contradiction.
  - cbn. apply B. exact Logic.I.
  - inversion W as [|? ? W1 W2]; subst. destruct I as (I1 & I2). cbn [mlin].
    pose proof (w_inside g W1 x I1) as w. pose proof (cell_range g W1 x) as C.
    pose proof (pos_of_cell g W1 x) as P. pose proof (dx_pos g W1) as D.
    assert (A0 : lo <= mlin cs ds (fun is => f (rg_cell g x :: is)) <= hi).
    { apply IH; auto. intros is N. apply B. cbn. split; [lia|]. split; [|exact N].
      replace (x - rg_node g (rg_cell g x)) with (rg_w g x * rg_dx g) by lra.
      rewrite Rabs_pos_eq by (apply Rmult_le_pos; lra).
      assert (rg_w g x * rg_dx g <= 1 * rg_dx g) by (apply Rmult_le_compat_r; lra). lra. }
    assert (A1 : lo <= mlin cs ds (fun is => f ((rg_cell g x + 1)%Z :: is)) <= hi).
    { apply IH; auto. intros is N. apply B. cbn. split; [lia|]. split; [|exact N].
      rewrite node_succ. replace (x - (rg_node g (rg_cell g x) + rg_dx g)) with (- ((1 - rg_w g x) * rg_dx g)) by lra.
      rewrite Rabs_Ropp, Rabs_pos_eq by (apply Rmult_le_pos; lra).
      assert ((1 - rg_w g x) * rg_dx g <= 1 * rg_dx g) by (apply Rmult_le_compat_r; lra). lra. }
    revert A0 A1. generalize (mlin cs ds (fun is => f (rg_cell g x :: is))) as a,
      (mlin cs ds (fun is => f ((rg_cell g x + 1)%Z :: is))) as b. intros a b A0 A1.
    set (ww := rg_w g x) in *.
    split.
    + assert (0 <= (1 - ww) * (a - lo)) by (apply Rmult_le_pos; lra).
      assert (0 <= ww * (b - lo)) by (apply Rmult_le_pos; lra). lra.
    + assert (0 <= (1 - ww) * (hi - a)) by (apply Rmult_le_pos; lra).
      assert (0 <= ww * (hi - b)) by (apply Rmult_le_pos; lra). lra.
  - inversion W as [|? ? W1 W2]; subst. destruct I as (I1 & I2). cbn [mlin]. apply IH; auto.
    intros is N. apply B. cbn. auto.
Qed.

Lemma mlin_add_const cs dims f c : mlin cs dims (fun is => c + f is) = c + mlin cs dims f.
Proof.
  revert dims f. induction cs as [|[x|i] cs IH]; intros [|[g|n] ds] f; cbn; auto.
  rewrite !IH. ring.
Qed.

Lemma mlin_affine cs dims a k : Forall rd_ok dims -> query_ok cs dims -> length a = length cs ->
  mlin cs dims (fun is => affine_at dims a is k) = affine_query cs a k.
Proof.
  revert dims a k. induction cs as [|[x|i] cs IH]; intros [|[g|n] ds] [|s a] k W Q L; cbn in Q, L; try contradiction; try discriminate; auto.
  - inversion W as [|? ? W1 W2]; subst. destruct Q as [Q1 Q2]. injection L as L. cbn [mlin affine_query affine_at].
    rewrite !mlin_add_const, (IH ds a k W2 Q2 L), node_succ.
    pose proof (pos_of_cell g W1 x) as P. rewrite P at 5. ring.
  - inversion W as [|? ? W1 W2]; subst. destruct Q as [Q1 Q2]. injection L as L. cbn [mlin affine_query affine_at].
    apply IH; auto.
Qed.

(** ** logarithms and powers *)
Lemma ln10_pos : 0 < ln 10.
Proof. rewrite <- ln_1. apply ln_increasing; lra. Qed.
Lemma pow10_log10 r : 0 < r -> pow10 (log10 r) = r.
Proof.
  intros H. pose proof ln10_pos. unfold pow10, log10, Rpower. replace (ln r / ln 10 * ln 10) with (ln r) by (field; lra).
  now apply exp_ln.
Qed.
Lemma log10_pow10 x : log10 (pow10 x) = x.
Proof. pose proof ln10_pos. unfold pow10, log10, Rpower. rewrite ln_exp. field. lra. Qed.
Lemma pow10_pos x : 0 < pow10 x.
Proof. apply exp_pos. Qed.
Lemma pow10_add x y : pow10 (x + y) = pow10 x * pow10 y.
Proof. apply Rpower_plus. Qed.
Lemma pow10_incr x y : x < y -> pow10 x < pow10 y.
Proof. intros. apply Rpower_lt; lra. Qed.
Lemma pow10_le x y : x <= y -> pow10 x <= pow10 y.
Proof. intros [H| ->]; [left; now apply pow10_incr|lra]. Qed.
Lemma log10_incr x y : 0 < x -> x < y -> log10 x < log10 y.
Proof.
  intros H L. unfold log10. apply Rmult_lt_compat_r; [apply Rinv_0_lt_compat, ln10_pos|]. now apply ln_increasing.
Qed.
Lemma log10_le x y : 0 < x -> x <= y -> log10 x <= log10 y.
Proof. intros H [L| ->]; [left; now apply log10_incr|lra]. Qed.
Lemma pow10_scale s r : 0 < r -> pow10 (s * log10 r) = Rpower r s.
Proof.
  intros H. unfold pow10, log10, Rpower. f_equal. pose proof ln10_pos. field. lra.
Qed.
Lemma tiny_pos : 0 < tiny.
Proof. unfold tiny. pose proof R_num_min_pos. lra. Qed.
Lemma R_num_min_small : R_num_min < / 10 ^ 307.
Proof.
  unfold R_num_min. change (powerRZ 2 (-1022)) with (/ 2 ^ Pos.to_nat 1022).
  apply Rinv_lt_contravar.
  - apply Rmult_lt_0_compat; apply pow_lt; lra.
  - rewrite !pow_IZR. apply IZR_lt. rewrite positive_nat_Z. vm_compute. reflexivity.
Qed.
Lemma tiny_small : tiny < / 10 ^ 306.
Proof.
  unfold tiny. pose proof R_num_min_small. replace (/ 10 ^ 306) with (10 * / 10 ^ 307); [lra|].
  replace (10 ^ 307) with (10 * 10 ^ 306) by (rewrite <- tech_pow_Rmult; reflexivity).
  rewrite Rinv_mult. field.
Qed.
Lemma tiny_lt_1 : tiny < / 100.
Proof.
  pose proof tiny_small. assert (/ 10 ^ 306 < / 100); [|lra].
  apply Rinv_lt_contravar; [apply Rmult_lt_0_compat; [lra|apply pow_lt; lra]|].
  replace 100 with (10 ^ 2) by ring. apply Rlt_pow; [lra|lia].
Qed.
