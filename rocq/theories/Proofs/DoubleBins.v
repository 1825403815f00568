(** Linear interpolation along one axis of doubles, and the position of frequencies found with
    a single-precision logarithm. *)
From Coq Require Import Reals ZArith List Lra Lia Bool.
From Flocq Require Import Core IEEE754.BinarySingleNaN Relative.
From Verif Require Import Base.Outcome Base.Ops Inst.B64 Model.Spiner Model.Indexers Spec.Tables Spec.SinglePrecision Spec.DoublePrecision Spec.DoubleTables
  Proofs.B64Facts Proofs.FloatFacts Proofs.Near Proofs.DoubleTables Proofs.C51.
Import ListNotations.
Open Scope R_scope.

(** ** One cell, for data of any ordinary size *)
Lemma combine_wide w0 w1 a b lam e F : fin w0 -> fin w1 -> fin a -> fin b ->
  u / 2 <= e <= / 1000000000 -> - (32 * e) <= lam <= 1 + 32 * e ->
  Rabs (V w1 - lam) <= 41 * e -> Rabs (V w0 - (1 - lam)) <= 44 * e ->
  Rabs (V a) <= F -> Rabs (V b) <= F -> bp (-800) <= F <= bp 800 ->
  let v := Bplus mode_NE (Bmult mode_NE w0 a) (Bmult mode_NE w1 b) in
  fin v /\ Rabs (V v - ((1 - lam) * V a + lam * V b)) <= 96 * (e * F).
Proof.
  intros Fw0 Fw1 Fa Fb He Hlam H1 H0 HA HB HF v.
  assert (U : 0 < u <= / 9000000000000000).
  { rewrite u_lit. split; [apply Rinv_0_lt_compat; lra|apply Rinv_le_contravar; lra]. }
  assert (F0 : 0 < F) by (pose proof (bpow_gt_0 radix2 (-800)); lra).
  assert (Lo : forall k, 1 <= k -> bp (-900) <= k * F).
  { intros k Hk. apply Rle_trans with (bp (-800)); [apply bpow_le; lia|]. apply Rle_trans with (1 * F); [lra|apply Rmult_le_compat_r; lra]. }
  assert (Hi : forall k, 0 <= k <= 4 -> k * F <= bp 1000).
  { intros k Hk. apply Rle_trans with (4 * bp 800); [apply Rmult_le_compat; lra|]. change 4 with (bp 2). rewrite <- bpow_plus. apply bpow_le. lia. }
  pose proof (abs_both _ _ H1) as H1'. pose proof (abs_both _ _ H0) as H0'.
  assert (eF : u * F <= 2 * (e * F)) by (replace (2 * (e * F)) with (2 * e * F) by ring; apply Rmult_le_compat_r; lra).
  assert (eF2 : 0 < e * F <= 1 / 1000 * F) by (split; [apply Rmult_lt_0_compat; lra|apply Rmult_le_compat_r; lra]).
  assert (P : forall w c l k, fin w -> fin c -> Rabs (V w - l) <= k * e -> 0 <= k <= 44 -> Rabs l <= 1 + 32 * e -> Rabs (V c) <= F ->
    let p := Bmult mode_NE w c in fin p /\ Rabs (V p - l * V c) <= u * (11 / 10 * F) + k * (e * F) /\ Rabs (V p) <= 111 / 100 * F).
  { intros w c l k Fw Fc Hw Hk Hl Hc p.
    assert (ke : 0 <= k * e <= 44 * e) by (split; [apply Rmult_le_pos; lra|apply Rmult_le_compat_r; lra]).
    pose proof (abs_size _ _ _ _ Hw Hl) as Sw.
    assert (SP : Rabs (V w * V c) <= 11 / 10 * F).
    { rewrite Rabs_mult. apply Rmult_le_compat; try apply Rabs_pos; lra. }
    destruct (op_mul w c (11 / 10 * F) Fw Fc SP (Lo (11 / 10) ltac:(lra)) (Hi (11 / 10) ltac:(lra))) as [Fp Ep]. fold p in Fp, Ep. split; [exact Fp|]. split.
    - apply abs_near with (V w * V c); [exact Ep|]. replace (V w * V c - l * V c) with ((V w - l) * V c) by ring. rewrite Rabs_mult.
      replace (k * (e * F)) with (k * e * F) by ring. apply Rmult_le_compat; try apply Rabs_pos; lra.
    - pose proof (abs_size _ _ _ _ Ep SP). assert (u * (11 / 10 * F) <= 1 / 1000 * (11 / 10 * F)) by (apply Rmult_le_compat_r; lra). lra. }
  destruct (P w0 a (1 - lam) 44 Fw0 Fa H0 ltac:(lra) (abs_bound (1 - lam) (1 + 32 * e) ltac:(lra)) HA) as (Fp0 & E0 & S0).
  destruct (P w1 b lam 41 Fw1 Fb H1 ltac:(lra) (abs_bound lam (1 + 32 * e) ltac:(lra)) HB) as (Fp1 & E1 & S1).
  set (p0 := Bmult mode_NE w0 a) in *. set (p1 := Bmult mode_NE w1 b) in *.
  destruct (op_add p0 p1 (23 / 10 * F) Fp0 Fp1) as [Fv Ev].
  { apply Rle_trans with (1 := Rabs_triang _ _). lra. }
  { apply Lo. lra. } { apply Hi. lra. }
  fold v in Fv, Ev. split; [exact Fv|].
  assert (R2 : Rabs (V p0 + V p1 - ((1 - lam) * V a + lam * V b)) <= (u * (11 / 10 * F) + 44 * (e * F)) + (u * (11 / 10 * F) + 41 * (e * F))).
  { replace (V p0 + V p1 - ((1 - lam) * V a + lam * V b)) with ((V p0 - (1 - lam) * V a) + (V p1 - lam * V b)) by ring. now apply abs_add. }
  apply Rle_trans with (1 := abs_near _ _ _ _ _ Ev R2). lra.
Qed.

(** ** One axis *)
(** the numbers of the bins *)
Definition bins64 (data : list b64) (N : Z) (F : R) : Prop :=
  forall i, (0 <= i < N)%Z -> exists x, at_flat data i = Ok x /\ fin x /\ Rabs (V x) <= F.
Definition bin64 (data : list b64) (i : Z) : R := V (nth (Z.to_nat i) data (b64_of_Z 0)).
Lemma bin_at data i x : (0 <= i)%Z -> at_flat data i = Ok x -> bin64 data i = V x.
Proof.
  intros H0 H. unfold at_flat in H. replace (i <? 0)%Z with false in H by (symmetry; apply Z.ltb_ge; lia).
  unfold load in H. unfold bin64. destruct (nth_error data (Z.to_nat i)) as [y|] eqn:E; [|discriminate]. injection H as ->.
  now rewrite (nth_error_nth _ _ _ E).
Qed.

(** [along f N t r]: [r] is at [t] bins from the first on the broken line through [f] *)
Definition along (f : Z -> R) (N : Z) (t r : R) : Prop :=
  exists c mu, (0 <= c < N - 1)%Z /\ 0 <= mu <= 1 /\ t = IZR c + mu /\ r = (1 - mu) * f c + mu * f (c + 1)%Z.
Lemma along_interpolates g f t r : (2 <= rg_n g)%Z -> 0 < rg_dx g ->
  interpolates [Pos (rg_lo g + t * rg_dx g)] [Axis g] (fun is => f (nth 0 is 0%Z)) r <-> along f (rg_n g) t r.
Proof.
  intros H2 D. cbn [interpolates nth]. split.
  - intros (c & a & b & Hc & Hn & -> & -> & E). exists c, (t - IZR c). split; [exact Hc|]. rewrite node_next in *. unfold rg_node in *. split.
    + split; apply (Rmult_le_reg_r (rg_dx g)); try exact D; lra.
    + split; [ring|]. apply (Rmult_eq_reg_r (rg_dx g)); [|lra]. rewrite E. ring.
  - intros (c & mu & Hc & Hm & -> & ->). exists c, (f c), (f (c + 1)%Z). split; [exact Hc|]. rewrite node_next. unfold rg_node. split.
    + assert (0 <= mu * rg_dx g <= 1 * rg_dx g) by (split; [apply Rmult_le_pos; lra|apply Rmult_le_compat_r; lra]). lra.
    + split; [reflexivity|]. split; [reflexivity|]. ring.
Qed.
Lemma walk f S a k : (forall i, (a <= i < a + Z.of_nat k)%Z -> Rabs (f (i + 1)%Z - f i) <= S) -> Rabs (f (a + Z.of_nat k)%Z - f a) <= S * INR k.
Proof.
  induction k as [|k IH]; intros H.
  - rewrite Z.add_0_r, Rminus_diag_eq, Rabs_R0 by reflexivity. simpl. lra.
  - rewrite S_INR. replace (a + Z.of_nat (Datatypes.S k))%Z with (a + Z.of_nat k + 1)%Z by lia.
    replace (f (a + Z.of_nat k + 1)%Z - f a) with ((f (a + Z.of_nat k + 1)%Z - f (a + Z.of_nat k)%Z) + (f (a + Z.of_nat k)%Z - f a)) by ring.
    apply Rle_trans with (1 := Rabs_triang _ _). pose proof (IH ltac:(intros i Hi; apply H; lia)). pose proof (H (a + Z.of_nat k)%Z ltac:(lia)). lra.
Qed.
Lemma along_step f N S t r t' r' : (forall i, (0 <= i < N - 1)%Z -> Rabs (f (i + 1)%Z - f i) <= S) ->
  along f N t r -> along f N t' r' -> t <= t' -> Rabs (r' - r) <= S * (t' - t).
Proof.
  intros H (c & mu & Hc & Hm & -> & ->) (c' & mu' & Hc' & Hm' & -> & ->) Ht.
  assert (P : forall i k, (0 <= i < N - 1)%Z -> 0 <= k -> Rabs (k * (f (i + 1)%Z - f i)) <= S * k).
  { intros i k Hi Hk. rewrite Rabs_mult, (Rabs_pos_eq k) by exact Hk. rewrite Rmult_comm. apply Rmult_le_compat_r; auto. }
  destruct (Z.lt_trichotomy c c') as [Hl|[->|Hl]].
  - pose proof (walk f S (c + 1) (Z.to_nat (c' - c - 1))) as W. rewrite Z2Nat.id in W by lia. replace (c + 1 + (c' - c - 1))%Z with c' in W by lia.
    specialize (W ltac:(intros i Hi; apply H; lia)). rewrite INR_IZR_INZ, Z2Nat.id in W by lia. rewrite !minus_IZR in W.
    pose proof (P c' mu' Hc' ltac:(lra)) as Q1. pose proof (P c (1 - mu) Hc ltac:(lra)) as Q2.
    replace ((1 - mu') * f c' + mu' * f (c' + 1)%Z - ((1 - mu) * f c + mu * f (c + 1)%Z))
      with (mu' * (f (c' + 1)%Z - f c') + (f c' - f (c + 1)%Z) + (1 - mu) * (f (c + 1)%Z - f c)) by ring.
    replace (S * (IZR c' + mu' - (IZR c + mu))) with (S * mu' + S * (IZR c' - IZR c - 1) + S * (1 - mu)) by ring.
    apply abs_add; [apply abs_add; assumption|assumption].
  - replace ((1 - mu') * f c' + mu' * f (c' + 1)%Z - ((1 - mu) * f c' + mu * f (c' + 1)%Z)) with ((mu' - mu) * (f (c' + 1)%Z - f c')) by ring.
    replace (IZR c' + mu' - (IZR c' + mu)) with (mu' - mu) by ring. apply P; [exact Hc|lra].
  - (* the two positions coincide *)
    assert (IZR (c' + 1) <= IZR c) by (apply IZR_le; lia). rewrite plus_IZR in *. assert (mu = 0) by lra. assert (mu' = 1) by lra. subst mu mu'.
    assert (c = c' + 1)%Z by (apply eq_IZR; rewrite plus_IZR; lra). subst c. rewrite plus_IZR.
    replace ((1 - 1) * f c' + 1 * f (c' + 1)%Z - ((1 - 0) * f (c' + 1)%Z + 0 * f (c' + 1 + 1)%Z)) with 0 by ring. rewrite Rabs_R0.
    replace (S * (IZR c' + 1 - (IZR c' + 1 + 0))) with 0 by ring. lra.
Qed.
Lemma along_near f N S t r t' r' e : (forall i, (0 <= i < N - 1)%Z -> Rabs (f (i + 1)%Z - f i) <= S) -> 0 <= S ->
  along f N t r -> along f N t' r' -> Rabs (t' - t) <= e -> Rabs (r' - r) <= S * e.
Proof.
  intros H HS A B He. apply abs_both in He. destruct (Rle_or_lt t t') as [Q|Q].
  - apply Rle_trans with (1 := along_step f N S t r t' r' H A B Q). apply Rmult_le_compat_l; lra.
  - rewrite Rabs_minus_sym. apply Rle_trans with (1 := along_step f N S t' r' t r H B A ltac:(lra)). apply Rmult_le_compat_l; lra.
Qed.

(** a lookup in doubles, at a coordinate inside the grid *)
Lemma axis64 L lo hi N G data F x r : ordinary lo hi N -> mk_grid (O := B64_ops L) lo hi N = Ok G -> bins64 data N F -> bp (-800) <= F <= bp 800 ->
  fin x -> V lo <= V x <= V hi -> interpolates [Pos (V x)] [Axis (real_grid lo hi N)] (fun is => bin64 data (nth 0 is 0%Z)) r ->
  exists v, interp (O := B64_ops L) [Along x] [(N, Some G)] data 0 = Ok v /\ fin v /\ Rabs (V v - r) <= 225 * F * cells (real_grid lo hi N) * u.
Proof.
  intros Ho EG HB HF Fx Hx HI.
  assert (U : 0 < u <= / 9000000000000000).
  { rewrite u_lit. split; [apply Rinv_0_lt_compat; lra|apply Rinv_le_contravar; lra]. }
  assert (F0 : 0 < F) by (pose proof (bpow_gt_0 radix2 (-800)); lra).
  pose proof (dx_pos _ _ _ Ho) as Dp. pose proof (cells_half _ _ _ Ho) as C1. pose proof (cells_le _ _ _ Ho) as C2. pose proof (n_two _ _ _ Ho) as N2.
  pose proof (extent_1 lo hi N) as X1.
  assert (Hc : coordinate 20 (real_grid lo hi N) (V x) (V x)).
  { split; [exact Hx|]. rewrite Rminus_diag_eq, Rabs_R0 by reflexivity. fold u. apply Rmult_le_pos; lra. }
  destruct (weights64 L lo hi N Ho x (V x) Fx Hc) as (G'' & EG' & i & w0 & w1 & lam & Ew & Hi & Fw0 & Fw1 & Ey & Hlam & H1 & H0).
  rewrite EG in EG'. injection EG' as <-.
  set (g := real_grid lo hi N) in *. set (e := u * cells g).
  assert (He : u / 2 <= e <= / 1000000000).
  { unfold e. split; [apply Rle_trans with (u * (1 / 2)); [lra|apply Rmult_le_compat_l; lra]|].
    apply Rle_trans with (/ 9000000000000000 * 1000000); [apply Rmult_le_compat; lra|lra]. }
  replace (32 * u * cells g) with (32 * e) in * by (unfold e; ring).
  replace (41 * u * cells g) with (41 * e) in * by (unfold e; ring).
  replace (44 * u * cells g) with (44 * e) in * by (unfold e; ring).
  destruct (HB i ltac:(lia)) as (a & Ea & Fa & Ba). destruct (HB (i + 1)%Z ltac:(lia)) as (b & Eb & Fb & Bb).
  destruct (combine_wide w0 w1 a b lam e F Fw0 Fw1 Fa Fb He Hlam H1 H0 Ba Bb HF) as [Fv Ev].
  set (v := Bplus mode_NE (Bmult mode_NE w0 a) (Bmult mode_NE w1 b)) in *. exists v.
  split. { cbn [interp]. rewrite Ew. cbn [bind Z.mul Z.add]. rewrite Ea. cbn [bind]. rewrite Eb. reflexivity. }
  split; [exact Fv|].
  rewrite <- (bin_at data i a ltac:(lia) Ea), <- (bin_at data (i + 1) b ltac:(lia) Eb) in Ev.
  assert (BN : forall k, (0 <= k < N)%Z -> Rabs (bin64 data k) <= F).
  { intros k Hk. destruct (HB k Hk) as (z & Ez & _ & Bz). now rewrite (bin_at data k z ltac:(lia) Ez). }
  assert (P0 : 0 < e * F) by (apply Rmult_lt_0_compat; lra).
  replace (225 * F * cells g * u) with (225 * (e * F)) by (unfold e; ring).
  (* which cell *)
  assert (A : along (bin64 data) N (IZR i + lam) r).
  { replace (V x) with (rg_lo g + (IZR i + lam) * rg_dx g) in HI by (rewrite Ey; unfold rg_node; ring).
    apply (along_interpolates g (bin64 data) (IZR i + lam) r N2 Dp) in HI. exact HI. }
  destruct A as (c & mu & Hc' & Hmu & IL & ->).
  assert (Hic : i = c \/ i = (c + 1)%Z \/ i = (c - 1)%Z).
  { assert (i < c + 2)%Z by (apply lt_IZR; rewrite plus_IZR; simpl; lra).
    assert (c - 2 < i)%Z by (apply lt_IZR; rewrite minus_IZR; simpl; lra). lia. }
  destruct Hic as [->|[->|Hic]].
  - assert (lam = mu) by lra. subst mu. lra.
  - rewrite plus_IZR in IL. assert (mu = 1 + lam) by lra. subst mu. pose proof (BN c ltac:(lia)) as B1. pose proof (BN (c + 1)%Z ltac:(lia)) as B2. pose proof (BN (c + 1 + 1)%Z ltac:(lia)) as B3.
    pose proof (no_jump (- lam) e (bin64 data c) (bin64 data (c + 1)%Z) (bin64 data (c + 1 + 1)%Z) F ltac:(lra) B1 B2 B3) as J.
    replace (1 + - lam) with (1 - lam) in J by ring.
    replace (225 * (e * F)) with (96 * (e * F) + 129 * (e * F)) by ring. apply abs_near with (1 := Ev).
    replace ((1 - (1 + lam)) * bin64 data c + (1 + lam) * bin64 data (c + 1)%Z) with ((1 - - lam) * bin64 data (c + 1)%Z + - lam * bin64 data c) by ring.
    replace ((1 - lam) * bin64 data (c + 1)%Z + lam * bin64 data (c + 1 + 1)%Z) with ((1 - lam) * bin64 data (c + 1)%Z - - lam * bin64 data (c + 1 + 1)%Z) by ring.
    exact J.
  - assert (i + 1 = c)%Z by lia. subst c. clear Hic. rewrite plus_IZR in IL. assert (lam = 1 + mu) by lra. subst lam.
    pose proof (BN i ltac:(lia)) as B1. pose proof (BN (i + 1)%Z ltac:(lia)) as B2. pose proof (BN (i + 1 + 1)%Z ltac:(lia)) as B3.
    pose proof (no_jump mu e (bin64 data (i + 1 + 1)%Z) (bin64 data (i + 1)%Z) (bin64 data i) F ltac:(lra) B3 B2 B1) as J.
    replace (225 * (e * F)) with (96 * (e * F) + 129 * (e * F)) by ring. apply abs_near with (1 := Ev).
    replace ((1 - (1 + mu)) * bin64 data i + (1 + mu) * bin64 data (i + 1)%Z) with ((1 + mu) * bin64 data (i + 1)%Z - mu * bin64 data i) by ring.
    exact J.
Qed.
