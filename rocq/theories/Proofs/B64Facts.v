(** Facts about binary64 operations (Flocq). *)
From Coq Require Import Reals ZArith Lra Lia Bool.
From Flocq Require Import Core IEEE754.BinarySingleNaN.
From Verif Require Import Base.Ops Inst.B64.
Open Scope R_scope.

Notation bexp := (FLT_exp (-1074) 53).
Definition rnd (x : R) : R := round radix2 bexp ZnearestE x.
Definition V (x : b64) : R := B2R x.
Notation fin x := (is_finite x = true).
Notation fmt := (generic_format radix2 bexp).

#[global] Instance bexp_valid : Valid_exp bexp.
Proof. apply FLT_exp_valid. reflexivity. Qed.

Lemma rnd_mono x y : x <= y -> rnd x <= rnd y.
Proof. apply round_le; auto with typeclass_instances. Qed.
Lemma rnd_id x : fmt x -> rnd x = x.
Proof. intros H. apply round_generic; auto with typeclass_instances. Qed.
Lemma rnd_0 : rnd 0 = 0.
Proof. apply round_0. auto with typeclass_instances. Qed.
Lemma V_fmt x : fmt (V x).
Proof. apply (generic_format_B2R 53 1024 x). Qed.
Lemma bpow_fmt e : (-1074 <= e)%Z -> fmt (bpow radix2 e).
Proof. intros H. apply generic_format_FLT_bpow; [reflexivity|lia]. Qed.
Lemma rnd_bpow e : (-1074 <= e)%Z -> rnd (bpow radix2 e) = bpow radix2 e.
Proof. intros H. apply rnd_id, bpow_fmt, H. Qed.
Lemma rnd_le_bpow x e : (-1074 <= e)%Z -> x <= bpow radix2 e -> rnd x <= bpow radix2 e.
Proof. intros He H. rewrite <- (rnd_bpow e He). now apply rnd_mono. Qed.
Lemma rnd_ge_bpow x e : (-1074 <= e)%Z -> bpow radix2 e <= x -> bpow radix2 e <= rnd x.
Proof. intros He H. rewrite <- (rnd_bpow e He). now apply rnd_mono. Qed.
Lemma rnd_opp x : rnd (- x) = - rnd x.
Proof. apply round_NE_opp. Qed.
Lemma rnd_abs x : Rabs (rnd x) = rnd (Rabs x).
Proof.
  destruct (Rle_or_lt 0 x) as [H|H].
  - rewrite !Rabs_pos_eq; auto. rewrite <- rnd_0. now apply rnd_mono.
  - rewrite (Rabs_left x) by lra. rewrite Rabs_left1; [now rewrite rnd_opp|].
    rewrite <- rnd_0. apply rnd_mono. lra.
Qed.
Lemma rnd_pos x : 0 <= x -> 0 <= rnd x.
Proof. intros H. rewrite <- rnd_0. now apply rnd_mono. Qed.

(** within a factor two, above the smallest positive number *)
Lemma rnd_half x : bpow radix2 (-1074) <= x -> x / 2 <= rnd x.
Proof.
  intros H. assert (Hx : 0 < x) by (pose proof (bpow_gt_0 radix2 (-1074)); lra).
  destruct (mag radix2 x) as [e He]. specialize (He ltac:(lra)).
  rewrite Rabs_pos_eq in He by lra. destruct He as [H1 H2].
  assert (He : (-1074 <= e - 1)%Z).
  { assert (bpow radix2 (-1074) < bpow radix2 e) by lra. apply lt_bpow in H0. lia. }
  pose proof (rnd_ge_bpow x (e - 1) He H1) as H3.
  assert (bpow radix2 e = 2 * bpow radix2 (e - 1)).
  { replace e with ((e - 1) + 1)%Z at 1 by lia. rewrite bpow_plus. cbn. lra. }
  lra.
Qed.
Lemma rnd_double x : bpow radix2 (-1074) <= x -> rnd x <= 2 * x.
Proof.
  intros H. assert (Hx : 0 < x) by (pose proof (bpow_gt_0 radix2 (-1074)); lra).
  destruct (mag radix2 x) as [e He]. specialize (He ltac:(lra)).
  rewrite Rabs_pos_eq in He by lra. destruct He as [H1 H2].
  assert (He : (-1074 <= e - 1)%Z).
  { assert (bpow radix2 (-1074) < bpow radix2 e) by lra. apply lt_bpow in H0. lia. }
  pose proof (rnd_le_bpow x e ltac:(lia) ltac:(lra)) as H3.
  assert (bpow radix2 e = 2 * bpow radix2 (e - 1)).
  { replace e with ((e - 1) + 1)%Z at 1 by lia. rewrite bpow_plus. cbn. lra. }
  lra.
Qed.

(** neighbouring doubles are not too close *)
Lemma gap x y : fmt x -> fmt y -> x < y -> 0 < y ->
  y * bpow radix2 (-54) <= y - x /\ bpow radix2 (-1074) <= y - x.
Proof.
  intros Fx Fy H Hy.
  pose proof (pred_ge_gt radix2 bexp x y Fx Fy H) as H1.
  pose proof (pred_plus_ulp radix2 bexp y Hy Fy) as H2.
  set (p := pred radix2 bexp y) in *. set (u := ulp radix2 bexp p) in *.
  assert (Hp : 0 <= p) by (apply pred_ge_0; auto with typeclass_instances).
  pose proof (ulp_FLT_gt radix2 (-1074) 53 p) as H3. fold u in H3.
  rewrite Rabs_pos_eq in H3 by exact Hp.
  pose proof (ulp_ge_0 radix2 bexp p) as H4. fold u in H4.
  assert (H5 : bpow radix2 (-1074) <= u) .
  { unfold u. destruct (Req_dec p 0) as [->|Hp0].
    - rewrite ulp_FLT_small; [apply Rle_refl|reflexivity|]. rewrite Rabs_R0. apply bpow_gt_0.
    - rewrite ulp_neq_0 by exact Hp0. apply bpow_le. unfold cexp, FLT_exp. lia. }
  split; [|lra].
  change (bpow radix2 (- (53))) with (2 * bpow radix2 (-54)) in H3 || 
    replace (bpow radix2 (- (53))) with (2 * bpow radix2 (-54)) in H3 by (cbn; lra).
  assert (H6 : 0 < bpow radix2 (-54) <= / 2) by (cbn; lra).
  set (q := bpow radix2 (-54)) in *. nra.
Qed.

Lemma gap_abs x y : fmt x -> fmt y -> x <> y ->
  Rmax (Rabs x) (Rabs y) * bpow radix2 (-54) <= Rabs (x - y) /\
  bpow radix2 (-1074) <= Rabs (x - y).
Proof.
  assert (G : forall x y, fmt x -> fmt y -> x < y ->
    Rmax (Rabs x) (Rabs y) * bpow radix2 (-54) <= Rabs (x - y) /\
    bpow radix2 (-1074) <= Rabs (x - y)).
  { clear x y. intros x y Fx Fy H. rewrite (Rabs_left (x - y)) by lra.
    replace (- (x - y)) with (y - x) by ring.
    destruct (Rle_or_lt (Rabs x) (Rabs y)) as [L|L].
    - rewrite Rmax_right by exact L.
      assert (Hy : 0 < y).
      { destruct (Rle_or_lt y 0) as [Y|Y]; [exfalso|exact Y].
        rewrite (Rabs_left1 y Y), (Rabs_left1 x) in L by lra. lra. }
      rewrite (Rabs_pos_eq y) by lra. now apply gap.
    - rewrite Rmax_left by lra.
      assert (Hx : x < 0).
      { destruct (Rlt_or_le x 0) as [X|X]; [exact X|exfalso].
        rewrite (Rabs_pos_eq x X), (Rabs_pos_eq y) in L by lra. lra. }
      rewrite (Rabs_left x Hx).
      destruct (gap (- y) (- x) (generic_format_opp _ _ _ Fy) (generic_format_opp _ _ _ Fx)
        ltac:(lra) ltac:(lra)) as [G1 G2].
      replace (- x - - y) with (y - x) in * by ring. auto. }
  intros Fx Fy H. destruct (Rtotal_order x y) as [L|[E|L]]; [now apply G|contradiction|].
  rewrite Rmax_comm, Rabs_minus_sym. now apply G.
Qed.

(** ** Operations that do not overflow *)
Lemma no_overflow z e : (e < 1024)%Z -> (-1074 <= e)%Z -> Rabs z <= bpow radix2 e ->
  Rlt_bool (Rabs (round radix2 (SpecFloat.fexp 53 1024) (round_mode mode_NE) z)) (bpow radix2 1024) = true.
Proof.
  intros He1 He2 H. apply Rlt_bool_true.
  change (round radix2 (SpecFloat.fexp 53 1024) (round_mode mode_NE) z) with (rnd z).
  rewrite rnd_abs. apply Rle_lt_trans with (bpow radix2 e); [now apply rnd_le_bpow|].
  apply bpow_lt. exact He1.
Qed.

Lemma add_V x y e : fin x -> fin y -> (e < 1024)%Z -> (-1074 <= e)%Z ->
  Rabs (V x + V y) <= bpow radix2 e ->
  V (Bplus mode_NE x y) = rnd (V x + V y) /\ fin (Bplus mode_NE x y).
Proof.
  intros Fx Fy He1 He2 H. pose proof (Bplus_correct 53 1024 _ _ mode_NE x y Fx Fy) as C.
  rewrite (no_overflow (B2R x + B2R y) e He1 He2 H) in C. destruct C as (C1 & C2 & _). split; [exact C1|exact C2].
Qed.
Lemma add_sign x y e : fin x -> fin y -> (e < 1024)%Z -> (-1074 <= e)%Z ->
  Rabs (V x + V y) <= bpow radix2 e -> 0 < V x + V y -> Bsign (Bplus mode_NE x y) = false.
Proof.
  intros Fx Fy He1 He2 H P. pose proof (Bplus_correct 53 1024 _ _ mode_NE x y Fx Fy) as C.
  rewrite (no_overflow (B2R x + B2R y) e He1 He2 H) in C. destruct C as (C1 & C2 & C3). rewrite C3.
  unfold V in P. rewrite Rcompare_Gt by lra. reflexivity.
Qed.
Lemma sub_V x y e : fin x -> fin y -> (e < 1024)%Z -> (-1074 <= e)%Z ->
  Rabs (V x - V y) <= bpow radix2 e ->
  V (Bminus mode_NE x y) = rnd (V x - V y) /\ fin (Bminus mode_NE x y).
Proof.
  intros Fx Fy He1 He2 H. pose proof (Bminus_correct 53 1024 _ _ mode_NE x y Fx Fy) as C.
  rewrite (no_overflow (B2R x - B2R y) e He1 He2 H) in C. destruct C as (C1 & C2 & _). split; [exact C1|exact C2].
Qed.
Lemma mul_V x y e : fin x -> fin y -> (e < 1024)%Z -> (-1074 <= e)%Z ->
  Rabs (V x * V y) <= bpow radix2 e ->
  V (Bmult mode_NE x y) = rnd (V x * V y) /\ fin (Bmult mode_NE x y).
Proof.
  intros Fx Fy He1 He2 H. pose proof (Bmult_correct 53 1024 _ _ mode_NE x y) as C.
  rewrite (no_overflow (B2R x * B2R y) e He1 He2 H) in C. destruct C as (C1 & C2 & _). split; [exact C1|].
  rewrite C2, Fx, Fy. reflexivity.
Qed.
Lemma div_V x y e : fin x -> V y <> 0 -> (e < 1024)%Z -> (-1074 <= e)%Z ->
  Rabs (V x / V y) <= bpow radix2 e ->
  V (Bdiv mode_NE x y) = rnd (V x / V y) /\ fin (Bdiv mode_NE x y).
Proof.
  intros Fx Fy He1 He2 H. pose proof (Bdiv_correct 53 1024 _ _ mode_NE x y Fy) as C.
  rewrite (no_overflow (B2R x / B2R y) e He1 He2 H) in C. destruct C as (C1 & C2 & _). split; [exact C1|].
  rewrite C2, Fx. reflexivity.
Qed.

(** ** Literals *)
Lemma V_lit m e : (Z.abs m < 2 ^ 53)%Z -> (-1074 <= e)%Z -> (e <= 900)%Z ->
  V (b64_ldexp m e) = IZR m * bpow radix2 e /\ fin (b64_ldexp m e).
Proof.
  intros Hm He1 He2.
  pose proof (binary_normalize_correct 53 1024 _ _ mode_NE m e false) as C. cbv zeta in C.
  assert (Hf : fmt (F2R (Float radix2 m e))).
  { apply generic_format_FLT. exists (Float radix2 m e); auto. }
  assert (Hr : round radix2 (SpecFloat.fexp 53 1024) (round_mode mode_NE) (F2R (Float radix2 m e)) =
               F2R (Float radix2 m e)) by (apply rnd_id; exact Hf).
  rewrite Hr in C. rewrite Rlt_bool_true in C.
  - destruct C as (C1 & C2 & _). split; [exact C1|exact C2].
  - unfold F2R; cbn [Fnum Fexp]. rewrite Rabs_mult, (Rabs_pos_eq (bpow _ _)) by apply bpow_ge_0.
    rewrite <- abs_IZR.
    apply Rlt_le_trans with (bpow radix2 53 * bpow radix2 e).
    + apply Rmult_lt_compat_r; [apply bpow_gt_0|]. change (bpow radix2 53) with (IZR (2 ^ 53)).
      now apply IZR_lt.
    + rewrite <- bpow_plus. apply bpow_le. lia.
Qed.

(** ** Nearest point *)
Lemma rnd_nearest x y : fmt x -> Rabs (rnd y - y) <= Rabs (x - y).
Proof. intros H. apply (round_N_pt radix2 bexp (fun z => negb (Z.even z)) y). exact H. Qed.
Lemma rnd_fmt y : fmt (rnd y).
Proof. apply generic_format_round; auto with typeclass_instances. Qed.

(** adding less than a quarter of the spacing changes nothing *)
Lemma rnd_absorb x s : fmt x -> 2 * Rabs s < Rabs x * bpow radix2 (-54) -> rnd (x + s) = x.
Proof.
  intros Fx Hs. destruct (Req_dec (rnd (x + s)) x) as [E|N]; [exact E|exfalso].
  destruct (gap_abs _ _ (rnd_fmt (x + s)) Fx N) as [G _].
  pose proof (rnd_nearest x (x + s) Fx) as R.
  replace (x - (x + s)) with (- s) in R by ring. rewrite Rabs_Ropp in R.
  assert (T : Rabs (rnd (x + s) - x) <= 2 * Rabs s).
  { replace (rnd (x + s) - x) with ((rnd (x + s) - (x + s)) + s) by ring.
    eapply Rle_trans; [apply Rabs_triang|]. lra. }
  assert (M : Rabs x * bpow radix2 (-54) <= Rmax (Rabs (rnd (x + s))) (Rabs x) * bpow radix2 (-54)).
  { apply Rmult_le_compat_r; [apply bpow_ge_0|apply Rmax_r]. }
  lra.
Qed.

(** adding an absorbed positive number to a nonnegative one gives it back, bit for bit *)
Lemma add_absorb (x s : b64) : fin x -> fin s -> Bsign x = false -> 0 < V x -> 0 <= V s ->
  2 * V s < V x * bpow radix2 (-54) -> Bplus mode_NE x s = x.
Proof.
  intros Fx Fs Sx Px Ps H. pose proof (Bplus_correct 53 1024 _ _ mode_NE x s Fx Fs) as C.
  assert (R : rnd (V x + V s) = V x).
  { apply rnd_absorb; [apply V_fmt|]. rewrite !Rabs_pos_eq by lra. exact H. }
  change (round radix2 (SpecFloat.fexp 53 1024) (round_mode mode_NE) (B2R x + B2R s)) with (rnd (V x + V s)) in C.
  rewrite R, Rlt_bool_true in C by apply (abs_B2R_lt_emax 53 1024 x). destruct C as (C1 & C2 & C3).
  apply B2R_Bsign_inj; auto. rewrite C3, Sx, Rcompare_Gt; [reflexivity|]. unfold V in *. lra.
Qed.
