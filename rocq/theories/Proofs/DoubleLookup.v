(** Logarithms, powers of ten and lookups in double precision. *)
From Coq Require Import Reals ZArith List Lra Lia Bool.
From Flocq Require Import Core IEEE754.BinarySingleNaN.
From Verif Require Import Base.Outcome Base.Ops Inst.B64 Model.Constants Model.MeanUtils Model.Spiner Spec.Tables Spec.DoublePrecision
  Spec.DoubleTables Proofs.B64Facts Proofs.Near Proofs.NarrowGroup Proofs.DoubleTables.
Import ListNotations.
Open Scope R_scope.

Lemma ln10_up : ln 10 <= 234 / 100.
Proof.
  rewrite <- (ln_exp (234 / 100)). apply ln_mono; [lra|].
  assert (E : exp (/ 100) >= 101 / 100) by (pose proof (exp_ineq1_le (/ 100)); lra).
  assert (P : forall n, exp (INR n * / 100) = exp (/ 100) ^ n).
  { induction n as [|n IH]; [simpl; now rewrite Rmult_0_l, exp_0|].
    rewrite S_INR, Rmult_plus_distr_r, exp_plus, IH, Rmult_1_l. simpl. ring. }
  replace (234 / 100) with (INR (26 * 9) * / 100) by (simpl; lra).
  rewrite P, pow_mult.
  assert (A : 1295 / 1000 <= exp (/ 100) ^ 26).
  { apply Rle_trans with ((101 / 100) ^ 26); [simpl; lra|]. apply pow_incr. lra. }
  apply Rle_trans with ((1295 / 1000) ^ 9); [simpl; lra|apply pow_incr; lra].
Qed.

Lemma pow10_pos r : 0 < pow10 r.
Proof. apply exp_pos. Qed.
Lemma pow10_plus a b : pow10 (a + b) = pow10 a * pow10 b.
Proof. apply Rpower_plus. Qed.
Lemma pow10_mono a b : a <= b -> pow10 a <= pow10 b.
Proof. intros H. unfold pow10, Rpower. apply exp_mono. apply Rmult_le_compat_r; [pose proof ln10; lra|exact H]. Qed.
Lemma pow10_log x : 0 < x -> pow10 (log10 x) = x.
Proof.
  intros H. unfold pow10, log10, Rpower. replace (ln x / ln 10 * ln 10) with (ln x) by (field; pose proof ln10; lra). now apply exp_ln.
Qed.
Lemma log10_pow10 r : log10 (pow10 r) = r.
Proof. unfold pow10, log10, Rpower. rewrite ln_exp. field. pose proof ln10. lra. Qed.
Lemma pow10_nat n : pow10 (INR n) = 10 ^ n.
Proof. unfold pow10. apply Rpower_pow. lra. Qed.
Lemma pow10_range r : -252 <= r <= 252 -> bp (-840) <= pow10 r <= bp 840.
Proof.
  intros H. assert (U : pow10 252 <= bp 840).
  { replace 252 with (INR (3 * 84)) by (simpl; lra). rewrite pow10_nat, pow_mult.
    change 840%Z with (Z.of_nat (10 * 84)). rewrite <- two_pow_bp, pow_mult. apply pow_incr. simpl. lra. }
  split.
  - apply Rle_trans with (pow10 (-252)); [|apply pow10_mono; lra].
    replace (pow10 (-252)) with (/ pow10 252) by (unfold pow10; rewrite <- Rpower_Ropp; reflexivity).
    change (-840)%Z with (- (840))%Z. rewrite bpow_opp. apply Rinv_le_contravar; [apply pow10_pos|exact U].
  - apply Rle_trans with (2 := U). apply pow10_mono. lra.
Qed.

(** a small change of the exponent *)
Lemma pow10_step r s e : Rabs (s - r) <= e -> e <= 1 / 1000 -> Rabs (pow10 s - pow10 r) <= 236 / 100 * e * pow10 r.
Proof.
  intros H He. apply abs_both in H. pose proof ln10 as L1. pose proof ln10_up as L2.
  replace s with (r + (s - r)) by ring. set (z := s - r) in *. clearbody z. rewrite pow10_plus.
  replace (pow10 r * pow10 z - pow10 r) with (pow10 r * (pow10 z - 1)) by ring.
  rewrite Rabs_mult, (Rabs_pos_eq (pow10 r)) by (left; apply pow10_pos). rewrite Rmult_comm.
  apply Rmult_le_compat_r; [left; apply pow10_pos|]. unfold pow10, Rpower.
  assert (E0 : 0 <= e) by lra.
  assert (M : ln 10 * e <= 234 / 100 * e) by (apply Rmult_le_compat_r; lra).
  assert (Z : - (234 / 100 * e) <= z * ln 10 <= 234 / 100 * e).
  { split.
    - apply Rle_trans with (- e * ln 10); [lra|]. apply Rmult_le_compat_r; lra.
    - apply Rle_trans with (e * ln 10); [|lra]. apply Rmult_le_compat_r; lra. }
  set (t := z * ln 10) in *. clearbody t.
  pose proof (exp_ineq1_le t) as A. pose proof (exp_ineq1_le (- t)) as B.
  assert (P : exp t * exp (- t) = 1) by (rewrite <- exp_plus, Rplus_opp_r; apply exp_0).
  pose proof (exp_pos t) as Q.
  (* exp t <= 1/(1-t) *)
  assert (C : exp t * (1 - t) <= 1).
  { rewrite <- P. apply Rmult_le_compat_l; lra. }
  assert (D : exp t <= 1 + 236 / 100 * e).
  { apply (Rmult_le_reg_r (1 - t)); [lra|]. apply Rle_trans with (1 := C).
    apply Rle_trans with ((1 + 236 / 100 * e) * (1 - 234 / 100 * e)); [|apply Rmult_le_compat_l; lra].
    assert (e * e <= 1 / 1000 * e) by (apply Rmult_le_compat_r; lra). lra. }
  apply abs_bound. lra.
Qed.

Section Logs.
  Variable L : Libm.
  Notation O := (B64_ops L).
  Hypothesis HL : accurate_libm L.
  Hypothesis HG : accurate_log10 L.
  Let U : 0 < u <= / 9000000000000000.
  Proof. rewrite u_lit. split; [apply Rinv_0_lt_compat; lra|apply Rinv_le_contravar; lra]. Qed.

  Lemma FromLog64 v : fin v -> -251 <= V v <= 251 -> within 2 (@FromLog b64 O v) (pow10 (V v)).
  Proof.
    intros F H. unfold FromLog. destruct HL as (_ & _ & HP). destruct (of_Z_exact 10) as [E10 F10]; [lia|].
    specialize (HP (b64_of_Z 10) v F10 F). fold (V (b64_of_Z 10)) in HP. rewrite E10 in HP. apply HP; [lra|].
    apply normal_pos. destruct (pow10_range (V v)) as [A B]; [lra|]. split.
    - apply Rle_trans with (2 := A). apply bpow_le. lia.
    - apply Rle_trans with (1 := B). apply bpow_le. lia.
  Qed.

  (** a lookup: [rho] times ten to a number that is off by [D] units *)
  Lemma scaled64 rho v r D : physical rho -> fin v -> Rabs (V v - r) <= D * u -> D * u <= 1 / 1000 -> -250 <= r <= 250 ->
    within (237 / 100 * D + 4) (Bmult mode_NE rho (@FromLog b64 O v)) (V rho * pow10 r).
  Proof.
    intros [Fr Hr] Fv H HD Hb. fold (V rho) in Hr. rewrite two_pow_bp in Hr.
    assert (D0 : 0 <= D * u) by (pose proof (Rabs_pos (V v - r)); lra).
    pose proof (abs_both _ _ H) as H'.
    destruct (FromLog64 v Fv ltac:(lra)) as [Fp Ep]. set (p := @FromLog b64 O v) in *. fold u (V p) in Ep.
    rewrite (Rabs_pos_eq (pow10 (V v))) in Ep by (left; apply pow10_pos).
    pose proof (pow10_step r (V v) (D * u) H HD) as S.
    pose proof (pow10_pos r) as P0. set (P := pow10 r) in *.
    pose proof (abs_both _ _ S) as S'.
    assert (DP : 0 <= D * u * P <= 1 / 1000 * P) by (split; [apply Rmult_le_pos; lra|apply Rmult_le_compat_r; lra]).
    assert (Q : Rabs (V p - P) <= 2 * u * (11 / 10 * P) + 236 / 100 * (D * u) * P).
    { apply abs_near with (pow10 (V v)); [|exact S]. apply Rle_trans with (1 := Ep). apply Rmult_le_compat_l; lra. }
    assert (uP : 0 < u * P <= / 9000000000000000 * P) by (split; [apply Rmult_lt_0_compat; lra|apply Rmult_le_compat_r; lra]).
    pose proof (abs_both _ _ Q) as Q'.
    assert (Bp : / 2 * P <= V p <= 2 * P) by lra.
    destruct (pow10_range r ltac:(lra)) as [R1 R2]. fold P in R1, R2.
    pose proof (bpow_gt_0 radix2 (-840)) as K1. pose proof (bpow_gt_0 radix2 840) as K2.
    assert (K3 : / bp (Z.of_nat 100) = bp (-100)) by (rewrite <- bpow_opp; reflexivity). rewrite K3 in Hr.
    change (bp (Z.of_nat 100)) with (bp 100) in Hr.
    pose proof (bpow_gt_0 radix2 (-100)) as K4.
    assert (Z1 : bp (-941) <= V rho * V p).
    { change (-941)%Z with (-100 + (-1 + -840))%Z. rewrite !bpow_plus. apply Rmult_le_compat; try lra.
      - apply Rmult_le_pos; [apply bpow_ge_0|lra].
      - apply Rle_trans with (2 := proj1 Bp). change (bp (-1)) with (/ 2). lra. }
    assert (Z2 : V rho * V p <= bp 941).
    { change (941)%Z with (100 + (1 + 840))%Z. rewrite !bpow_plus. apply Rmult_le_compat; try lra.
      apply Rle_trans with (1 := proj2 Bp). change (bp 1) with 2. lra. }
    pose proof (bpow_gt_0 radix2 (-941)) as K5.
    destruct (mul_V rho p 941 Fr Fp) as [Em Fm]; try lia.
    { rewrite Rabs_pos_eq; lra. }
    split; [exact Fm|]. fold (V (Bmult mode_NE rho p)). rewrite Em. fold u.
    assert (Rn : Rabs (rnd (V rho * V p) - V rho * V p) <= u * (V rho * V p)).
    { pose proof (rnd_rel (V rho * V p)) as A. assert (bp (-1022) <= V rho * V p) by (apply Rle_trans with (2 := Z1); apply bpow_le; lia).
      specialize (A ltac:(assumption)). apply abs_bound. lra. }
    assert (Rp : Rabs (V rho * V p - V rho * P) <= V rho * (2 * u * (11 / 10 * P) + 236 / 100 * (D * u) * P)).
    { rewrite <- Rmult_minus_distr_l, Rabs_mult, (Rabs_pos_eq (V rho)) by lra. apply Rmult_le_compat_l; lra. }
    assert (Pr : 0 < V rho) by lra.
    rewrite (Rabs_pos_eq (V rho * P)) by (apply Rmult_le_pos; lra).
    apply Rle_trans with (1 := abs_near _ _ _ _ _ Rn Rp).
    assert (Y : u * (V rho * V p) <= u * (V rho * (11 / 10 * P))).
    { apply Rmult_le_compat_l; [lra|]. apply Rmult_le_compat_l; lra. }
    assert (0 < u * (V rho * P)) by (apply Rmult_lt_0_compat; [lra|apply Rmult_lt_0_compat; lra]).
    assert (0 <= D * u * (V rho * P)) by (apply Rmult_le_pos; [lra|apply Rmult_le_pos; lra]). lra.
  Qed.

  (** the guarded logarithm *)
  Lemma log_of z x : 0 < x -> Rabs (z - x) <= 11 / 10 * u * x -> Rabs (log10 z - log10 x) <= 12 / 10 * u.
  Proof.
    intros Hx H. apply abs_both in H. assert (UX : u * x <= / 9000000000000000 * x) by (apply Rmult_le_compat_r; lra).
    assert (Hz : 999 / 1000 * x <= z) by lra.
    destruct (Rle_lt_dec x z) as [C|C].
    - pose proof (log_step x z Hx C) as S. pose proof (log_up x z Hx C). apply abs_bound.
      assert ((z - x) / x <= 11 / 10 * u) by (apply (Rmult_le_reg_r x); [lra|]; unfold Rdiv; rewrite Rmult_assoc, Rinv_l by lra; lra). lra.
    - pose proof (log_step z x ltac:(lra) ltac:(lra)) as S. pose proof (log_up z x ltac:(lra) ltac:(lra)). apply abs_bound.
      assert ((x - z) / z <= 12 / 10 * u).
      { apply (Rmult_le_reg_r z); [lra|]. unfold Rdiv. rewrite Rmult_assoc, Rinv_l by lra.
        apply Rle_trans with (12 / 10 * u * (999 / 1000 * x)); [lra|]. apply Rmult_le_compat_l; lra. }
      lra.
  Qed.
  Lemma log64 z x : fin z -> 0 < V z -> 0 < x -> Rabs (V z - x) <= 11 / 10 * u * x ->
    fin (lm_log10 L z) /\ Rabs (V (lm_log10 L z) - log10 x) <= u * (2 * Rabs (log10 x) + 13 / 10).
  Proof.
    intros F P Hx H. destruct (HG z F P) as [Fl El]. fold u (V z) (V (lm_log10 L z)) in El. split; [exact Fl|].
    pose proof (log_of (V z) x Hx H) as Q.
    assert (B : Rabs (log10 (V z)) <= Rabs (log10 x) + 1 / 100).
    { pose proof (abs_size _ _ _ _ Q (Rle_refl _)). lra. }
    assert (Y : 2 * u * Rabs (log10 (V z)) <= 2 * u * (Rabs (log10 x) + 1 / 100)) by (apply Rmult_le_compat_l; lra).
    apply Rle_trans with (1 := abs_near _ _ _ _ _ El Q). lra.
  Qed.

  Let guard := Bmult mode_NE (b64_of_Z 10) (b64_ldexp 1 (-1022)).
  Let Gv : fin guard /\ 0 <= V guard <= bp (-1018).
  Proof.
    destruct (of_Z_exact 10) as [E F]; [lia|]. destruct (V_lit 1 (-1022)) as [E1 F1]; try lia.
    rewrite Rmult_1_l in E1.
    assert (B : 0 <= 10 * bp (-1022) <= bp (-1018)).
    { pose proof (bpow_gt_0 radix2 (-1022)). split; [lra|]. change (-1018)%Z with (4 + -1022)%Z. rewrite bpow_plus.
      apply Rmult_le_compat_r; [lra|]. change (bp 4) with 16. lra. }
    destruct (mul_V (b64_of_Z 10) (b64_ldexp 1 (-1022)) 0 F F1) as [Em Fm]; try lia.
    { rewrite E, E1, Rabs_pos_eq by lra. apply Rle_trans with (1 := proj2 B). apply bpow_le. lia. }
    split; [exact Fm|]. unfold guard. rewrite Em, E, E1. split; [apply rnd_pos; lra|].
    apply rnd_le_bpow; [lia|lra].
  Qed.
  (** adding the guard to [x] *)
  Lemma guarded x : fin x -> bp (-900) <= V x <= bp 900 ->
    let z := Bplus mode_NE (Babs x) guard in fin z /\ 0 < V z /\ Rabs (V z - V x) <= 11 / 10 * u * V x.
  Proof.
    intros F H z. destruct Gv as [Fg Hg]. pose proof (bpow_gt_0 radix2 (-900)) as K.
    assert (Fa : fin (Babs x)) by (rewrite is_finite_Babs; exact F).
    assert (Va : V (Babs x) = V x) by (unfold V; rewrite B2R_Babs; apply Rabs_pos_eq; fold (V x); lra).
    assert (Hgx : V guard <= / 100 * u * V x).
    { apply Rle_trans with (1 := proj2 Hg). apply Rle_trans with (bp (-7) * bp (-53) * bp (-900)); [rewrite <- !bpow_plus; apply bpow_le; lia|].
      rewrite u_bpow. apply Rmult_le_compat; [apply Rmult_le_pos; apply bpow_ge_0|lra| |lra].
      apply Rmult_le_compat_r; [apply bpow_ge_0|]. change (bp (-7)) with (/ 128). lra. }
    assert (uV : 0 < u * V x <= / 9000000000000000 * V x) by (split; [apply Rmult_lt_0_compat; lra|apply Rmult_le_compat_r; lra]).
    destruct (add_V (Babs x) guard 901 Fa Fg) as [E Fz]; try lia.
    { rewrite Va, Rabs_pos_eq by lra. change 901%Z with (900 + 1)%Z. rewrite bpow_plus. change (bp 1) with 2. lra. }
    split; [exact Fz|]. unfold z. rewrite E, Va.
    destruct (rnd_rel (V x + V guard)) as [A B].
    { apply Rle_trans with (V x); [|lra]. apply Rle_trans with (2 := proj1 H). apply bpow_le. lia. }
    assert (G2 : 0 <= u * V guard <= / 100 * V guard) by (split; [apply Rmult_le_pos; lra|apply Rmult_le_compat_r; lra]).
    split; [lra|]. apply abs_bound. lra.
  Qed.
  Lemma ToLog64 x : fin x -> bp (-900) <= V x <= bp 900 ->
    fin (@ToLog b64 O x) /\ Rabs (V (@ToLog b64 O x) - log10 (V x)) <= u * (2 * Rabs (log10 (V x)) + 13 / 10).
  Proof.
    intros F H. destruct (guarded x F H) as (Fz & Pz & Ez). pose proof (bpow_gt_0 radix2 (-900)) as K.
    exact (log64 _ (V x) Fz Pz ltac:(lra) Ez).
  Qed.

  (** a coordinate read off a logarithm *)
  Lemma coordinate64 lo hi N k x y : ordinary lo hi N -> Rabs (V x - log10 k) <= u * (2 * Rabs (log10 k) + 13 / 10) ->
    coordinate 16 (real_grid lo hi N) (log10 k) y -> coordinate 20 (real_grid lo hi N) (V x) y.
  Proof.
    intros Ho H [Hy Hk]. split; [exact Hy|]. fold u in Hk |- *.
    set (X := extent (real_grid lo hi N)) in *.
    assert (HX : 1 <= X <= 1000) by (split; [apply extent_1|apply Ho]).
    assert (uX : 0 < u * X <= / 1000000000000).
    { split; [apply Rmult_lt_0_compat; lra|]. apply Rle_trans with (/ 9000000000000000 * 1000); [apply Rmult_le_compat; lra|lra]. }
    assert (By : Rabs y <= X).
    { apply abs_bound. destruct Hy as [A B]. unfold X, extent. cbn [rg_lo rg_hi real_grid] in *.
      pose proof (Rmax_r 1 (Rmax (Rabs (B2R lo)) (Rabs (B2R hi)))). pose proof (Rmax_l (Rabs (B2R lo)) (Rabs (B2R hi))).
      pose proof (Rmax_r (Rabs (B2R lo)) (Rabs (B2R hi))). 
      pose proof (abs_both (B2R lo) _ (Rle_refl _)). pose proof (abs_both (B2R hi) _ (Rle_refl _)). lra. }
    pose proof (abs_size _ _ _ _ Hk By) as Bk.
    assert (Y : u * (2 * Rabs (log10 k) + 13 / 10) <= u * (34 / 10 * X)) by (apply Rmult_le_compat_l; lra).
    apply Rle_trans with (1 := abs_near _ _ _ _ _ H Hk). lra.
  Qed.
End Logs.

(** ** Interpolants *)
Lemma node_interpolates dims : forall rs f is, Forall axis_ok dims -> at_node rs dims is -> interpolates rs dims f (f is).
Proof.
  induction dims as [|D ds IH]; intros [|[y|j] rs] f [|i is] HD H; cbn in H; try contradiction; try (destruct D; contradiction).
  - reflexivity.
  - destruct D as [g|n]; [|contradiction]. destruct H as (Hi & -> & H). inversion HD as [|? ? HA HD2]; subst. destruct HA as (lo & hi & E & Ho).
    pose proof (dx_pos _ _ _ Ho) as Dp. rewrite <- E in Dp. pose proof (n_two _ _ _ Ho) as N2.
    assert (X : forall k, exists r, interpolates rs ds (fun l => f (k :: l)) r).
    { intros k. exists (f (k :: is)). exact (IH rs (fun l => f (k :: l)) is HD2 H). }
    cbn [interpolates]. destruct (Z.lt_ge_cases i (rg_n g - 1)) as [C|C].
    + destruct (X (i + 1)%Z) as [b Hb]. exists i, (f (i :: is)), b. split; [lia|]. rewrite node_next.
      split; [lra|]. split; [exact (IH rs (fun l => f (i :: l)) is HD2 H)|]. split; [exact Hb|ring].
    + destruct (X (i - 1)%Z) as [a Ha]. exists (i - 1)%Z, a, (f (i :: is)). split; [lia|]. rewrite node_next.
      assert (E1 : rg_node g (i - 1) + rg_dx g = rg_node g i) by (rewrite <- node_next; f_equal; ring).
      rewrite E1. split; [lra|]. split; [exact Ha|].
      split; [replace (i - 1 + 1)%Z with i by ring; exact (IH rs (fun l => f (i :: l)) is HD2 H)|]. rewrite <- E1. ring.
  - destruct D as [g|n]; [contradiction|]. destruct H as (Hi & -> & H). inversion HD; subst. split; [lia|].
    exact (IH rs (fun l => f (i :: l)) is ltac:(assumption) H).
Qed.

Lemma corners_bound m M dims : forall rs f r, Forall axis_ok dims -> (forall is, Tables.near rs dims is -> m <= f is <= M) ->
  interpolates rs dims f r -> m <= r <= M.
Proof.
  induction dims as [|D ds IH]; intros [|[y|j] rs] f r HD HB H; cbn in H; try contradiction; try (destruct D; contradiction).
  - subst r. apply HB. exact I.
  - destruct D as [g|n]; [|contradiction]. destruct H as (i & a & b & Hi & Hn & Ha & Hb & Er). inversion HD as [|? ? HA HD2]; subst. destruct HA as (lo & hi & E & Ho).
    pose proof (dx_pos _ _ _ Ho) as Dp. rewrite <- E in Dp. rewrite node_next in *.
    apply (convex_bound (rg_node g i + rg_dx g - y) (y - rg_node g i) (rg_dx g) r a b); try lra.
    + apply (IH rs (fun l => f (i :: l)) a HD2); [|exact Ha]. intros is Hs. apply HB. cbn [Tables.near]. split; [lia|]. split; [apply abs_bound; lra|exact Hs].
    + apply (IH rs (fun l => f ((i + 1)%Z :: l)) b HD2); [|exact Hb]. intros is Hs. apply HB. cbn [Tables.near]. split; [lia|].
      split; [rewrite node_next; apply abs_bound; lra|exact Hs].
  - destruct D as [g|n]; [contradiction|]. destruct H as [Hj H]. inversion HD; subst.
    apply (IH rs (fun l => f (j :: l)) r ltac:(assumption)); [|exact H]. intros is Hs. apply HB. cbn. auto.
Qed.

(** ** Boxes full of doubles *)
Definition value (d : list b64) (k : Z) : R := match at_flat d k with Ok x => V x | _ => 0 end.
Definition bounded (F : R) (d : list b64) : Prop := forall i x, nth_error d i = Some x -> fin x /\ Rabs (V x) <= F.
Fixpoint total (dims : list rdim) : Z := match dims with [] => 1%Z | D :: ds => (rd_size D * total ds)%Z end.

Lemma at_flat_some {T} (d : list T) k : (0 <= k < Z.of_nat (length d))%Z -> exists x, nth_error d (Z.to_nat k) = Some x /\ at_flat d k = Ok x.
Proof.
  intros H. destruct (nth_error d (Z.to_nat k)) as [x|] eqn:E.
  - exists x. split; [reflexivity|]. unfold at_flat. destruct (Z.ltb_spec k 0); [lia|]. unfold load. now rewrite E.
  - apply nth_error_None in E. lia.
Qed.

Lemma total_pos dims : Forall (fun D => 0 <= rd_size D)%Z dims -> (0 <= total dims)%Z.
Proof. induction dims as [|D ds IH]; intros H; cbn; [lia|]. inversion H; subst. apply Z.mul_nonneg_nonneg; auto. Qed.
Lemma full_stores F dims : Forall (fun D => 0 <= rd_size D)%Z dims -> forall d acc, bounded F d -> (0 <= acc)%Z ->
  ((acc + 1) * total dims <= Z.of_nat (length d))%Z ->
  stores64 F dims d acc (fun is => value d (flat (map rd_size dims) is acc)).
Proof.
  induction dims as [|D ds IH]; intros HP d acc HB H0 H1.
  - cbn [total] in H1. destruct (at_flat_some d acc ltac:(lia)) as (x & E1 & E2). cbn [stores64].
    exists x. destruct (HB _ _ E1) as [Fx Bx]. unfold value. cbn [map flat]. rewrite E2. auto.
  - inversion HP as [|? ? HD HP']; subst. cbn [stores64]. intros i Hi. cbn [map flat]. apply IH; try assumption.
    + nia.
    + cbn [total] in H1. pose proof (total_pos ds HP'). nia.
Qed.

(** a node of a logarithmic axis *)
Lemma node_log64 L lo hi N G a : accurate_libm L -> ordinary lo hi N -> extent (real_grid lo hi N) <= 30 ->
  mk_grid (O := B64_ops L) lo hi N = Ok G -> (0 <= a <= N - 1)%Z ->
  let x := @FromLog b64 (B64_ops L) (@g_x b64 (B64_ops L) G a) in
  physical x /\ coordinate 16 (real_grid lo hi N) (log10 (V x)) (rg_node (real_grid lo hi N) a).
Proof.
  intros HL Ho HX EG Ha x.
  assert (U : 0 < u <= / 9000000000000000).
  { rewrite u_lit. split; [apply Rinv_0_lt_compat; lra|apply Rinv_le_contravar; lra]. }
  rewrite (grid64 L lo hi N Ho) in EG. injection EG as <-.
  destruct (node64 lo hi N Ho a Ha) as [Ff Ef].
  change (@g_x b64 (B64_ops L) _ a) with (Bplus mode_NE (Bmult mode_NE (b64_of_Z a) (Bdiv mode_NE (Bminus mode_NE hi lo) (b64_of_Z (N - 1)))) lo) in x.
  set (fl := Bplus mode_NE _ lo) in *. pose proof (node_in lo hi N Ho a Ha) as Hin.
  set (g := real_grid lo hi N) in *. set (y := rg_node g a) in *.
  pose proof (extent_1 lo hi N) as X1. fold g in X1. 
  assert (By : -30 <= y <= 30).
  { destruct Hin as [A B]. unfold extent in HX.
    pose proof (Rmax_r 1 (Rmax (Rabs (rg_lo g)) (Rabs (rg_hi g)))). pose proof (Rmax_l (Rabs (rg_lo g)) (Rabs (rg_hi g))).
    pose proof (Rmax_r (Rabs (rg_lo g)) (Rabs (rg_hi g))).
    pose proof (abs_both (rg_lo g) _ (Rle_refl _)). pose proof (abs_both (rg_hi g) _ (Rle_refl _)). lra. }
  assert (uX : 0 < u * extent g <= / 10000000000000).
  { split; [apply Rmult_lt_0_compat; lra|]. apply Rle_trans with (/ 9000000000000000 * 30); [apply Rmult_le_compat; lra|lra]. }
  pose proof (abs_both _ _ Ef) as Ef'.
  destruct (FromLog64 L HL fl Ff ltac:(lra)) as [Fx Ex]. fold x in Fx, Ex. fold u (V x) in Ex.
  pose proof (pow10_pos (V fl)) as P. rewrite (Rabs_pos_eq (pow10 (V fl))) in Ex by lra. set (p := pow10 (V fl)) in *.
  assert (uP : u * p <= / 9000000000000000 * p) by (apply Rmult_le_compat_r; lra).
  assert (P30 : pow10 30 = 1000000000000000000000000000000).
  { replace 30 with (INR 30) by (simpl; lra). rewrite pow10_nat. simpl. lra. }
  assert (M30 : pow10 (-30) = / 1000000000000000000000000000000).
  { rewrite <- P30. unfold pow10. rewrite <- Rpower_Ropp. reflexivity. }
  assert (HP : 9 / 10 * pow10 (-30) <= p <= 11 / 10 * pow10 30).
  { pose proof (pow10_step y (V fl) (1 / 1000) ltac:(apply abs_bound; lra) (Rle_refl _)) as S. apply abs_both in S. fold p in S.
    pose proof (pow10_mono (-30) y ltac:(lra)). pose proof (pow10_mono y 30 ltac:(lra)). pose proof (pow10_pos y).
    assert (236 / 100 * (1 / 1000) * pow10 y <= 1 / 10 * pow10 y) by (apply Rmult_le_compat_r; lra). lra. }
  rewrite P30, M30 in HP. pose proof (abs_both _ _ Ex) as Ex'.
  split.
  - split; [exact Fx|]. fold (V x).
    assert (T : 2 ^ 100 = 1267650600228229401496703205376) by (rewrite two_pow_bp; reflexivity).
    rewrite T. split.
    + apply Rle_trans with (/ (1200000000000000000000000000000)); [apply Rinv_le_contravar; lra|].
      replace (/ 1200000000000000000000000000000) with (10 / 12 * / 1000000000000000000000000000000) by lra. lra.
    + lra.
  - split; [exact Hin|]. fold u.
    assert (Q : Rabs (log10 (V x) - V fl) <= 21 / 10 * u).
    { assert (Px : 999 / 1000 * p <= V x) by lra.
      rewrite <- (log10_pow10 (V fl)). fold p. destruct (Rle_lt_dec p (V x)) as [C|C].
      - pose proof (log_step p (V x) P C) as S. pose proof (log_up p (V x) P C). apply abs_bound.
        assert ((V x - p) / p <= 2 * u) by (apply (Rmult_le_reg_r p); [lra|]; unfold Rdiv; rewrite Rmult_assoc, Rinv_l by lra; lra). lra.
      - pose proof (log_step (V x) p ltac:(lra) ltac:(lra)) as S. pose proof (log_up (V x) p ltac:(lra) ltac:(lra)). apply abs_bound.
        assert ((p - V x) / V x <= 21 / 10 * u).
        { apply (Rmult_le_reg_r (V x)); [lra|]. unfold Rdiv. rewrite Rmult_assoc, Rinv_l by lra.
          apply Rle_trans with (21 / 10 * u * (999 / 1000 * p)); [lra|]. apply Rmult_le_compat_l; lra. }
        lra. }
    apply Rle_trans with (1 := abs_near _ _ _ _ _ Q Ef).
    assert (u * 1 <= u * extent g) by (apply Rmult_le_compat_l; lra). lra.
Qed.

(** from the stored logarithm to the number stored *)
Lemma stored_number L x rho p F n : accurate_log10 L -> 1 <= F <= 240 -> fin p -> 0 < V p -> Rabs (log10 (V p)) <= F -> 0 < V rho ->
  0 <= n * u <= 1 / 1000 ->
  within n x (V rho * pow10 (V (@ToLog b64 (B64_ops L) p))) -> within (n + 9 * F) x (V rho * V p).
Proof.
  intros HG HF Fp Pp Bp Pr Hn [Fx Ex]. split; [exact Fx|]. fold u (V x) in Ex |- *.
  assert (U : 0 < u <= / 9000000000000000).
  { rewrite u_lit. split; [apply Rinv_0_lt_compat; lra|apply Rinv_le_contravar; lra]. }
  pose proof (abs_both _ _ Bp) as Bp'.
  destruct (ToLog64 L HG p Fp) as [Fl El].
  { rewrite <- (pow10_log (V p) Pp). destruct (pow10_range (log10 (V p)) ltac:(lra)) as [A B]. split.
    - apply Rle_trans with (2 := A). apply bpow_le. lia.
    - apply Rle_trans with (1 := B). apply bpow_le. lia. }
  set (l := V (@ToLog b64 (B64_ops L) p)) in *.
  assert (El' : Rabs (l - log10 (V p)) <= 33 / 10 * F * u).
  { apply Rle_trans with (1 := El). rewrite Rmult_comm. apply Rmult_le_compat_r; lra. }
  assert (Fu : 0 <= F * u <= / 10000000000000).
  { split; [apply Rmult_le_pos; lra|]. apply Rle_trans with (240 * / 9000000000000000); [apply Rmult_le_compat; lra|lra]. }
  pose proof (pow10_step (log10 (V p)) l _ El' ltac:(lra)) as S. rewrite (pow10_log (V p) Pp) in S.
  pose proof (pow10_pos l) as Pl.
  rewrite (Rabs_pos_eq (V rho * pow10 l)) in Ex by (apply Rmult_le_pos; lra).
  rewrite (Rabs_pos_eq (V rho * V p)) by (apply Rmult_le_pos; lra).
  assert (S2 : Rabs (V rho * pow10 l - V rho * V p) <= V rho * (236 / 100 * (33 / 10 * F * u) * V p)).
  { rewrite <- Rmult_minus_distr_l, Rabs_mult, (Rabs_pos_eq (V rho)) by lra. apply Rmult_le_compat_l; [lra|exact S]. }
  apply Rle_trans with (1 := abs_near _ _ _ _ _ Ex S2). pose proof (abs_both _ _ S2) as S3.
  assert (RP : 0 < V rho * V p) by (apply Rmult_lt_0_compat; lra).
  set (q := V rho * V p) in *.
  assert (E2 : V rho * (236 / 100 * (33 / 10 * F * u) * V p) = 7788 / 1000 * (F * u * q)) by (unfold q; field).
  rewrite E2 in *.
  assert (Fq : 0 <= F * u * q <= / 10000000000000 * q) by (split; [apply Rmult_le_pos; lra|apply Rmult_le_compat_r; lra]).
  assert (T : n * u * (V rho * pow10 l) <= n * u * (q + 7788 / 1000 * (F * u * q))) by (apply Rmult_le_compat_l; lra).
  assert (T2 : n * u * (F * u * q) <= 1 / 1000 * (F * u * q)) by (apply Rmult_le_compat_r; lra).
  lra.
Qed.
