(** C67: log-spaced frequency bins in double precision. *)
From Coq Require Import Reals ZArith List Lra Lia Bool.
From Flocq Require Import Core IEEE754.BinarySingleNaN Relative.
From Verif Require Import Base.Outcome Base.Ops Inst.B64 Model.Spiner Model.Chebyshev Model.Indexers Spec.Tables Spec.SinglePrecision Spec.DoublePrecision Spec.DoubleTables
  Proofs.B64Facts Proofs.FloatFacts Proofs.Near Proofs.NarrowGroup Proofs.DoubleTables Proofs.DoubleLookup Proofs.C51 Proofs.DoubleBins.
Import ListNotations.
Open Scope R_scope.

(** ** The single-precision logarithm step by step *)
Lemma ln_range x : float_range x -> 0 < x /\ Rabs (log10 x) <= 39.
Proof.
  intros [H1 H2]. assert (P : 0 < / 2 ^ 126) by (apply Rinv_0_lt_compat, pow_lt; lra). split; [lra|]. apply Rabs_le. split.
  - apply Rle_trans with (log10 (pow10 (- INR 38))).
    + rewrite log10_pow10, INR_IZR_INZ. simpl. lra.
    + apply log_up; [apply pow10_pos|]. apply Rle_trans with (2 := H1). unfold pow10. rewrite Rpower_Ropp. fold (pow10 (INR 38)). rewrite pow10_nat.
      apply Rinv_le_contravar; [apply pow_lt; lra|]. cbn [pow]. lra.
  - apply Rle_trans with (log10 (pow10 (INR 39))).
    + apply log_up; [lra|]. rewrite pow10_nat. cbn [pow] in *. lra.
    + rewrite log10_pow10, INR_IZR_INZ. simpl. lra.
Qed.
Lemma log_steps L x : accurate_logf (lm_logf L) -> is_finite x = true -> float_range (V x) ->
  let y := lm_logf L (to_float x) in
  is_finite (to_float x) = true /\ 0 < B2R (to_float x) /\ B2R (to_float x) = rnd32 (V x) /\ V (BDMath_log10 L x) = rnd32 (rnd (B2R y * V ILOG10)).
Proof.
  intros HL Fx Hr y. destruct (float_range_conv x Fx Hr) as (d1 & D1 & E1 & F1). destruct (ln_range _ Hr) as [Px _].
  assert (B1 : / 2 <= 1 + d1 <= 2) by (apply Rabs_le_inv in D1; cbn [pow] in D1; lra).
  assert (Pf : 0 < B2R (to_float x)) by (rewrite E1; apply Rmult_lt_0_compat; lra).
  split; [exact F1|]. split; [exact Pf|]. split.
  { destruct (to_float_V x Fx) as [E _]; [|exact E]. destruct Hr as [H1 H2]. rewrite Rabs_pos_eq.
    - apply Rle_lt_trans with float_max; [now apply rnd32_below|]. unfold float_max. cbn. lra.
    - unfold rnd32. rewrite <- (round_0 radix2 sexp ZnearestE). apply round_le; auto with typeclass_instances. lra. }
  destruct (HL _ F1 Pf) as [F2 E2]. fold y in F2, E2. destruct (to_double_V y F2) as [E3 F3].
  destruct (ln_float_size _ F1 Pf) as [Hln _]. destruct ILOG10_V as [EI FI].
  assert (HIb : 0 < V ILOG10 < 1) by (rewrite EI; replace (bpow radix2 (-54)) with (/ 2 ^ 54) by (cbn; lra); cbn [pow]; lra).
  assert (Hy : Rabs (B2R y) <= 150).
  { apply Rle_trans with (1 := abs_size _ _ _ _ E2 Hln). cbn [pow]. lra. }
  assert (Hz : Rabs (B2R y * V ILOG10) <= 150).
  { rewrite Rabs_mult, (Rabs_pos_eq (V ILOG10)) by lra. pose proof (Rabs_pos (B2R y)) as AP. set (k := V ILOG10) in *. clearbody k. replace 150 with (150 * 1) by ring. apply Rmult_le_compat; lra. }
  destruct (mul_V (to_double y) ILOG10 8 F3 FI ltac:(lia) ltac:(lia)) as [E4 F4]; [rewrite E3; apply Rle_trans with (1 := Hz); cbn; lra|].
  rewrite E3 in E4. set (z := Bmult mode_NE (to_double y) ILOG10) in *.
  assert (B4 : - 256 <= V z <= 256).
  { apply abs_both in Hz. assert (G : forall w, w <= 256 -> rnd w <= 256).
    { intros w Hw. replace 256 with (bp 8) by (cbn; lra). apply rnd_le_bpow; [lia|]. cbn. lra. }
    pose proof (G (- (B2R y * V ILOG10)) ltac:(lra)) as G1. pose proof (G (B2R y * V ILOG10) ltac:(lra)) as G2.
    replace (rnd (- (B2R y * V ILOG10))) with (- rnd (B2R y * V ILOG10)) in G1 by (symmetry; apply round_NE_opp). rewrite E4. lra. }
  destruct (to_float_V z F4) as [E5 F5].
  { assert (G : forall w, w <= 256 -> rnd32 w <= 256).
    { intros w Hw. replace 256 with (bpow radix2 8) by (cbn; lra). rewrite <- (rnd32_bpow 8) by lia. apply rnd32_mono. cbn. lra. }
    apply Rle_lt_trans with 256; [|cbn; lra]. apply Rabs_le. split; [|apply G; lra].
    assert (N : rnd32 (- V z) = - rnd32 (V z)) by apply round_NE_opp. pose proof (G (- V z) ltac:(lra)). lra. }
  destruct (to_double_V (to_float z) F5) as [E6 _]. change (BDMath_log10 L x) with (to_double (to_float z)). rewrite E6, E5, E4. reflexivity.
Qed.
Lemma log_mono L x y : accurate_logf (lm_logf L) -> monotone_logf (lm_logf L) -> is_finite x = true -> is_finite y = true ->
  float_range (V x) -> float_range (V y) -> V x <= V y -> V (BDMath_log10 L x) <= V (BDMath_log10 L y).
Proof.
  intros HL HM Fx Fy Hx Hy H. destruct (log_steps L x HL Fx Hx) as (F1 & P1 & E1 & R1). destruct (log_steps L y HL Fy Hy) as (F2 & P2 & E2 & R2).
  rewrite R1, R2. apply rnd32_mono, rnd_mono. apply Rmult_le_compat_r.
  - destruct ILOG10_V as [EI _]. rewrite EI. apply Rmult_le_pos; [lra|apply bpow_ge_0].
  - apply HM; auto. rewrite E1, E2. now apply rnd32_mono.
Qed.

(** ** Positions *)
Lemma position A B X lo hi x e n : A < B -> A <= X <= B -> lo < hi -> 0 < n -> Rabs (lo - A) <= e -> Rabs (hi - B) <= e -> Rabs (x - X) <= e ->
  Rabs ((x - lo) / ((hi - lo) / n) - (X - A) / ((B - A) / n)) <= 4 * e / ((hi - lo) / n).
Proof.
  intros HAB HX Hlh Hn H1 H2 H3. apply abs_both in H1. apply abs_both in H2. apply abs_both in H3.
  assert (E0 : 0 <= e) by lra. set (w := hi - lo) in *. set (W := B - A) in *. assert (Pw : 0 < w) by (unfold w; lra). assert (PW : 0 < W) by (unfold W; lra).
  replace ((x - lo) / (w / n) - (X - A) / (W / n)) with (((x - lo - (X - A)) * W + (X - A) * (W - w)) * (n / (w * W))) by (field; lra).
  replace (4 * e / (w / n)) with (4 * e * W * (n / (w * W))) by (field; lra).
  assert (P : 0 < n / (w * W)) by (apply Rmult_lt_0_compat; [exact Hn|apply Rinv_0_lt_compat, Rmult_lt_0_compat; assumption]).
  rewrite Rabs_mult, (Rabs_pos_eq (n / (w * W))) by lra. apply Rmult_le_compat_r; [lra|].
  replace (4 * e * W) with (2 * e * W + W * (2 * e)) by ring. apply abs_add; rewrite Rabs_mult.
  - rewrite (Rabs_pos_eq W) by lra. apply Rmult_le_compat_r; [lra|]. apply abs_bound. lra.
  - rewrite (Rabs_pos_eq (X - A)) by lra. apply Rmult_le_compat; try apply Rabs_pos; [lra|unfold W; lra|]. apply abs_bound. unfold w, W. lra.
Qed.

(** A LogLinear indexer over [numin, numax] in double precision, asked at a frequency in that
    range, answers with the straight line in log10 of frequency through the data of the two
    neighbouring bins, up to the roundings of the lookup and to an error of 6 * 2^-22 of the step
    between neighbouring data, times the number of cells in the extent of the logarithms: the
    logarithm is a float. For every logf that is monotone and accurate to a unit in the last
    place, up to 10000 bins per decade. *)
Lemma C67_loglinear_proof :
  forall (L : Libm) (numin numax nu : b64) (N : Z) (data : list b64) (F step r : R),
  let g := {| rg_lo := log10 (B2R numin); rg_hi := log10 (B2R numax); rg_n := N |} in
  let d := fun i => B2R (nth (Z.to_nat i) data (b64_of_Z 0)) in
  accurate_logf (lm_logf L) -> monotone_logf (lm_logf L) ->
  is_finite numin = true -> is_finite numax = true -> is_finite nu = true ->
  float_range (B2R numin) -> float_range (B2R numax) -> B2R numin <= B2R nu <= B2R numax ->
  (2 <= N)%Z -> IZR (N - 1) <= 10000 * (log10 (B2R numax) - log10 (B2R numin)) ->
  (N <= Z.of_nat (length data))%Z -> (forall x, In x data -> is_finite x = true /\ Rabs (B2R x) <= F) -> / 2 ^ 800 <= F <= 2 ^ 800 ->
  (forall i, (0 <= i < N - 1)%Z -> Rabs (d (i + 1)%Z - d i) <= step) ->
  interpolates [Pos (log10 (B2R nu))] [Axis g] (fun is => d (nth 0 is 0%Z)) r ->
  exists b v, @LogLinear_ptr b64 (B64_ops L) data numin numax N = Ok b /\ @LogLinear_call b64 (B64_ops L) b nu = Ok v /\ is_finite v = true /\
    Rabs (B2R v - r) <= (6 * step / 2 ^ 22 + 290 * F / 2 ^ 53) * cells g.
Proof.
  intros L numin numax nu N data F step r g d HL HM Fa Fb Fn Ra Rb Hn N2 HN Hlen HD HF HS HI. fold (V numin) (V numax) (V nu) in *.
  assert (Rn : float_range (V nu)) by (destruct Ra, Rb; split; lra).
  destruct (ln_range _ Ra) as [Pa La]. destruct (ln_range _ Rb) as [Pb Lb].
  pose proof (C51_accuracy_partial_proof L numin HL Fa Ra) as [Flo Elo]. pose proof (C51_accuracy_partial_proof L numax HL Fb Rb) as [Fhi Ehi].
  pose proof (C51_accuracy_partial_proof L nu HL Fn Rn) as [Fx Ex].
  pose proof (log_mono L _ _ HL HM Fa Fn Ra Rn (proj1 Hn)) as M1. pose proof (log_mono L _ _ HL HM Fn Fb Rn Rb (proj2 Hn)) as M2.
  pose proof (log_up _ _ Pa (proj1 Hn)) as K1. pose proof (log_up (V nu) (V numax) ltac:(lra) (proj2 Hn)) as K2.
  set (lo := BDMath_log10 L numin) in *. set (hi := BDMath_log10 L numax) in *. set (x := BDMath_log10 L nu) in *.
  fold (V numin) (V numax) (V nu) (V lo) (V hi) (V x) in Elo, Ehi, Ex.
  set (A := log10 (V numin)) in *. set (B := log10 (V numax)) in *. set (X := log10 (V nu)) in *.
  set (n := IZR (N - 1)) in *. assert (Hn1 : 1 <= n) by (apply IZR_le; lia).
  set (E := extent g). assert (E1 : 1 <= E <= 39).
  { split; [apply Rmax_l|]. unfold E, extent. repeat apply Rmax_lub; [lra|exact La|exact Lb]. }
  assert (EA : Rabs A <= E) by (unfold E, extent; apply Rle_trans with (2 := Rmax_r _ _); apply Rmax_l).
  assert (EB : Rabs B <= E) by (unfold E, extent; apply Rle_trans with (2 := Rmax_r _ _); apply Rmax_r).
  assert (EX : Rabs X <= E) by (apply abs_both in EA; apply abs_both in EB; apply abs_bound; lra).
  set (e := 9 / 8 * / 2 ^ 22 * E).
  assert (T : / 2 ^ 22 = / 4194304) by (cbn [pow]; f_equal; lra).
  assert (Sm : forall z y, Rabs (z - y) <= / 2 ^ 22 * Rabs y + / 2 ^ 25 -> Rabs y <= E -> Rabs (z - y) <= e).
  { intros z y H Hy. apply Rle_trans with (1 := H). unfold e. rewrite T. replace (/ 2 ^ 25) with (/ 33554432) by (cbn [pow]; f_equal; lra). lra. }
  apply Sm in Elo, Ehi, Ex; try assumption. clear Sm.
  assert (He : 0 < e <= 11 / 1000000 /\ e <= 1 / 1000000 * E) by (unfold e; rewrite T; lra).
  pose proof (abs_both _ _ Elo) as Elo'. pose proof (abs_both _ _ Ehi) as Ehi'.
  assert (W : 1 / 10000 * n <= B - A) by lra. assert (W0 : 1 / 10000 <= B - A) by lra.
  assert (W1 : 78 / 100 * (B - A) <= V hi - V lo) by lra.
  assert (DG : rg_dx g = (B - A) / n) by reflexivity.
  assert (D0 : 0 < rg_dx g) by (rewrite DG; apply Rmult_lt_0_compat; [lra|apply Rinv_0_lt_compat; lra]).
  assert (D4 : / 10000 <= rg_dx g).
  { rewrite DG. apply (Rmult_le_reg_r n); [lra|]. unfold Rdiv. rewrite Rmult_assoc, Rinv_l by lra. lra. }
  set (h := real_grid lo hi N).
  assert (DH : rg_dx h = (V hi - V lo) / n) by reflexivity.
  assert (D1 : 78 / 100 * rg_dx g <= rg_dx h).
  { rewrite DG, DH. unfold Rdiv. rewrite <- Rmult_assoc. apply Rmult_le_compat_r; [left; apply Rinv_0_lt_compat; lra|exact W1]. }
  assert (XH : extent h <= 1001 / 1000 * E).
  { unfold extent, h. cbn [real_grid rg_lo rg_hi]. fold (V lo) (V hi). repeat apply Rmax_lub; [lra| |].
    - pose proof (abs_size _ _ _ _ Elo EA). lra. - pose proof (abs_size _ _ _ _ Ehi EB). lra. }
  assert (CG : cells g = E * / rg_dx g) by reflexivity.
  assert (IG : 0 < / rg_dx g <= 10000).
  { split; [apply Rinv_0_lt_compat; exact D0|]. rewrite <- (Rinv_inv 10000). apply Rinv_le_contravar; lra. }
  assert (IH : 0 < / rg_dx h <= 1283 / 1000 * / rg_dx g).
  { split; [apply Rinv_0_lt_compat; lra|]. apply Rle_trans with (/ (78 / 100 * rg_dx g)); [apply Rinv_le_contravar; lra|]. rewrite Rinv_mult. lra. }
  assert (CP : 0 < cells g <= 390000) by (rewrite CG; split; [apply Rmult_lt_0_compat; lra|replace 390000 with (39 * 10000) by ring; apply Rmult_le_compat; lra]).
  assert (CH : cells h <= 1285 / 1000 * cells g).
  { unfold cells at 1. unfold Rdiv at 1. rewrite CG. apply Rle_trans with (1001 / 1000 * E * (1283 / 1000 * / rg_dx g)).
    - apply Rmult_le_compat; try lra. apply Rle_trans with 1; [lra|apply Rmax_l].
    - rewrite CG in CP. lra. }
  assert (OR : ordinary lo hi N).
  { split; [exact Flo|]. split; [exact Fhi|]. fold (V lo) (V hi) h. split; [lra|]. split; [exact N2|]. split; lra. }
  destruct (mk_grid (O := B64_ops L) lo hi N) as [G| |] eqn:EG; try (pose proof (grid64 L lo hi N OR) as Q; rewrite EG in Q; discriminate).
  assert (HB : bins64 data N F).
  { intros i Hi. destruct (at_flat_some data i ltac:(lia)) as (z & E' & Ez). exists z. split; [exact Ez|]. apply HD. now apply nth_error_In with (1 := E'). }
  assert (HF' : bp (-800) <= F <= bp 800).
  { change (bp (-800)) with (bp (- (Z.of_nat 800))). rewrite bpow_opp. change (bp 800) with (bp (Z.of_nat 800)). rewrite <- !two_pow_bp. exact HF. }
  destruct (interpolant_exists [Axis h] [Pos (V x)] (fun is => bin64 data (nth 0 is 0%Z))) as [r' Hr'].
  { constructor; [exists lo, hi; split; [reflexivity|exact OR]|constructor]. }
  { split; [|exact I]. split; assumption. }
  destruct (axis64 L lo hi N G data F (BDMath_log10 L nu) r' OR EG HB HF' Fx (conj M1 M2) Hr') as (v & Ev & Fv & Rv).
  eexists. exists v. split; [unfold LogLinear_ptr, LogLinear_box, setRange0; fold lo hi; change (@Olog10f b64 (B64_ops L) numin) with lo; change (@Olog10f b64 (B64_ops L) numax) with hi; rewrite EG; reflexivity|].
  split; [exact Ev|]. split; [exact Fv|]. fold (V v).
  pose proof (dx_pos _ _ _ OR) as DP. fold h in DP.
  assert (P1 : along d N ((X - A) / rg_dx g) r).
  { apply (along_interpolates g d ((X - A) / rg_dx g) r N2 D0). replace (rg_lo g + (X - A) / rg_dx g * rg_dx g) with X; [exact HI|].
    change (rg_lo g) with A. field. lra. }
  assert (P2 : along d N ((V x - V lo) / rg_dx h) r').
  { apply (along_interpolates h d ((V x - V lo) / rg_dx h) r' N2 DP). replace (rg_lo h + (V x - V lo) / rg_dx h * rg_dx h) with (V x); [exact Hr'|].
    change (rg_lo h) with (V lo). field. lra. }
  assert (S0 : 0 <= step) by (apply Rle_trans with (2 := HS 0%Z ltac:(lia)); apply Rabs_pos).
  pose proof (position A B X (V lo) (V hi) (V x) e n ltac:(lra) (conj K1 K2) ltac:(lra) ltac:(lra) Elo Ehi Ex) as PP.
  change ((V hi - V lo) / n) with (rg_dx h) in PP. change ((B - A) / n) with (rg_dx g) in PP.
  pose proof (along_near d N step _ _ _ _ _ HS S0 P1 P2 PP) as Q.
  fold h in Rv. pose proof (abs_near _ _ _ _ _ Rv Q) as Z. apply Rle_trans with (1 := Z).
  assert (Q1 : 4 * e / rg_dx h <= 6 * / 2 ^ 22 * cells g).
  { unfold Rdiv, e. rewrite CG, T. apply Rle_trans with (4 * (9 / 8 * / 4194304 * E) * (1283 / 1000 * / rg_dx g)); [apply Rmult_le_compat_l; lra|]. rewrite CG in CP. lra. }
  assert (Q2 : step * (4 * e / rg_dx h) <= step * (6 * / 2 ^ 22 * cells g)) by (apply Rmult_le_compat_l; assumption).
  pose proof u_pos as U. assert (F0 : 0 < F) by (pose proof (bpow_gt_0 radix2 (-800)); lra).
  assert (Q3 : 225 * F * cells h * u <= 290 * F * cells g * u).
  { apply Rmult_le_compat_r; [lra|]. replace (225 * F * cells h) with (F * (225 * cells h)) by ring. replace (290 * F * cells g) with (F * (290 * cells g)) by ring. apply Rmult_le_compat_l; lra. }
  replace ((6 * step / 2 ^ 22 + 290 * F / 2 ^ 53) * cells g) with (step * (6 * / 2 ^ 22 * cells g) + 290 * F * cells g * u); [lra|].
  change u with (/ 2 ^ 53). unfold Rdiv. ring.
Qed.

(** The double precision of the numbers is not reached: for every library and every logf there is
    a frequency between 1 and 10 at which the indexer of two bins there, holding 0 and 1, is not
    within 2^-30 of the logarithm of the frequency. *)
Lemma C67_precision_refuted_proof :
  forall L : Libm, exists (numin numax nu : b64) (data : list b64) (r : R),
  let g := {| rg_lo := log10 (B2R numin); rg_hi := log10 (B2R numax); rg_n := 2 |} in
  let d := fun i => B2R (nth (Z.to_nat i) data (b64_of_Z 0)) in
  B2R numin = 1 /\ B2R numax = 10 /\ is_finite nu = true /\ B2R numin <= B2R nu <= B2R numax /\ d 0%Z = 0 /\ d 1%Z = 1 /\
  interpolates [Pos (log10 (B2R nu))] [Axis g] (fun is => d (nth 0 is 0%Z)) r /\
  ~ exists b v, @LogLinear_ptr b64 (B64_ops L) data numin numax 2 = Ok b /\ @LogLinear_call b64 (B64_ops L) b nu = Ok v /\ Rabs (B2R v - r) <= / 2 ^ 30.
Proof.
  intros L. set (f := B754_finite false 8388608 (-22) (eq_refl : SpecFloat.bounded 24 128 8388608 (-22) = true) : b32).
  assert (Ff : is_finite f = true) by reflexivity.
  assert (Vf : B2R f = 2) by (unfold f, B2R, F2R, Fnum, Fexp, cond_Zopp; cbn; lra). assert (Pf : 0 < B2R f) by lra.
  destruct (near_float f Ff Pf) as (y & Fy & Vy & Ty). destruct (to_double_V f Ff) as [Vx Fx]. pose proof (to_double_float f Ff Pf) as Tx.
  set (x := to_double f) in *. clearbody x. clearbody f. rewrite Vf in *.
  destruct (of_Z_exact 0 ltac:(lia)) as [E0 _]. destruct (of_Z_exact 1 ltac:(lia)) as [E1 _]. destruct (of_Z_exact 10 ltac:(lia)) as [E10 _].
  set (data := [b64_of_Z 0; b64_of_Z 1]).
  set (good := fun nu : b64 => exists b v, @LogLinear_ptr b64 (B64_ops L) data (b64_of_Z 1) (b64_of_Z 10) 2 = Ok b /\ @LogLinear_call b64 (B64_ops L) b nu = Ok v /\
    Rabs (B2R v - log10 (B2R nu)) <= / 2 ^ 30).
  pose proof ln10_bounds as L10. cbn [pow] in L10.
  assert (A : log10 1 = 0) by (unfold log10; rewrite ln_1; unfold Rdiv; ring). assert (B : log10 10 = 1) by (unfold log10; field; lra).
  assert (K : forall nu : b64, is_finite nu = true -> 1 <= V nu <= 10 -> ~ good nu -> exists (numin numax nu : b64) (data : list b64) (r : R),
    let g := {| rg_lo := log10 (B2R numin); rg_hi := log10 (B2R numax); rg_n := 2 |} in
    let d := fun i => B2R (nth (Z.to_nat i) data (b64_of_Z 0)) in
    B2R numin = 1 /\ B2R numax = 10 /\ is_finite nu = true /\ B2R numin <= B2R nu <= B2R numax /\ d 0%Z = 0 /\ d 1%Z = 1 /\
    interpolates [Pos (log10 (B2R nu))] [Axis g] (fun is => d (nth 0 is 0%Z)) r /\
    ~ exists b v, @LogLinear_ptr b64 (B64_ops L) data numin numax 2 = Ok b /\ @LogLinear_call b64 (B64_ops L) b nu = Ok v /\ Rabs (B2R v - r) <= / 2 ^ 30).
  { intros nu Fn Hn NG. exists (b64_of_Z 1), (b64_of_Z 10), nu, data, (log10 (V nu)). cbv zeta. fold (V nu).
    change (B2R (b64_of_Z 1)) with (V (b64_of_Z 1)). change (B2R (b64_of_Z 10)) with (V (b64_of_Z 10)). rewrite E1, E10. rewrite A, B.
    split; [reflexivity|]. split; [reflexivity|]. split; [exact Fn|]. split; [exact Hn|]. split; [exact E0|]. split; [exact E1|]. split; [|exact NG].
    pose proof (log_up 1 (V nu) ltac:(lra) (proj1 Hn)) as L1. pose proof (log_up (V nu) 10 ltac:(lra) (proj2 Hn)) as L2. rewrite A in L1. rewrite B in L2.
    cbn [interpolates]. exists 0%Z, 0, 1. unfold rg_node, rg_dx. cbn [rg_n rg_lo rg_hi].
    split; [lia|]. change (2 - 1)%Z with 1%Z. change (0 + 1)%Z with 1%Z. split; [lra|]. split; [symmetry; exact E0|]. split; [symmetry; exact E1|]. lra. }
  assert (Q27 : 2 ^ 27 = 134217728) by (cbn [pow]; lra). rewrite Q27 in Vy.
  destruct (Classical_Prop.classic (good x)) as [Gx|Gx]; [|apply (K x Fx); [rewrite Vx; lra|exact Gx]].
  apply (K y Fy); [rewrite Vy; lra|]. intros (b & v & Pb & Cv & Rv). destruct Gx as (b' & v' & Pb' & Cv' & Rv').
  rewrite Pb in Pb'. injection Pb' as <-.
  assert (TT : to_float x = to_float y) by congruence. destruct (C51_same_float_proof L x y TT) as (_ & SF & _). rewrite (SF b), Cv in Cv'. injection Cv' as <-.
  fold (V v) (V y) in Rv. fold (V v) (V x) in Rv'. rewrite Vx in Rv'. rewrite Vy in Rv.
  assert (LL : log10 (2 * (1 + / 134217728)) = log10 2 + ln (1 + / 134217728) / ln 10).
  { unfold log10. rewrite ln_mult by lra. field. lra. }
  rewrite LL in Rv.
  assert (LD : 1 / 150000000 <= ln (1 + / 134217728)).
  { pose proof (exp_ineq1_le (- ln (1 + / 134217728))) as X. rewrite exp_Ropp, exp_ln in X by lra. lra. }
  assert (D : 1 / 400000000 <= ln (1 + / 134217728) / ln 10).
  { apply (Rmult_le_reg_r (ln 10)); [lra|]. unfold Rdiv at 2. rewrite Rmult_assoc, Rinv_l by lra. lra. }
  replace (/ 2 ^ 30) with (/ 1073741824) in * by (cbn [pow]; f_equal; lra). apply abs_both in Rv. apply abs_both in Rv'. lra.
Qed.

(** ** Examples *)
Definition ex_lib : Libm := {| lm_exp := fun x => x; lm_expm1 := fun x => x; lm_log := fun x => x; lm_log10 := fun x => x; lm_logf := rounded_log;
  lm_pow := fun x _ => x; lm_cos := fun x => x |}.
Lemma rounded_log_V (f : b32) : is_finite f = true -> 0 < B2R f -> B2R (rounded_log f) = rnd32 (ln (B2R f)).
Proof.
  intros Ff Pf. destruct (ln_float_size f Ff Pf) as [S1 _]. set (z := ln (B2R f)) in *.
  pose proof (binary_normalize_correct 24 128 _ _ mode_NE
    (ZnearestE (scaled_mantissa radix2 sexp z)) (cexp radix2 sexp z) false) as C. cbv zeta in C.
  change (F2R (Float radix2 (ZnearestE (scaled_mantissa radix2 sexp z)) (cexp radix2 sexp z))) with (rnd32 z) in C.
  change (round radix2 (SpecFloat.fexp 24 128) (round_mode mode_NE) (rnd32 z)) with (rnd32 (rnd32 z)) in C.
  rewrite (rnd32_id (rnd32 z)) in C by (apply generic_format_round; auto with typeclass_instances).
  rewrite Rlt_bool_true in C.
  - destruct C as (C1 & _). exact C1.
  - assert (G : forall w, w <= 149 -> rnd32 w <= 256).
    { intros w Hw. replace 256 with (bpow radix2 8) by (cbn; lra). rewrite <- (rnd32_bpow 8) by lia.
      apply rnd32_mono. cbn. lra. }
    apply Rabs_le_inv in S1. apply Rle_lt_trans with 256; [|cbn; lra]. apply Rabs_le. split.
    + assert (N : rnd32 (- z) = - rnd32 z) by apply round_NE_opp. pose proof (G (- z) ltac:(lra)). lra.
    + apply G. lra.
Qed.
Lemma rounded_log_monotone : monotone_logf rounded_log.
Proof.
  intros x y Fx Fy Px H. rewrite (rounded_log_V x Fx Px), (rounded_log_V y Fy ltac:(lra)). apply rnd32_mono. now apply C51.ln_le.
Qed.

(** Three bins from 1 to 100 holding 1, 2 and 4, asked at 20. *)
Lemma C67_loglinear_example :
  exists (L : Libm) (numin numax nu : b64) (N : Z) (data : list b64) (F step r : R),
  let g := {| rg_lo := log10 (B2R numin); rg_hi := log10 (B2R numax); rg_n := N |} in
  let d := fun i => B2R (nth (Z.to_nat i) data (b64_of_Z 0)) in
  accurate_logf (lm_logf L) /\ monotone_logf (lm_logf L) /\
  is_finite numin = true /\ is_finite numax = true /\ is_finite nu = true /\
  float_range (B2R numin) /\ float_range (B2R numax) /\ B2R numin < B2R nu < B2R numax /\
  (2 <= N)%Z /\ IZR (N - 1) <= 10000 * (log10 (B2R numax) - log10 (B2R numin)) /\
  (N <= Z.of_nat (length data))%Z /\ (forall x, In x data -> is_finite x = true /\ Rabs (B2R x) <= F) /\ / 2 ^ 800 <= F <= 2 ^ 800 /\
  (forall i, (0 <= i < N - 1)%Z -> Rabs (d (i + 1)%Z - d i) <= step) /\
  interpolates [Pos (log10 (B2R nu))] [Axis g] (fun is => d (nth 0 is 0%Z)) r /\ r = 2 * log10 20.
Proof.
  exists ex_lib, (b64_of_Z 1), (b64_of_Z 100), (b64_of_Z 20), 3%Z, [b64_of_Z 1; b64_of_Z 2; b64_of_Z 4], 4, 2, (2 * log10 20). cbv zeta.
  assert (Q : forall k, (Z.abs k < 2 ^ 31)%Z -> is_finite (b64_of_Z k) = true /\ B2R (b64_of_Z k) = IZR k) by (intros k Hk; destruct (of_Z_exact k Hk); split; assumption).
  destruct (Q 1%Z ltac:(lia)) as [F1 E1]. destruct (Q 2%Z ltac:(lia)) as [F2 E2]. destruct (Q 4%Z ltac:(lia)) as [F4 E4].
  destruct (Q 20%Z ltac:(lia)) as [F20 E20]. destruct (Q 100%Z ltac:(lia)) as [F100 E100]. rewrite E1, E20, E100.
  pose proof ln10 as L10. assert (A : log10 1 = 0) by (unfold log10; rewrite ln_1; unfold Rdiv; ring). assert (B : log10 10 = 1) by (unfold log10; field; lra).
  assert (B2 : log10 100 = 2) by (unfold log10; replace 100 with (10 * 10) by ring; rewrite ln_mult by lra; field; lra). rewrite A, B2.
  assert (R1 : forall z, 1 <= z <= 100 -> float_range z).
  { intros z Hz. split; [|cbn [pow]; lra]. apply Rle_trans with 1; [|lra]. rewrite <- Rinv_1. apply Rinv_le_contravar; [lra|]. apply pow_R1_Rle. lra. }
  split; [exact rounded_log_accurate|]. split; [exact rounded_log_monotone|]. split; [exact F1|]. split; [exact F100|]. split; [exact F20|].
  split; [apply R1; lra|]. split; [apply R1; lra|]. split; [lra|]. split; [lia|]. change (IZR (3 - 1)) with 2. split; [lra|]. split; [cbn; lia|].
  split. { intros x [<-|[<-|[<-|[]]]]; (split; [assumption|]); rewrite ?E1, ?E2, ?E4; apply Rabs_le; lra. }
  assert (P8 : 4 <= 2 ^ 800) by (replace 4 with (2 ^ 2) by ring; apply Rle_pow; [lra|lia]).
  split. { split; [|exact P8]. apply Rle_trans with 1; [|lra]. rewrite <- Rinv_1. apply Rinv_le_contravar; lra. }
  split. { intros i Hi. set (l := [b64_of_Z 1; b64_of_Z 2; b64_of_Z 4]). assert (i = 0 \/ i = 1)%Z as [->| ->] by lia.
    - change (nth (Z.to_nat (0 + 1)) l (b64_of_Z 0)) with (b64_of_Z 2). change (nth (Z.to_nat 0) l (b64_of_Z 0)) with (b64_of_Z 1). rewrite E1, E2. apply Rabs_le; lra.
    - change (nth (Z.to_nat (1 + 1)) l (b64_of_Z 0)) with (b64_of_Z 4). change (nth (Z.to_nat 1) l (b64_of_Z 0)) with (b64_of_Z 2). rewrite E2, E4. apply Rabs_le; lra. }
  split; [|reflexivity].
  pose proof (log_up 10 20 ltac:(lra) ltac:(lra)) as L1. pose proof (log_up 20 100 ltac:(lra) ltac:(lra)) as L2. rewrite B in L1. rewrite B2 in L2.
  cbn [interpolates]. exists 1%Z, 2, 4. unfold rg_node, rg_dx. cbn [rg_n rg_lo rg_hi]. change (3 - 1)%Z with 2%Z. change (1 + 1)%Z with 2%Z.
  split; [lia|]. split; [lra|]. split; [symmetry; exact E2|]. split; [symmetry; exact E4|]. lra.
Qed.
