(** C45. Guarded arithmetic helpers. *)
From Coq Require Import Reals ZArith Lra Lia Bool List.
From Flocq Require Import Core IEEE754.BinarySingleNaN.
From Verif Require Import Base.Outcome Base.Ops Inst.ER Inst.ERTac Inst.B64 Model.Robust Proofs.B64Facts.
Open Scope R_scope.

(** the guard, 10 numeric_limits::min(), and 10 numeric_limits::epsilon(), as reals *)
Definition small : R := 10 * powerRZ 2 (-1022).
Definition eps : R := 10 * powerRZ 2 (-52).

Lemma small_pos : 0 < small.
Proof. unfold small. apply Rmult_lt_0_compat; [lra|apply powerRZ_lt; lra]. Qed.
Lemma eps_val : 0 < eps < 1.
Proof.
  unfold eps. change (powerRZ 2 (-52)) with (powerRZ (IZR radix2) (-52)).
  rewrite <- bpow_powerRZ. pose proof (bpow_gt_0 radix2 (-52)).
  assert (bpow radix2 (-52) <= bpow radix2 (-4)) by (apply bpow_le; lia).
  change (bpow radix2 (-4)) with (/ 16) in *. split; lra.
Qed.
Lemma small_bpow : small = 10 * bpow radix2 (-1022).
Proof. unfold small. rewrite bpow_powerRZ. reflexivity. Qed.

Lemma sgn_fin b : sgn (Fin b) = (if Rlt_dec b 0 then -1 else 1)%Z.
Proof.
  unfold sgn. rewrite !fin_ofZ, fin_leb, fin_ltb. unfold Rleb, Rltb.
  destruct (Rle_dec 0 b), (Rlt_dec b 0); try lra; reflexivity.
Qed.

Lemma ratio_fin a b :
  ratio (Fin a) (Fin b) = Fin (a / (if Rlt_dec b 0 then b - small else b + small)).
Proof.
  pose proof small_pos as S. unfold ratio, SMALL. rewrite sgn_fin. er. 
  fold R_num_min in *. unfold small in *. fold R_num_min in *.
  destruct (Rlt_dec b 0).
  - rewrite fin_div by lra. f_equal. f_equal. ring.
  - rewrite fin_div by lra. f_equal. f_equal. ring.
Qed.

(** Exact arithmetic: a number for every pair of finite arguments; of the sign of
    the exact quotient, zero only if it is, not larger in magnitude, and smaller by
    exactly the factor |b| / (|b| + 10 min). *)
Lemma C45_ratio_proof :
  forall a b : R, exists v : R, ratio (Fin a) (Fin b) = Fin v /\
  Rabs v = Rabs a / (Rabs b + small) /\
  (b <> 0 -> v = a / b * (Rabs b / (Rabs b + small)) /\
             0 <= v * (a / b) /\ (v = 0 <-> a / b = 0) /\ Rabs v <= Rabs (a / b)) /\
  (b = 0 -> v = a / small).
Proof.
  intros a b. pose proof small_pos as S. pose proof (Rabs_pos b) as Pb.
  exists (a / (if Rlt_dec b 0 then b - small else b + small)). split; [apply ratio_fin|].
  set (d := if Rlt_dec b 0 then b - small else b + small).
  assert (Hd : Rabs d = Rabs b + small /\ d <> 0 /\ 0 <= d * b).
  { unfold d. destruct (Rlt_dec b 0) as [L|L].
    - rewrite (Rabs_left b), Rabs_left by lra. repeat split; try lra.
      replace ((b - small) * b) with ((- b + small) * (- b)) by ring. apply Rmult_le_pos; lra.
    - rewrite (Rabs_pos_eq b), Rabs_pos_eq by lra. repeat split; try lra.
      apply Rmult_le_pos; lra. }
  destruct Hd as (Hd & Hd0 & Hs).
  assert (Habs : Rabs (a / d) = Rabs a / (Rabs b + small)).
  { unfold Rdiv. rewrite Rabs_mult, Rabs_inv, Hd. reflexivity. }
  split; [exact Habs|]. split.
  - intros Hb. assert (Ev : a / d = a / b * (Rabs b / (Rabs b + small))).
    { unfold d. destruct (Rlt_dec b 0) as [L|L].
      - rewrite (Rabs_left b) by lra. field. lra.
      - rewrite (Rabs_pos_eq b) by lra. field. lra. }
    assert (Pb' : 0 < Rabs b) by (apply Rabs_pos_lt; exact Hb).
    assert (F : 0 < Rabs b / (Rabs b + small) <= 1).
    { split; [apply Rdiv_lt_0_compat; lra|].
      apply (Rmult_le_reg_r (Rabs b + small)); [lra|]. unfold Rdiv. rewrite Rmult_assoc, Rinv_l by lra. lra. }
    set (k := Rabs b / (Rabs b + small)) in *. rewrite Ev. split; [reflexivity|]. split.
    + replace (a / b * k * (a / b)) with (k * ((a / b) * (a / b))) by ring.
      apply Rmult_le_pos; [lra|apply Rle_0_sqr].
    + split.
      * split; intros H; [|rewrite H; ring]. apply Rmult_integral in H. destruct H; lra.
      * rewrite Rabs_mult, (Rabs_pos_eq k) by lra. pose proof (Rabs_pos (a / b)).
        rewrite <- (Rmult_1_r (Rabs (a / b))) at 2. apply Rmult_le_compat_l; lra.
  - intros ->. unfold d. destruct (Rlt_dec 0 0); [lra|]. f_equal. ring.
Qed.

(** make_positive: positive for every non-NaN argument, and the argument itself
    when that is at least ten machine epsilons. *)
Lemma C45_make_positive_proof :
  (forall a : R, exists v, make_positive (Fin a) = Fin v /\ 0 < v /\ (eps <= a -> v = a)) /\
  make_positive NInf = Fin eps /\ make_positive PInf = PInf.
Proof.
  pose proof eps_val as E.
  assert (EE : @EPS ER _ = Fin eps) by reflexivity.
  unfold make_positive, Omax. rewrite EE. split; [|split; reflexivity].
  intros a. rewrite fin_ltb. unfold Rltb. destruct (Rlt_dec a eps).
  - exists eps. repeat split; lra.
  - exists a. repeat split; lra.
Qed.

(** make_bounded in exact arithmetic: strictly inside the interval for every
    argument exactly when the upper end is positive and the interval is not
    narrower than the guard. *)
Lemma C45_make_bounded_iff_proof :
  forall vmin vmax : R,
  (forall val : R, exists r, make_bounded (Fin val) (Fin vmin) (Fin vmax) = Fin r /\ vmin < r < vmax)
  <-> 0 < vmax /\ vmin < vmax * (1 - eps).
Proof.
  intros vmin vmax. pose proof eps_val as E.
  assert (EE : @EPS ER _ = Fin eps) by reflexivity.
  assert (B : forall val, make_bounded (Fin val) (Fin vmin) (Fin vmax) =
    Fin (Rmin (Rmax val (vmin + eps)) (vmax * (1 - eps)))).
  { intros val. unfold make_bounded, Omin, Omax. rewrite EE, !fin_ofZ, fin_add, fin_sub, fin_mul, fin_ltb.
    unfold Rltb. destruct (Rlt_dec val (vmin + eps)); rewrite fin_ltb; unfold Rltb;
      [rewrite Rmax_right by lra|rewrite Rmax_left by lra];
      match goal with |- context [Rlt_dec ?x ?y] => destruct (Rlt_dec x y) end;
      [rewrite Rmin_right|rewrite Rmin_left|rewrite Rmin_right|rewrite Rmin_left]; lra || reflexivity. }
  split.
  - intros H.
    destruct (H (Rmax vmax (vmax * (1 - eps)))) as (r & Er & H1). rewrite B in Er. apply (f_equal (fun x => match x with Fin y => y | _ => 0 end)) in Er.
    assert (r = vmax * (1 - eps)).
    { rewrite <- Er. apply Rmin_right.
      eapply Rle_trans; [apply (Rmax_r vmax)|apply Rmax_l]. }
    subst r. split; [|lra].
    destruct (Rle_or_lt vmax 0) as [L|L]; [exfalso|exact L].
    assert (0 <= - vmax * eps) by (apply Rmult_le_pos; lra). lra.
  - intros [H1 H2] val. eexists. split; [apply B|].
    assert (0 < vmax * eps) by (apply Rmult_lt_0_compat; lra). split.
    + apply Rmin_glb_lt; [|exact H2]. eapply Rlt_le_trans; [|apply Rmax_r]. lra.
    + eapply Rle_lt_trans; [apply Rmin_r|]. lra.
Qed.

(** So it fails on a negative interval: with val = 0 on [-2, -1] the result is
    above the upper end. *)
Lemma C45_make_bounded_negative_refuted_proof :
  exists val vmin vmax r : R, vmin < vmax /\
  make_bounded (Fin val) (Fin vmin) (Fin vmax) = Fin r /\ vmax < r.
Proof.
  pose proof eps_val as E. exists 0, (-2), (-1), (-1 * (1 - eps)).
  split; [lra|]. split; [|lra].
  unfold make_bounded, Omin, Omax. change (@EPS ER _) with (Fin eps).
  rewrite !fin_ofZ, fin_add, fin_sub, fin_mul, fin_ltb, Rltb_false by lra.
  rewrite fin_ltb, Rltb_true by lra. reflexivity.
Qed.

(** binary64, any libm: on [2^40, 2^41] the guard added to the lower end is lost
    to rounding, and the result is the lower end itself. *)
Lemma C45_make_bounded_binary64_refuted_proof :
  forall L : Libm,
  exists val vmin vmax : b64, Bltb vmin vmax = true /\
  @make_bounded _ (B64_ops L) val vmin vmax = vmin.
Proof.
  intros L. exists (b64_of_Z 0), (b64_ldexp 1 40), (b64_ldexp 1 41). split; [reflexivity|].
  apply B2SF_inj. vm_compute. reflexivity.
Qed.

(** binary64, any libm: the divisor of [ratio] is finite, not zero, at least as
    large as b in magnitude and of the same sign, for every finite b. *)
Lemma C45_ratio_binary64_proof :
  forall (L : Libm) (a b : b64), is_finite b = true ->
  exists d : b64, is_finite d = true /\
  @ratio _ (B64_ops L) a b = Bdiv mode_NE a d /\
  (if Rlt_dec (B2R b) 0 then B2R d <= B2R b /\ B2R d <= - small
   else B2R b <= B2R d /\ small <= B2R d).
Proof.
  intros L a b Fb.
  set (sg := (if Rlt_dec (V b) 0 then -1 else 1)%Z).
  assert (Sg : @sgn _ (B64_ops L) b = sg).
  { unfold sgn, sg. cbn [Oleb Oltb OofZ B64_ops].
    assert (F0 : is_finite (b64_of_Z 0) = true) by reflexivity.
    rewrite (Bleb_correct 53 1024 _ _ F0 Fb), (Bltb_correct 53 1024 _ _ Fb F0).
    change (B2R (b64_of_Z 0)) with 0. fold (V b).
    destruct (Rlt_dec (V b) 0) as [H|H].
    - rewrite Rle_bool_false, Rlt_bool_true by lra. reflexivity.
    - rewrite Rle_bool_true, Rlt_bool_false by lra. reflexivity. }
  set (g := Bmult mode_NE (b64_of_Z sg) (Bmult mode_NE (b64_of_Z 10) (b64_ldexp 1 (-1022)))).
  assert (Hg : V g = IZR sg * small /\ fin g /\ fmt small).
  { assert (Eg : g = b64_ldexp (sg * 10) (-1022)).
    { unfold g, sg. destruct (Rlt_dec (V b) 0); apply B2SF_inj; vm_compute; reflexivity. }
    rewrite Eg, small_bpow. split; [|split].
    - destruct (V_lit (sg * 10) (-1022)) as [H _]; try lia.
      { unfold sg. destruct (Rlt_dec (V b) 0); cbn; lia. }
      rewrite H, mult_IZR. ring.
    - unfold sg. destruct (Rlt_dec (V b) 0); reflexivity.
    - apply generic_format_FLT. exists (Float radix2 10 (-1022)); cbn [Fnum Fexp]; try lia.
      + unfold F2R. cbn [Fnum Fexp]. reflexivity. + cbn; lia. }
  destruct Hg as (Vg & Fg & Fs). pose proof small_pos as Sp.
  assert (As : Rabs (V g) = small).
  { rewrite Vg. unfold sg. destruct (Rlt_dec (V b) 0).
    - rewrite Rabs_left; lra. - rewrite Rabs_pos_eq; lra. }
  assert (S1 : small < bpow radix2 (-1000)).
  { rewrite small_bpow. apply Rlt_le_trans with (bpow radix2 (4 + -1022)); [|apply bpow_le; lia].
    rewrite bpow_plus. pose proof (bpow_gt_0 radix2 (-1022)). replace (bpow radix2 4) with 16 by (cbn; lra). lra. }
  assert (NO : Rlt_bool (Rabs (round radix2 (SpecFloat.fexp 53 1024) (round_mode mode_NE) (B2R b + B2R g)))
                 (bpow radix2 1024) = true).
  { destruct (Rle_or_lt (Rabs (V b)) (bpow radix2 1000)) as [C|C].
    - apply (no_overflow _ 1001); try lia. eapply Rle_trans; [apply Rabs_triang|].
      fold (V b). fold (V g). rewrite As. change 1001%Z with (1 + 1000)%Z. rewrite bpow_plus.
      change (bpow radix2 1) with 2.
      assert (bpow radix2 (-1000) <= bpow radix2 1000) by (apply bpow_le; lia). lra.
    - apply Rlt_bool_true.
      change (round radix2 (SpecFloat.fexp 53 1024) (round_mode mode_NE) (B2R b + B2R g)) with (rnd (V b + V g)).
      rewrite rnd_absorb; [apply abs_B2R_lt_emax|apply V_fmt|]. rewrite As.
      apply Rlt_le_trans with (bpow radix2 1000 * bpow radix2 (-54)).
      + rewrite <- bpow_plus. apply Rlt_le_trans with (2 * bpow radix2 (-1000)); [lra|].
        change 2 with (bpow radix2 1). rewrite <- bpow_plus. apply bpow_le. lia.
      + apply Rmult_le_compat_r; [apply bpow_ge_0|lra]. }
  pose proof (Bplus_correct 53 1024 _ _ mode_NE b g Fb Fg) as C. rewrite NO in C.
  destruct C as (C1 & C2 & _).
  change (round radix2 (SpecFloat.fexp 53 1024) (round_mode mode_NE) (B2R b + B2R g)) with (rnd (V b + V g)) in C1.
  exists (Bplus mode_NE b g). split; [exact C2|]. split.
  - unfold ratio, SMALL. cbn [Odiv Oadd Omul B64_ops OofZ Onum_min]. rewrite Sg. reflexivity.
  - rewrite C1. fold (V b). unfold sg in Vg. destruct (Rlt_dec (V b) 0) as [H|H].
    + split.
      * rewrite <- (rnd_id (V b)) at 2 by apply V_fmt. apply rnd_mono. lra.
      * rewrite <- (rnd_id (- small)) by (now apply generic_format_opp). apply rnd_mono. lra.
    + split.
      * rewrite <- (rnd_id (V b)) at 1 by apply V_fmt. apply rnd_mono. lra.
      * rewrite <- (rnd_id small) at 1 by exact Fs. apply rnd_mono. lra.
Qed.

(** 1/0 gives a number: the quotient by the guard. *)
Lemma C45_ratio_example : ratio (Fin 1) (Fin 0) = Fin (1 / small) /\ exists v, ratio (Fin 1) (Fin (-3)) = Fin v /\ v < 0.
Proof.
  pose proof small_pos as S. rewrite !ratio_fin. destruct (Rlt_dec 0 0); [lra|].
  destruct (Rlt_dec (-3) 0); [|lra]. split; [do 2 f_equal; ring|]. eexists; split; [reflexivity|].
  unfold Rdiv. rewrite Rmult_1_l. apply Rinv_lt_0_compat. lra.
Qed.
Lemma C45_make_bounded_iff_example : 0 < 2 /\ 1 < 2 * (1 - eps).
Proof.
  assert (eps < / 4).
  { unfold eps. change (powerRZ 2 (-52)) with (powerRZ (IZR radix2) (-52)). rewrite <- bpow_powerRZ.
    assert (bpow radix2 (-52) <= bpow radix2 (-6)) by (apply bpow_le; lia).
    change (bpow radix2 (-6)) with (/ 64) in *. lra. }
  lra.
Qed.
Lemma C45_ratio_binary64_example : is_finite (b64_of_Z 0) = true /\ is_finite (b64_ldexp (-3) 970) = true.
Proof.
  split; reflexivity.
Qed.
