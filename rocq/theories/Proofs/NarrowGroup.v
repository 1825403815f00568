(** A group so narrow that the logarithms of its two ends are the same double. *)
From Coquelicot Require Import Coquelicot.
From Coq Require Import Reals ZArith List Lra Lia Bool.
From Flocq Require Import Core IEEE754.BinarySingleNaN.
From Verif Require Import Base.Outcome Base.Ops Inst.B64 Model.Constants Model.Robust Model.RadTypes Model.ThermalPhotons Model.MeanUtils
  Model.MeanPhotons Spec.Physics Spec.Means Spec.Tables Spec.DoublePrecision Spec.DoubleMeans
  Proofs.ArrayFacts Proofs.B64Facts Proofs.Near Proofs.NearConsts Proofs.NearRules Proofs.NearPhotons Proofs.C56 Proofs.C61 Proofs.App Proofs.DoubleMeans Proofs.Weights.
Import ListNotations.
Open Scope R_scope.

(** the library that rounds the exact values *)
Definition nearest_libm : Libm := {|
  lm_exp := fun x => nearest (exp (B2R x)); lm_expm1 := fun x => nearest (exp (B2R x) - 1);
  lm_log := fun x => nearest (ln (B2R x)); lm_log10 := fun x => nearest (log10 (B2R x)); lm_logf := fun x => x;
  lm_pow := fun x y => nearest (Rpower (B2R x) (B2R y)); lm_cos := fun x => nearest (cos (B2R x)) |}.
Lemma nearest_accurate : accurate_libm nearest_libm.
Proof. split; [|split]; cbn [nearest_libm lm_exp lm_expm1 lm_pow]; intros; apply nearest_within; assumption. Qed.
Lemma nearest_V z : Rabs z <= bp 1000 -> fin (nearest z) /\ V (nearest z) = rnd z.
Proof.
  intros H. pose proof (binary_normalize_correct 53 1024 eq_refl eq_refl mode_NE
    (ZnearestE (scaled_mantissa radix2 bexp z)) (cexp radix2 bexp z) false) as C. cbv zeta in C.
  change (F2R (Float radix2 (ZnearestE (scaled_mantissa radix2 bexp z)) (cexp radix2 bexp z))) with (rnd z) in C.
  change (round radix2 (SpecFloat.fexp 53 1024) (round_mode mode_NE) (rnd z)) with (rnd (rnd z)) in C.
  rewrite (rnd_id (rnd z)) in C by apply rnd_fmt.
  rewrite Rlt_bool_true in C.
  - destruct C as (C1 & C2 & _). split; [exact C2|exact C1].
  - rewrite rnd_abs. apply Rle_lt_trans with (bp 1000); [apply rnd_le_bpow; [lia|exact H]|apply bpow_lt; lia].
Qed.

(** ** Two neighbouring frequencies with the same logarithm *)
Lemma ln10 : 1 < ln 10.
Proof. rewrite <- ln_exp at 1. apply ln_increasing; [apply exp_pos|]. pose proof exp_le_3. lra. Qed.
Lemma ln10_pow n : ln (10 ^ n) = INR n * ln 10.
Proof. rewrite <- ln_exp with (INR n * ln 10). f_equal. rewrite <- Rpower_pow by lra. reflexivity. Qed.
Lemma log_range x : 10 ^ 15 <= x < 10 ^ 16 -> 15 <= log10 x < 16.
Proof.
  intros [A B]. pose proof ln10 as L. assert (0 < 10 ^ 15) by (apply pow_lt; lra). unfold log10. split.
  - apply Rmult_le_reg_r with (ln 10); [lra|]. unfold Rdiv. rewrite Rmult_assoc, Rinv_l, Rmult_1_r by lra.
    replace 15 with (INR 15) by (simpl; lra). rewrite <- ln10_pow. destruct A as [A| ->]; [left; now apply ln_increasing|lra].
  - apply Rmult_lt_reg_r with (ln 10); [lra|]. unfold Rdiv. rewrite Rmult_assoc, Rinv_l, Rmult_1_r by lra.
    replace 16 with (INR 16) by (simpl; lra). rewrite <- ln10_pow. apply ln_increasing; lra.
Qed.
Lemma log_cexp r : 15 <= r < 16 -> cexp radix2 bexp r = (-49)%Z.
Proof.
  intros H. unfold cexp. rewrite (mag_unique radix2 r 4).
  - reflexivity.
  - change (bp (4 - 1)) with 8. change (bp 4) with 16. rewrite Rabs_pos_eq by lra. lra.
Qed.
Lemma log_up x y : 0 < x -> x <= y -> log10 x <= log10 y.
Proof.
  intros H [A| ->]; [|lra]. pose proof ln10. unfold log10, Rdiv. apply Rmult_le_compat_r; [left; apply Rinv_0_lt_compat; lra|].
  left. now apply ln_increasing.
Qed.
Lemma log_step x y : 0 < x -> x <= y -> log10 y - log10 x <= (y - x) / x.
Proof.
  intros H A. pose proof ln10 as L.
  assert (E : ln y - ln x <= (y - x) / x).
  { rewrite <- ln_div by lra. pose proof (exp_ineq1_le (ln (y / x))) as Q.
    rewrite exp_ln in Q by (apply Rdiv_lt_0_compat; lra). replace (y / x) with (1 + (y - x) / x) in Q at 2 by (field; lra). lra. }
  assert (P : 0 <= ln y - ln x) by (destruct A as [A| ->]; [pose proof (ln_increasing x y H A); lra|lra]).
  unfold log10. replace (ln y / ln 10 - ln x / ln 10) with ((ln y - ln x) * / ln 10) by (field; lra).
  apply Rle_trans with ((ln y - ln x) * 1); [|lra]. apply Rmult_le_compat_l; [exact P|]. rewrite <- Rinv_1. apply Rinv_le_contravar; lra.
Qed.

Definition x0 : b64 := b64_ldexp 4503599627370496 (-2).
Definition x1 : b64 := b64_ldexp 4503599627370497 (-2).
Definition x2 : b64 := b64_ldexp 4503599627370498 (-2).
Lemma x_values : (fin x0 /\ V x0 = 4503599627370496 / 4) /\ (fin x1 /\ V x1 = 4503599627370497 / 4) /\ (fin x2 /\ V x2 = 4503599627370498 / 4).
Proof.
  destruct (V_lit 4503599627370496 (-2)) as [E1 F1]; [vm_compute; reflexivity|lia|lia|].
  destruct (V_lit 4503599627370497 (-2)) as [E2 F2]; [vm_compute; reflexivity|lia|lia|].
  destruct (V_lit 4503599627370498 (-2)) as [E3 F3]; [vm_compute; reflexivity|lia|lia|].
  change (bpow radix2 (-2)) with (/ 4) in *. unfold x0, x1, x2. repeat split; assumption || (rewrite ?E1, ?E2, ?E3; reflexivity).
Qed.
Lemma same_log : nearest (log10 (V x0)) = nearest (log10 (V x1)) \/ nearest (log10 (V x1)) = nearest (log10 (V x2)).
Proof.
  destruct x_values as ((_ & E0) & (_ & E1) & (_ & E2)). rewrite E0, E1, E2.
  set (a := 4503599627370496 / 4). set (b := 4503599627370497 / 4). set (c := 4503599627370498 / 4).
  assert (R : 10 ^ 15 <= a /\ a <= b /\ b <= c /\ c < 10 ^ 16) by (unfold a, b, c; simpl; lra).
  assert (P : 0 < a) by (unfold a; lra).
  pose proof (log_range a ltac:(lra)) as La. pose proof (log_range b ltac:(lra)) as Lb. pose proof (log_range c ltac:(lra)) as Lc.
  pose proof (log_up a b ltac:(lra) ltac:(lra)) as Ub. pose proof (log_up b c ltac:(lra) ltac:(lra)) as Uc.
  pose proof (log_step a c ltac:(lra) ltac:(lra)) as S.
  set (la := log10 a) in *. set (lb := log10 b) in *. set (lc := log10 c) in *.
  assert (S' : lc - la <= / 2251799813685248). { apply Rle_trans with (1 := S). unfold a, c. lra. }
  clearbody la lb lc. unfold nearest, scaled_mantissa. rewrite !(log_cexp la), !(log_cexp lb), !(log_cexp lc) by assumption.
  change (bp (- (-49))) with 562949953421312.
  set (M := 562949953421312).
  assert (Na : Rabs (IZR (ZnearestE (la * M)) - la * M) <= / 2) by (rewrite Rabs_minus_sym; apply Znearest_half).
  assert (Nc : Rabs (IZR (ZnearestE (lc * M)) - lc * M) <= / 2) by (rewrite Rabs_minus_sym; apply Znearest_half).
  assert (Mb : (ZnearestE (la * M) <= ZnearestE (lb * M))%Z) by (apply (Zrnd_le ZnearestE); unfold M; lra).
  assert (Mc : (ZnearestE (lb * M) <= ZnearestE (lc * M))%Z) by (apply (Zrnd_le ZnearestE); unfold M; lra).
  apply Rabs_le_inv in Na, Nc.
  assert (D : IZR (ZnearestE (lc * M)) - IZR (ZnearestE (la * M)) < 2). { unfold M in *. lra. }
  rewrite <- minus_IZR in D. apply lt_IZR in D.
  destruct (Z.eq_dec (ZnearestE (la * M)) (ZnearestE (lb * M))) as [E|E]; [left; now rewrite E|right].
  replace (ZnearestE (lc * M)) with (ZnearestE (lb * M)) by lia. reflexivity.
Qed.

(** ** The library underflows gracefully and rounds log10 correctly *)
Lemma nearest_graceful : graceful_libm nearest_libm.
Proof.
  intros x F H. cbn [nearest_libm lm_exp]. rewrite two_pow_bp, <- bpow_opp in H. pose proof (exp_pos (B2R x)) as P.
  destruct (nearest_V (exp (B2R x))) as [A B].
  { rewrite Rabs_pos_eq by lra. apply Rle_trans with (bp (- Z.of_nat 1022)); [lra|apply bpow_le; vm_compute; congruence]. }
  split; [exact A|]. fold (V (nearest (exp (B2R x)))). rewrite B. split; [apply rnd_pos; lra|].
  rewrite two_pow_bp, <- bpow_opp. apply rnd_le_bpow; [vm_compute; congruence|].
  apply Rle_trans with (bp (- Z.of_nat 1022)); [lra|apply bpow_le; vm_compute; congruence].
Qed.
Lemma ln_bp e : ln (bp e) = IZR e * ln 2.
Proof.
  rewrite bpow_powerRZ. change (IZR radix2) with 2. destruct e as [|p|p]; cbn [powerRZ].
  - rewrite ln_1. ring.
  - rewrite ln_pow by lra. now rewrite INR_IZR_INZ, positive_nat_Z.
  - rewrite ln_Rinv by (apply pow_lt; lra). rewrite ln_pow by lra. rewrite INR_IZR_INZ, positive_nat_Z.
    change (Z.neg p) with (- Z.pos p)%Z. rewrite opp_IZR. ring.
Qed.
Lemma log10_size x : fin x -> 0 < V x -> Rabs (log10 (V x)) <= bp 1000.
Proof.
  intros F P. pose proof ln10 as L.
  assert (Up : V x <= bp 1024).
  { pose proof (abs_B2R_lt_emax 53 1024 x) as E. change (B2R x) with (V x) in E. rewrite Rabs_pos_eq in E by lra. left. exact E. }
  assert (Lo : bp (-1074) <= V x).
  { destruct (gap 0 (V x) (generic_format_0 _ _) (V_fmt _) P P) as [_ G]. rewrite Rminus_0_r in G. exact G. }
  assert (A : ln (bp (-1074)) <= ln (V x)) by (apply ln_mono; [apply bpow_gt_0|exact Lo]).
  assert (B : ln (V x) <= ln (bp 1024)) by (apply ln_mono; [exact P|exact Up]).
  rewrite ln_bp in A, B.
  assert (L2 : 0 < ln 2 <= 1).
  { split; [rewrite <- ln_1; apply ln_increasing; lra|]. rewrite <- (ln_exp 1). apply ln_mono; [lra|]. pose proof (exp_ineq1_le 1). lra. }
  apply Rle_trans with (bp 11); [|apply bpow_le; lia]. change (bp 11) with 2048. unfold log10, Rdiv. rewrite Rabs_mult.
  apply Rle_trans with (2048 * 1); [|lra]. apply Rmult_le_compat; try apply Rabs_pos.
  - apply Rabs_le. lra.
  - rewrite Rabs_pos_eq by (left; apply Rinv_0_lt_compat; lra). rewrite <- Rinv_1. apply Rinv_le_contravar; lra.
Qed.
Lemma nearest_log : nearest_log10 nearest_libm.
Proof.
  intros x F P. cbn [nearest_libm lm_log10]. destruct (nearest_V _ (log10_size x F P)) as [A B]. split; [exact A|].
  intros y _. fold (V (nearest (log10 (B2R x)))). change (B2R x) with (V x) in *. rewrite B. apply rnd_nearest, V_fmt.
Qed.

(** ** No step, no weight *)
Lemma z_mul_r (x y : b64) : fin x -> zr y -> zr (Bmult mode_NE x y).
Proof. intros Fx [F E]. destruct (zero_form y F E) as [s ->]. destruct x; try discriminate Fx; split; reflexivity. Qed.
Lemma z_add (x y : b64) : zr x -> zr y -> zr (Bplus mode_NE x y).
Proof. intros [F E] [F' E']. destruct (zero_form x F E) as [s ->], (zero_form y F' E') as [s' ->]. destruct s, s'; split; reflexivity. Qed.
Lemma z_sum L n t : (forall i, (i < n)%nat -> zr (t i)) -> zr (fsum L n t).
Proof.
  induction n as [|n IH]; intros H.
  - split; reflexivity.
  - apply z_add; [apply IH; intros i Hi; apply H; lia|apply H; lia].
Qed.
Lemma z_means L (a b c d : b64) : zr a -> zr b -> zr c -> zr d -> zr (@planck_mean b64 (B64_ops L) a b) /\ zr (@rosseland_mean b64 (B64_ops L) c d).
Proof.
  intros [F1 E1] [F2 E2] [F3 E3] [F4 E4].
  destruct (zero_form a F1 E1) as [s1 ->], (zero_form b F2 E2) as [s2 ->], (zero_form c F3 E3) as [s3 ->], (zero_form d F4 E4) as [s4 ->].
  assert (P : @planck_mean b64 (B64_ops L) (B754_zero s1) (B754_zero s2) = B754_zero s1) by (apply B2SF_inj; destruct s1, s2; vm_compute; reflexivity).
  assert (Q : @rosseland_mean b64 (B64_ops L) (B754_zero s3) (B754_zero s4) = B754_zero false) by (apply B2SF_inj; destruct s3, s4; vm_compute; reflexivity).
  rewrite P, Q. split; split; reflexivity.
Qed.
Lemma mul_fin (x y : b64) : fin x -> fin y -> Rabs (V x * V y) <= bp 1000 -> fin (Bmult mode_NE x y).
Proof. intros F G H. apply (mul_V x y 1000 F G); [lia|lia|exact H]. Qed.

Section Zero.
  Local Notation L := nearest_libm.
  Local Notation O := (B64_ops L).
  Local Notation pc := (@PhysicalConstantsCGS b64 O).
  Context (coef : b64 -> b64 -> b64 -> result b64) (rho temp lo hi l : b64) (N : Z) (HN : (1 <= N <= 500000000)%Z).
  Hypothesis Hrho : physical rho.
  Hypothesis Htemp : physical temp.
  Hypothesis Hone : 1 <= B2R temp.
  Hypothesis HC : forall nu, physical nu -> exists al, coef rho temp nu = Ok al /\ physical al.
  Hypothesis HWin : @sample_window b64 O pc temp lo hi = (lo, hi).
  Hypothesis Hlo : @ToLog b64 O lo = l.
  Hypothesis Hhi : @ToLog b64 O hi = l.
  Hypothesis Fl : fin l.
  Hypothesis Rl : 15 <= V l <= 16.
  Local Notation win := (@sample_window b64 O pc temp lo hi).
  Local Notation nu := (@sample_nu b64 O win N).
  Local Notation dl := (@sample_dlnu b64 O win N).

  Lemma dl_zero : zr dl.
  Proof.
    unfold sample_dlnu. rewrite HWin. cbn [fst snd]. rewrite Hlo, Hhi.
    destruct (V_lit N 0) as [E F]; [rewrite Z.abs_eq by lia; apply Z.le_lt_trans with (1 := proj2 HN); reflexivity|lia|lia|].
    change (bp 0) with 1 in E. rewrite Rmult_1_r in E.
    apply (z_div 0 0 30 (Bminus mode_NE l l) (b64_of_Z N) (IZR N)).
    - destruct (sub_V l l 0 Fl Fl) as [F' E']; [lia|lia|rewrite Rminus_diag_eq by reflexivity; rewrite Rabs_R0; apply bpow_ge_0|].
      split; [assumption|]. rewrite Rminus_diag_eq, rnd_0 in * by reflexivity. assumption.
    - apply near_exact; [exact F|exact E|]. change (bp 0) with 1. change (bp 30) with 1073741824.
      split; [apply (IZR_le 1); lia|apply IZR_le; lia].
  Qed.
  Lemma nu_ok i : (i < Z.to_nat N)%nat -> physical (nu i).
  Proof.
    intros Hi. pose proof dl_zero as Z0. unfold sample_nu, FromLog.
    set (c := @Oadd b64 O (@OofZ b64 O (Z.of_nat i)) (@Odec b64 O 5 (-1))).
    assert (Fc : fin c).
    { destruct (V_lit (Z.of_nat i) 0) as [E F]; [rewrite Z.abs_eq by lia; apply Z.lt_trans with 500000001%Z; [lia|reflexivity]|lia|lia|].
      change (bp 0) with 1 in E. rewrite Rmult_1_r in E. apply (add_V (b64_of_Z (Z.of_nat i)) (b64_dec 5 (-1)) 40 F eq_refl); [lia|lia|].
      change (b64_of_Z (Z.of_nat i)) with (b64_ldexp (Z.of_nat i) 0). rewrite E.
      assert (HV : V (b64_dec 5 (-1)) = 1 / 2).
      { replace (b64_dec 5 (-1)) with (b64_ldexp 1 (-1)) by (apply B2SF_inj; vm_compute; reflexivity).
        destruct (V_lit 1 (-1)) as [E' _]; [reflexivity|lia|lia|]. rewrite E'. change (bp (-1)) with (/ 2). lra. }
      rewrite HV. assert (0 <= IZR (Z.of_nat i) <= 500000000) by (split; apply IZR_le; lia).
      change (bp 40) with 1099511627776. apply Rabs_le. lra. }
    rewrite HWin. cbn [fst]. rewrite Hlo. rewrite <- HWin.
    pose proof (z_mul_r c dl Fc Z0) as [Fm Em].
    change (@Omul b64 O c dl) with (Bmult mode_NE c dl). set (m := Bmult mode_NE c dl) in *.
    destruct (add_V l m 5 Fl Fm) as [E F]; [lia|lia|rewrite Em, Rplus_0_r; change (bp 5) with 32; apply Rabs_le; lra|].
    rewrite Em, Rplus_0_r, (rnd_id (V l)) in E by apply V_fmt.
    change (physical (nearest (Rpower (B2R (b64_of_Z 10)) (B2R (Bplus mode_NE l m))))).
    assert (T : B2R (b64_of_Z 10) = 10). { destruct (V_lit 10 0) as [E' _]; [reflexivity|lia|lia|]. change (bp 0) with 1 in E'. rewrite Rmult_1_r in E'. exact E'. }
    change (B2R (Bplus mode_NE l m)) with (V (Bplus mode_NE l m)). rewrite T, E.
    assert (P : 10 ^ 15 <= Rpower 10 (V l) <= 10 ^ 16).
    { rewrite <- !Rpower_pow by lra. replace (INR 15) with 15 by (simpl; lra). replace (INR 16) with 16 by (simpl; lra).
      split; apply Rle_Rpower; lra. }
    assert (Q : bp 0 <= Rpower 10 (V l) <= bp 100).
    { split; [apply Rle_trans with (10 ^ 15)|apply Rle_trans with (10 ^ 16)]; try apply P; [change (bp 0) with 1; simpl; lra|].
      apply Rle_trans with (bp 60); [change (bp 60) with 1152921504606846976; simpl; lra|apply bpow_le; lia]. }
    destruct (nearest_V (Rpower 10 (V l))) as [A B].
    { rewrite Rabs_pos_eq by (pose proof (bpow_gt_0 radix2 0); lra). apply Rle_trans with (bp 100); [apply Q|apply bpow_le; lia]. }
    split; [exact A|]. fold (V (nearest (Rpower 10 (V l)))). rewrite B. rewrite two_pow_bp, <- bpow_opp.
    split; [|apply rnd_le_bpow; [lia|apply Q]]. apply Rle_trans with (bp 0); [apply bpow_le; lia|apply rnd_ge_bpow; [lia|apply Q]].
  Qed.

  Lemma zero_means : exists a b, @group_nums b64 O pc coef rho temp lo hi N = Ok a /\ @group_denoms b64 O pc temp lo hi N = Ok b /\
    zr (@planck_mean b64 O (fst a) (fst b)) /\ zr (@rosseland_mean b64 O (snd a) (snd b)).
  Proof.
    set (alpha := fun i => match coef rho temp (nu i) with Ok a => a | _ => rho end).
    assert (HA : forall i, (i < Z.to_nat N)%nat -> coef rho temp (nu i) = Ok (alpha i) /\ physical (alpha i)).
    { intros i Hi. destruct (HC _ (nu_ok i Hi)) as (al & E & P). unfold alpha. rewrite E. split; [reflexivity|exact P]. }
    eexists _, _. split; [apply (nums_sum L pc coef rho temp lo hi N alpha HA)|]. split; [apply denoms_sum|]. cbn [fst snd].
    assert (HD : forall i, (i < Z.to_nat N)%nat -> zr (@Omul b64 O (nu i) dl)).
    { intros i Hi. apply z_mul_r; [apply (nu_ok i Hi)|apply dl_zero]. }
    assert (HW : forall i, (i < Z.to_nat N)%nat ->
      upto 400 (fst (@ThermalWeightsAtNu b64 O pc temp (nu i))) /\ upto 400 (snd (@ThermalWeightsAtNu b64 O pc temp (nu i)))).
    { intros i Hi. destruct (weights_ok L nearest_accurate nearest_graceful temp (nu i) Htemp Hone (nu_ok i Hi)) as [[A _] [B _]]. now split. }
    assert (HQ : forall n q k w, 0 <= n <= 10 -> near n (-200) 200 q k -> upto 400 w -> fin (@Omul b64 O q w)).
    { intros n q k w Hn Hq (Fw & W0 & W1). rewrite two_pow_bp in W1. destruct (near_up n _ _ _ _ Hq ltac:(lra)) as (Fq & _ & Q1).
      destruct (near_pos _ _ _ _ _ Hq) as [_ Q0]. apply mul_fin; [exact Fq|exact Fw|].
      change (B2R w) with (V w) in *. rewrite Rabs_pos_eq by (apply Rmult_le_pos; lra).
      apply Rle_trans with (bp (200 + 1) * bp 400); [apply Rmult_le_compat; lra || assumption|]. rewrite <- bpow_plus. apply bpow_le. lia. }
    apply z_means; apply z_sum; intros i Hi; (apply z_mul_r; [|now apply HD]).
    - apply (HQ 1 _ (V (alpha i) / V rho)); [lra|apply quot_near; [apply (HA i Hi)|exact Hrho]|apply (HW i Hi)].
    - apply (HW i Hi).
    - apply (HQ 3 _ (V rho / V (alpha i))); [lra|apply guarded_near; [exact Hrho|apply (HA i Hi)]|apply (HW i Hi)].
    - apply (HW i Hi).
  Qed.
End Zero.
