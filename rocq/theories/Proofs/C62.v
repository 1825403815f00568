(** C62. Group averages in double precision: as accurate as their terms. *)
From Coquelicot Require Import Coquelicot.
From Coq Require Import Reals ZArith List Lra Lia Bool.
From Flocq Require Import Core IEEE754.BinarySingleNaN.
From Verif Require Import Base.Outcome Base.Ops Inst.B64 Model.Constants Model.Robust Model.RadTypes Model.Spiner Model.MeanUtils
  Model.MeanPhotons Model.MeanNeutrinos Model.PhotonApi Model.GrayPhotons Spec.Physics Spec.Arrays Spec.Means Spec.Tables Spec.DoublePrecision Spec.DoubleMeans
  Proofs.ArrayFacts Proofs.B64Facts Proofs.Near Proofs.NearRules Proofs.NearPhotons Proofs.App Proofs.DoubleMeans Proofs.TableFacts Proofs.MeanFacts Proofs.C20 Proofs.C56 Proofs.Weights Proofs.Perturb Proofs.FillFacts Proofs.NarrowGroup.
Import ListNotations.
Open Scope R_scope.

(** Photons, any mathematical library: the two means of a group are the weighted arithmetic
    and harmonic mean of the sampled opacities, up to about two roundings per sample. The
    frequencies, the weights and the coefficients are the doubles the code computes. *)
Lemma C62_photons_proof :
  forall (L : Libm) (pc : PhysConst b64) (coef : b64 -> b64 -> b64 -> result b64) (rho temp lo hi : b64) (N : Z) (alpha : nat -> b64),
  let O := B64_ops L in
  let n := Z.to_nat N in
  let win := @sample_window b64 O pc temp lo hi in
  let nu := @sample_nu b64 O win N in
  let B := fun i => fst (@ThermalWeightsAtNu b64 O pc temp (nu i)) in
  let D := fun i => snd (@ThermalWeightsAtNu b64 O pc temp (nu i)) in
  let d := fun i => @Omul b64 O (nu i) (@sample_dlnu b64 O win N) in
  physical rho -> (forall i, (i < n)%nat -> coef rho temp (nu i) = Ok (alpha i)) -> regular n alpha B D d ->
  exists a b, @group_nums b64 O pc coef rho temp lo hi N = Ok a /\ @group_denoms b64 O pc temp lo hi N = Ok b /\
    means_of n rho alpha B D d (@planck_mean b64 O (fst a) (fst b)) (@rosseland_mean b64 O (snd a) (snd b)).
Proof.
  intros L pc coef rho temp lo hi N alpha O n win nu B D d Hr HC (HN & HW & HB & HD).
  apply (photon_means L pc coef rho temp lo hi N alpha Hr).
  - intros i Hi. split; [now apply HC|now apply HW].
  - exact HN.
  - intros i Hi. apply (HW i Hi).
  - exact HB.
  - exact HD.
Qed.

(** Neutrinos, the same: [dist] and [ddist] are the thermal distribution and its derivative. *)
Lemma C62_neutrinos_proof :
  forall (L : Libm) (coef : b64 -> b64 -> b64 -> RadiationType -> b64 -> result b64) (dist ddist : b64 -> RadiationType -> b64 -> result b64)
    (rho temp Ye : b64) (type : RadiationType) (lNuMin dl : b64) (N : Z) (alpha B D nu : nat -> b64),
  let O := B64_ops L in
  let n := Z.to_nat N in
  (forall i, nu i = @FromLog b64 O (@Oadd b64 O lNuMin (@Omul b64 O (@Oadd b64 O (@OofZ b64 O (Z.of_nat i)) (@Odec b64 O 5 (-1))) dl))) ->
  physical rho ->
  (forall i, (i < n)%nat -> coef rho temp Ye type (nu i) = Ok (alpha i) /\ dist temp type (nu i) = Ok (B i) /\ ddist temp type (nu i) = Ok (D i)) ->
  nu_regular n alpha B D nu dl ->
  exists a, for_int N (@nu_step b64 O coef dist ddist rho temp Ye type lNuMin dl) (@zero_sums b64 O) = Ok a /\
    nu_means_of n rho alpha B D nu dl (fst (@nu_means b64 O a)) (snd (@nu_means b64 O a)).
Proof.
  intros L coef dist ddist rho temp Ye type lo dl N alpha B D nu O n Hnu Hr HC (HN & Hd & HW & HB & HD).
  assert (E : forall (X : nat -> b64), rsum n (fun i => B2R (X i) * B2R (nu i) * B2R dl) = rsum n (fun i => V (X i) *
    V (@FromLog b64 O (@Oadd b64 O lo (@Omul b64 O (@Oadd b64 O (@OofZ b64 O (Z.of_nat i)) (@Odec b64 O 5 (-1))) dl))) * V dl)).
  { intros X. apply rsum_ext. intros i _. now rewrite Hnu. }
  unfold heavy in HB, HD. rewrite E in HB, HD.
  destruct (neutrino_means L coef dist ddist rho temp Ye type lo dl N alpha B D Hr) as (a & Ea & M1 & M2); try assumption.
  - intros i Hi. rewrite <- Hnu. split; [now apply HC|now apply HW].
  - intros i Hi. rewrite <- Hnu. split; now apply HC.
  - intros i Hi. rewrite <- Hnu. apply (HW i Hi).
  - exists a. split; [exact Ea|]. unfold arithmetic_mean, harmonic_mean, qB, qD in *. split.
    + unfold arithmetic_mean. rewrite E. erewrite rsum_ext; [exact M1|]. intros i _. cbv beta. now rewrite Hnu.
    + unfold harmonic_mean. rewrite E. erewrite (rsum_ext n (fun i => _ / _)); [exact M2|]. intros i _. cbv beta. now rewrite Hnu.
Qed.

(** ** The means lie between the smallest and the largest opacity *)
Lemma arithmetic_between n r k lo hi : (forall i, (i < n)%nat -> 0 <= r i /\ lo <= k i <= hi) -> heavy n r -> lo <= arithmetic_mean n r k <= hi.
Proof.
  intros H W. apply heavy_bp in W. pose proof (bpow_gt_0 radix2 (-500)). destruct (rsum_between n r k lo hi H) as [A B].
  unfold arithmetic_mean. split.
  - apply Rmult_le_reg_r with (rsum n r); [lra|]. unfold Rdiv. rewrite Rmult_assoc, Rinv_l, Rmult_1_r by lra. exact A.
  - apply Rmult_le_reg_r with (rsum n r); [lra|]. unfold Rdiv. rewrite Rmult_assoc, Rinv_l, Rmult_1_r by lra. exact B.
Qed.
Lemma harmonic_between n r k lo hi : 0 < lo -> (forall i, (i < n)%nat -> 0 <= r i /\ lo <= k i <= hi) -> heavy n r -> lo <= harmonic_mean n r k <= hi.
Proof.
  intros L0 H W. apply heavy_bp in W. pose proof (bpow_gt_0 radix2 (-500)) as P5.
  assert (Hh : 0 < hi).
  { destruct n as [|n]; [cbn [rsum] in W; lra|]. destruct (H O ltac:(lia)). lra. }
  destruct (rsum_between n r (fun i => / k i) (/ hi) (/ lo)) as [A B].
  { intros i Hi. destruct (H i Hi) as (A & B & C). split; [exact A|]. split; apply Rinv_le_contravar; lra. }
  assert (E : rsum n (fun i => r i / k i) = rsum n (fun i => / k i * r i)) by (apply rsum_ext; intros; unfold Rdiv; ring).
  unfold harmonic_mean. rewrite E. set (S := rsum n (fun i => / k i * r i)) in *.
  assert (SP : 0 < S). { apply Rlt_le_trans with (/ hi * rsum n r); [|exact A]. apply Rmult_lt_0_compat; [now apply Rinv_0_lt_compat|lra]. }
  split; apply Rmult_le_reg_r with S; try exact SP; unfold Rdiv; rewrite Rmult_assoc, Rinv_l, Rmult_1_r by lra.
  - apply Rmult_le_reg_l with (/ lo); [now apply Rinv_0_lt_compat|]. rewrite <- Rmult_assoc, Rinv_l, Rmult_1_l by lra. exact B.
  - apply Rmult_le_reg_l with (/ hi); [now apply Rinv_0_lt_compat|]. rewrite <- (Rmult_assoc _ hi), Rinv_l, Rmult_1_l by lra. exact A.
Qed.
Lemma within_between n x m lo hi : 0 < lo -> lo <= m <= hi -> 0 <= n -> n * / 2 ^ 53 <= 1 -> within n x m -> between n lo hi x.
Proof.
  intros L0 H Hn Hu [F E]. split; [exact F|]. rewrite (Rabs_pos_eq m) in E by lra. apply Rabs_le_inv in E.
  assert (U : 0 <= n * / 2 ^ 53) by (apply Rmult_le_pos; [exact Hn|left; apply Rinv_0_lt_compat, pow_lt; lra]).
  set (q := n * / 2 ^ 53) in *. clearbody q.
  assert (lo * (1 - q) <= m * (1 - q)) by (apply Rmult_le_compat_r; lra).
  assert (m * (1 + q) <= hi * (1 + q)) by (apply Rmult_le_compat_r; lra). lra.
Qed.
Lemma roundings_small n : INR n <= 500000000 -> 0 <= mean_roundings n /\ mean_roundings n * / 2 ^ 53 <= / 1000000.
Proof.
  intros H. pose proof (pos_INR n). unfold mean_roundings. split; [lra|]. apply Rle_trans with (1005000014 * / 2 ^ 53).
  - apply Rmult_le_compat_r; [left; apply Rinv_0_lt_compat, pow_lt; lra|lra].
  - simpl. lra.
Qed.

(** Whatever the weights: if every sampled opacity alpha / rho lies between two numbers, so do
    the means, up to the roundings. *)
Lemma C62_between_proof :
  forall n rho alpha B D d p r kmin kmax, 0 < kmin ->
  regular n alpha B D d -> means_of n rho alpha B D d p r ->
  (forall i, (i < n)%nat -> kmin <= B2R (alpha i) / B2R rho <= kmax) ->
  between (mean_roundings n) kmin kmax p /\ between (mean_roundings n) kmin kmax r.
Proof.
  intros n rho alpha B D d p r kmin kmax K0 (HN & HW & HB & HD) [M1 M2] HK.
  destruct (roundings_small n HN) as [Q0 Q1].
  assert (P : forall i, (i < n)%nat -> 0 <= B2R (B i) * B2R (d i) /\ 0 <= B2R (D i) * B2R (d i)).
  { intros i Hi. destruct (HW i Hi) as (_ & (_ & A1 & _) & (_ & A2 & _) & (_ & A3 & _)). split; apply Rmult_le_pos; assumption. }
  split.
  - apply (within_between _ _ _ _ _ K0 (arithmetic_between _ _ _ kmin kmax (fun i Hi => conj (proj1 (P i Hi)) (HK i Hi)) HB) Q0); [lra|exact M1].
  - apply (within_between _ _ _ _ _ K0 (harmonic_between _ _ _ kmin kmax K0 (fun i Hi => conj (proj2 (P i Hi)) (HK i Hi)) HD) Q0); [lra|exact M2].
Qed.

(** ** With the exact Planck function *)
Lemma one_weight L (HL : accurate_libm L) (a g dl nu : b64) b t : physical nu -> physical dl -> 0 <= t <= / 1000000 -> 0 <= b ->
  0 <= B2R a -> g = @Omul b64 (B64_ops L) nu dl -> Rabs (V a - b) <= t * b + bp (-599) ->
  upto 200 g /\ Rabs (V a * V g - V dl * (b * V nu)) <= (1001 / 1000 * t + 101 / 100 * u) * (V dl * (b * V nu)) + V dl * bp (-498).
Proof.
  intros Hn Hd Ht Hb Pa -> Ha. pose proof (near_in _ Hn) as Nn. pose proof (near_in _ Hd) as Nd.
  pose proof (n_mul L _ _ _ _ _ _ _ _ _ _ Nn Nd ltac:(lia) ltac:(lia) ltac:(rs)) as N. set (g := @Omul b64 (B64_ops L) nu dl) in *.
  destruct (near_pos _ _ _ _ _ Nn) as [Pn _]. destruct (near_pos _ _ _ _ _ Nd) as [Pd _]. destruct (near_pos _ _ _ _ _ N) as [Ph Pg].
  destruct (near_within _ _ _ _ _ (101 / 100) N ltac:(lra) ltac:(rs)) as [Fg E]. fold u in E. change (B2R g) with (V g) in E.
  rewrite (Rabs_pos_eq (V nu * V dl)) in E by lra.
  pose proof u_small as US. pose proof u_pos as U0. split.
  - split; [exact Fg|]. split; [exact (Rlt_le _ _ Pg)|].
    assert (Q : V g = rnd (V nu * V dl)).
    { apply (mul_V nu dl 200); [apply Hn|apply Hd|lia|lia|]. rewrite Rabs_pos_eq by lra.
      destruct N as (_ & _ & [_ R2] & _). exact R2. }
    change (B2R g) with (V g). rewrite Q, two_pow_bp. apply rnd_le_bpow; [lia|]. destruct N as (_ & _ & [_ R2] & _). exact R2.
  - set (h := V nu * V dl) in *. replace (V dl * (b * V nu)) with (b * h) by (unfold h; ring).
    apply Rabs_le_inv in E, Ha. pose proof (bpow_gt_0 radix2 (-599)) as P9. set (ep := bp (-599)) in *.
    assert (UH : 101 / 100 * u * h <= / 1000 * h) by (apply Rmult_le_compat_r; lra).
    assert (HE : 1001 / 1000 * h * ep <= V dl * bp (-498)).
    { assert (V nu <= bp 100) by apply Nn. apply Rle_trans with (2 * (bp 100 * V dl) * ep).
      - apply Rmult_le_compat_r; [lra|]. assert (h <= bp 100 * V dl) by (apply Rmult_le_compat_r; lra). lra.
      - unfold ep. right. change (-498)%Z with (1 + 100 + -599)%Z. rewrite !bpow_plus. change (bp 1) with 2. ring. }
    assert (D1 : Rabs ((V a - b) * V g) <= (t * b + ep) * (1001 / 1000 * h)).
    { rewrite Rabs_mult, (Rabs_pos_eq (V g)) by lra. apply Rmult_le_compat; [apply Rabs_pos|lra|apply Rabs_le; lra|lra]. }
    assert (D2 : Rabs (b * (V g - h)) <= b * (101 / 100 * u * h)).
    { rewrite Rabs_mult, (Rabs_pos_eq b) by lra. apply Rmult_le_compat_l; [lra|]. apply Rabs_le. lra. }
    replace (V a * V g - b * h) with ((V a - b) * V g + b * (V g - h)) by ring.
    apply Rle_trans with (1 := Rabs_triang _ _). lra.
Qed.
Lemma combine k x m M q : 0 <= k -> k * u <= / 1000000 -> 0 <= q <= / 1000 -> 0 < M -> within k x m -> Rabs (m - M) <= q * M ->
  Rabs (V x - M) <= (k * u + 1001 / 1000 * q) * M.
Proof.
  intros Hk Hu Hq HM [F E] D. fold u in E. change (B2R x) with (V x) in E. pose proof u_pos as U0. apply Rabs_le_inv in D.
  assert (K0 : 0 <= k * u) by (apply Rmult_le_pos; lra). assert (Q0 : 0 <= q * M) by (apply Rmult_le_pos; lra).
  assert (Pm : Rabs m <= M + q * M) by (apply Rabs_le; lra).
  assert (B : k * u * Rabs m <= k * u * M + / 1000 * (q * M)).
  { apply Rle_trans with (k * u * (M + q * M)); [apply Rmult_le_compat_l; lra|].
    assert (k * u * (q * M) <= / 1000 * (q * M)) by (apply Rmult_le_compat_r; lra). lra. }
  apply Rabs_le_inv in E. apply Rabs_le. lra.
Qed.

Lemma planck_core :
  forall (L : Libm) (coef : b64 -> b64 -> b64 -> result b64) (rho temp lo hi : b64) (N : Z) (alpha : nat -> b64) (X : R),
  accurate_libm L -> graceful_libm L ->
  let O := B64_ops L in
  let pc := @PhysicalConstantsCGS b64 O in
  let n := Z.to_nat N in
  let win := @sample_window b64 O pc temp lo hi in
  let nu := @sample_nu b64 O win N in
  let k := fun i => B2R (alpha i) / B2R rho in
  let B := fun i => planck_weight (B2R temp) (B2R (nu i)) in
  let D := fun i => rosseland_weight (B2R temp) (B2R (nu i)) in
  physical rho -> physical temp -> 1 <= B2R temp -> physical (@sample_dlnu b64 O win N) -> INR n <= 500000000 ->
  (forall i, (i < n)%nat -> coef rho temp (nu i) = Ok (alpha i) /\ physical (alpha i) /\ physical (nu i) /\
     h_cgs * B2R (nu i) / (k_cgs * B2R temp) <= X) ->
  / 2 ^ 100 <= rsum n B -> / 2 ^ 100 <= rsum n D ->
  regular n alpha (fun i => fst (@ThermalWeightsAtNu b64 O pc temp (nu i))) (fun i => snd (@ThermalWeightsAtNu b64 O pc temp (nu i)))
    (fun i => @Omul b64 O (nu i) (@sample_dlnu b64 O win N)) /\
  exists a b, @group_nums b64 O pc coef rho temp lo hi N = Ok a /\ @group_denoms b64 O pc temp lo hi N = Ok b /\
    within (group_roundings n X) (@planck_mean b64 O (fst a) (fst b)) (arithmetic_mean n B k) /\
    within (group_roundings n X) (@rosseland_mean b64 O (snd a) (snd b)) (harmonic_mean n D k).
Proof.
  intros L coef rho temp lo hi N alpha X HL HG O pc n win nu k B D Hr Ht H1 Hd HN HC HB HD.
  set (dl := @sample_dlnu b64 O win N) in *.
  set (wB := fun i => fst (@ThermalWeightsAtNu b64 O pc temp (nu i))). set (wD := fun i => snd (@ThermalWeightsAtNu b64 O pc temp (nu i))).
  set (d := fun i => @Omul b64 O (nu i) dl).
  set (X' := Rmin X 590). set (s := 1001 / 1000 * ((37 + 7 * X') * u) + 101 / 100 * u).
  pose proof u_small as US. pose proof u_pos as U0. pose proof (physical_V _ Hr) as Pr. pose proof (physical_V _ Hd) as Pd. pose proof (physical_V _ Ht) as Pt.
  assert (XN : (0 < n)%nat).
  { destruct n as [|m]; [|lia]. cbn [rsum] in HB. assert (0 < / 2 ^ 100) by (apply Rinv_0_lt_compat, pow_lt; lra). lra. }
  assert (XP : 0 <= X' <= 590).
  { destruct (HC 0%nat XN) as (_ & _ & P & XX). pose proof (C56.x_pos temp (nu 0%nat) Ht P). split; [apply Rmin_glb; lra|apply Rmin_r]. }
  assert (TP : 0 <= (37 + 7 * X') * u <= / 1000000). { split; [apply Rmult_le_pos; lra|]. apply Rle_trans with (5000 * u); [apply Rmult_le_compat_r; lra|lra]. }
  assert (DE : forall i, (i < n)%nat -> rosseland_weight (B2R temp) (B2R (nu i)) = dPlanck (V temp) (V (nu i)) * V (nu i)).
  { intros i Hi. destruct (HC i Hi) as (_ & _ & P & _). unfold rosseland_weight. f_equal. apply is_derive_unique.
    destruct c_pos as (A1 & A2 & A3). pose proof (physical_V _ P) as Pn.
    pose proof (Planck_dT_value h_cgs k_cgs c_cgs (V temp) (V (nu i)) A1 A2 A3 Pt Pn) as Z.
    rewrite <- (dPlanck_value _ _ _ Pt Pn Z). exact Z. }
  assert (S : forall i, (i < n)%nat ->
    (upto 400 (wB i) /\ upto 400 (wD i) /\ upto 200 (d i)) /\
    (0 <= B i /\ Rabs (V (wB i) * V (d i) - V dl * B i) <= s * (V dl * B i) + V dl * bp (-498)) /\
    (0 <= D i /\ Rabs (V (wD i) * V (d i) - V dl * D i) <= s * (V dl * D i) + V dl * bp (-498))).
  { intros i Hi. destruct (HC i Hi) as (_ & _ & Pn & XX).
    destruct (weights_ok L HL HG temp (nu i) Ht H1 Pn) as [[U1 E1] [U2 E2]]. fold (wB i) in U1, E1. fold (wD i) in U2, E2.
    pose proof (rT temp Ht H1) as RT. pose proof (rN (nu i) Pn) as RN.
    pose proof (low_pos (V temp) (V (nu i)) RN) as LP. pose proof (BB_low _ _ RT RN) as LB. pose proof (dB_low _ _ RT RN) as LD.
    assert (TT : tol temp (nu i) <= (37 + 7 * X') * u).
    { unfold tol. apply Rmult_le_compat_r; [lra|]. apply Rplus_le_compat_l, Rmult_le_compat_l; [lra|]. unfold X'.
      apply Rle_min_compat_r. exact XX. }
    assert (E1' : Rabs (V (wB i) - Planck_B h_cgs k_cgs c_cgs (V temp) (V (nu i))) <= (37 + 7 * X') * u * Planck_B h_cgs k_cgs c_cgs (V temp) (V (nu i)) + bp (-599)).
    { apply Rle_trans with (1 := E1). apply Rplus_le_compat_r, Rmult_le_compat_r; lra. }
    assert (E2' : Rabs (V (wD i) - dPlanck (V temp) (V (nu i))) <= (37 + 7 * X') * u * dPlanck (V temp) (V (nu i)) + bp (-599)).
    { apply Rle_trans with (1 := E2). apply Rplus_le_compat_r, Rmult_le_compat_r; lra. }
    assert (PBB : 0 <= BB (V temp) (V (nu i))) by lra. assert (PDD : 0 <= dPlanck (V temp) (V (nu i))) by lra.
    destruct (one_weight L HL (wB i) (d i) dl (nu i) _ _ Pn Hd TP PBB (proj1 (proj2 U1)) eq_refl E1') as [U3 W1].
    destruct (one_weight L HL (wD i) (d i) dl (nu i) _ _ Pn Hd TP PDD (proj1 (proj2 U2)) eq_refl E2') as [_ W2].
    pose proof (physical_V _ Pn) as Pn0.
    split; [split; [exact U1|split; [exact U2|exact U3]]|]. split; split.
    - unfold B, planck_weight. apply Rmult_le_pos; [|exact (Rlt_le _ _ Pn0)]. change (0 <= Planck_B h_cgs k_cgs c_cgs (V temp) (V (nu i))). lra.
    - exact W1.
    - unfold D. rewrite (DE i Hi). apply Rmult_le_pos; lra.
    - unfold D. rewrite (DE i Hi). exact W2. }
  assert (SP : 0 <= s <= / 2000) by (unfold s; lra).
  assert (BP : 0 < / 2 ^ 100) by (apply Rinv_0_lt_compat, pow_lt; lra).
  assert (I2 : / 2 ^ 100 = bp (-100)) by (rewrite two_pow_bp; symmetry; apply (bpow_opp radix2 100)).
  set (kmin := bp (-100) / V rho). set (kmax := bp 100 / V rho).
  assert (KP : 0 < kmin <= kmax).
  { unfold kmin, kmax. pose proof (bpow_gt_0 radix2 (-100)). split; [now apply Rdiv_lt_0_compat|].
    unfold Rdiv. apply Rmult_le_compat_r; [left; now apply Rinv_0_lt_compat|apply bpow_le; lia]. }
  assert (KR : forall i, (i < n)%nat -> kmin <= k i <= kmax).
  { intros i Hi. destruct (HC i Hi) as (_ & [_ [A1 A2]] & _). rewrite I2 in A1. rewrite two_pow_bp in A2. unfold kmin, kmax, k, V, Rdiv.
    split; apply Rmult_le_compat_r; try assumption; left; now apply Rinv_0_lt_compat. }
  assert (BIG : forall T, / 2 ^ 100 <= T -> INR n * bp (-498) * kmax <= u / 4 * (kmin * T)).
  { intros T HT. apply Rle_trans with (u / 4 * (kmin * / 2 ^ 100)); [|apply Rmult_le_compat_l; [lra|apply Rmult_le_compat_l; lra]].
    rewrite I2. unfold kmin, kmax. unfold Rdiv.
    replace (INR n * bp (-498) * (bp 100 * / V rho)) with (INR n * bp (-498) * bp 100 * / V rho) by ring.
    replace (u * / 4 * (bp (-100) * / V rho * bp (-100))) with (u * / 4 * bp (-100) * bp (-100) * / V rho) by ring.
    apply Rmult_le_compat_r; [left; now apply Rinv_0_lt_compat|].
    rewrite u_bpow. change (/ 4) with (bp (-2)). rewrite <- !bpow_plus.
    apply Rle_trans with (bp 29 * bp (-498) * bp 100); [|rewrite <- !bpow_plus; apply bpow_le; lia].
    apply Rmult_le_compat_r; [apply bpow_ge_0|]. apply Rmult_le_compat_r; [apply bpow_ge_0|]. change (bp 29) with 536870912. lra. }
  assert (HVY : forall (w : nat -> b64) (F : nat -> R), / 2 ^ 100 <= rsum n F ->
    (forall i, (i < n)%nat -> 0 <= F i /\ Rabs (V (w i) * V (d i) - V dl * F i) <= s * (V dl * F i) + V dl * bp (-498)) ->
    heavy n (fun i => B2R (w i) * B2R (d i))).
  { intros w F HF HW. unfold heavy.
    assert (P := rsum_perturb n (fun i => V (w i) * V (d i)) F (fun _ => 1) (V dl) s (bp (-498)) 1 1 Pd ltac:(lra) (bpow_ge_0 _ _) ltac:(lra)).
    assert (P' : Rabs (rsum n (fun i => 1 * (V (w i) * V (d i))) - V dl * rsum n (fun i => 1 * F i)) <= (s + u / 4) * (V dl * rsum n (fun i => 1 * F i))).
    { apply P.
      - intros i Hi. destruct (HW i Hi) as [A1 A2]. split; [exact A1|]. split; [lra|exact A2].
      - rewrite Rmult_1_r, Rmult_1_l. apply Rmult_le_reg_r with kmax; [lra|]. apply Rle_trans with (1 := BIG _ HF).
        replace (u / 4 * rsum n F * kmax) with (u / 4 * (kmax * rsum n F)) by ring. apply Rmult_le_compat_l; [lra|]. apply Rmult_le_compat_r; lra. }
    rewrite !rsum_scal in P'. rewrite !Rmult_1_l in P'. apply Rabs_le_inv in P'.
    assert (Q : bp (-100) * bp (-100) <= V dl * rsum n F).
    { destruct Hd as [_ [A1 _]]. rewrite I2 in A1, HF. apply Rmult_le_compat; try apply bpow_ge_0; assumption. }
    assert (Q2 : (s + u / 4) * (V dl * rsum n F) <= / 2 * (V dl * rsum n F)).
    { apply Rmult_le_compat_r; [apply Rmult_le_pos; lra|lra]. }
    rewrite <- bpow_plus in Q.
    assert (Q3 : / 2 ^ 500 <= / 2 * bp (-100 + -100)).
    { rewrite two_pow_bp, <- bpow_opp. change (/ 2) with (bp (-1)). rewrite <- bpow_plus. apply bpow_le. vm_compute. congruence. }
    change (/ 2 ^ 500 <= rsum n (fun i => V (w i) * V (d i))). lra. }
  assert (REG : regular n alpha wB wD d).
  { split; [exact HN|]. split; [|split].
    - intros i Hi. destruct (S i Hi) as [(A1 & A2 & A3) _]. split; [apply (HC i Hi)|]. split; [exact A1|]. split; [exact A2|exact A3].
    - apply (HVY wB B HB). intros i Hi. apply (S i Hi).
    - apply (HVY wD D HD). intros i Hi. apply (S i Hi). }
  split; [exact REG|].
  destruct (C62_photons_proof L pc coef rho temp lo hi N alpha Hr (fun i Hi => proj1 (HC i Hi)) REG) as (a & b & Ea & Eb & M1 & M2).
  exists a, b. split; [exact Ea|]. split; [exact Eb|].
  destruct (means_perturb n (fun i => V (wB i) * V (d i)) B k (V dl) s (bp (-498)) kmin kmax Pd SP (bpow_ge_0 _ _) KP ltac:(lra)) as (PA & _ & A0 & _).
  { intros i Hi. destruct (S i Hi) as (_ & [A1 A2] & _). split; [exact A1|]. split; [now apply KR|exact A2]. }
  { now apply BIG. }
  destruct (means_perturb n (fun i => V (wD i) * V (d i)) D k (V dl) s (bp (-498)) kmin kmax Pd SP (bpow_ge_0 _ _) KP ltac:(lra)) as (_ & PH & _ & H0).
  { intros i Hi. destruct (S i Hi) as (_ & _ & [A1 A2]). split; [exact A1|]. split; [now apply KR|exact A2]. }
  { now apply BIG. }
  destruct (roundings_small n HN) as [R0 R1]. fold u in R1.
  assert (FIN : (mean_roundings n * u + 1001 / 1000 * (201 / 100 * (s + u / 4))) <= group_roundings n X * u).
  { unfold group_roundings. fold X'. unfold s. assert (0 <= X' * u) by (apply Rmult_le_pos; lra). lra. }
  assert (SQ : 0 <= 201 / 100 * (s + u / 4) <= / 1000) by (unfold s; lra).
  assert (END : forall x m M, within (mean_roundings n) x m -> 0 < M -> Rabs (m - M) <= 201 / 100 * (s + u / 4) * M -> within (group_roundings n X) x M).
  { intros x m M W PM Q. split; [apply W|]. fold u. rewrite (Rabs_pos_eq M) by lra.
    apply Rle_trans with (1 := combine _ _ _ _ _ R0 R1 SQ PM W Q). apply Rmult_le_compat_r; lra. }
  split; [apply (END _ _ _ M1 A0 PA)|apply (END _ _ _ M2 H0 PH)].
Qed.

(** Photons in cgs units, with an accurate library: the means are those of the sampled
    opacities weighted with the exact Planck function and its exact derivative, up to two
    roundings per sample and 15 per unit of h nu / kT, wherever the step of the logarithm of
    the frequency is not tiny. *)
Lemma C62_planck_proof :
  forall (L : Libm) (coef : b64 -> b64 -> b64 -> result b64) (rho temp lo hi : b64) (N : Z) (alpha : nat -> b64) (X : R),
  accurate_libm L -> graceful_libm L ->
  let O := B64_ops L in
  let pc := @PhysicalConstantsCGS b64 O in
  let n := Z.to_nat N in
  let win := @sample_window b64 O pc temp lo hi in
  let nu := @sample_nu b64 O win N in
  let k := fun i => B2R (alpha i) / B2R rho in
  let B := fun i => planck_weight (B2R temp) (B2R (nu i)) in
  let D := fun i => rosseland_weight (B2R temp) (B2R (nu i)) in
  physical rho -> physical temp -> 1 <= B2R temp -> physical (@sample_dlnu b64 O win N) -> INR n <= 500000000 ->
  (forall i, (i < n)%nat -> coef rho temp (nu i) = Ok (alpha i) /\ physical (alpha i) /\ physical (nu i) /\
     h_cgs * B2R (nu i) / (k_cgs * B2R temp) <= X) ->
  / 2 ^ 100 <= rsum n B -> / 2 ^ 100 <= rsum n D ->
  exists a b, @group_nums b64 O pc coef rho temp lo hi N = Ok a /\ @group_denoms b64 O pc temp lo hi N = Ok b /\
    within (group_roundings n X) (@planck_mean b64 O (fst a) (fst b)) (arithmetic_mean n B k) /\
    within (group_roundings n X) (@rosseland_mean b64 O (snd a) (snd b)) (harmonic_mean n D k).
Proof.
  intros L coef rho temp lo hi N alpha X HL HG O pc n win nu k B D Hr Ht H1 Hd HN HC HB HD.
  exact (proj2 (planck_core L coef rho temp lo hi N alpha X HL HG Hr Ht H1 Hd HN HC HB HD)).
Qed.

(** ** A gray opacity and the tables *)

(** The means of a gray opacity are its opacity, up to the roundings. *)
Lemma C62_gray_proof :
  forall (L : Libm) (pc : PhysConst b64) (kappa rho temp lo hi : b64) (N : Z),
  let O := B64_ops L in
  let n := Z.to_nat N in
  let win := @sample_window b64 O pc temp lo hi in
  let nu := @sample_nu b64 O win N in
  let alpha := @Omul b64 O rho kappa in
  let B := fun i => fst (@ThermalWeightsAtNu b64 O pc temp (nu i)) in
  let D := fun i => snd (@ThermalWeightsAtNu b64 O pc temp (nu i)) in
  let d := fun i => @Omul b64 O (nu i) (@sample_dlnu b64 O win N) in
  physical rho -> physical kappa -> regular n (fun _ => alpha) B D d ->
  exists a b, @group_nums b64 O pc (ph_Absorption (@GrayOpacity b64 O pc kappa)) rho temp lo hi N = Ok a /\
    @group_denoms b64 O pc temp lo hi N = Ok b /\
    within (mean_roundings n + 2) (@planck_mean b64 O (fst a) (fst b)) (B2R kappa) /\
    within (mean_roundings n + 2) (@rosseland_mean b64 O (snd a) (snd b)) (B2R kappa).
Proof.
  intros L pc kappa rho temp lo hi N O n win nu alpha B D d Hr Hk REG.
  destruct (C62_photons_proof L pc (ph_Absorption (@GrayOpacity b64 O pc kappa)) rho temp lo hi N (fun _ => alpha) Hr
    (fun i Hi => eq_refl) REG) as (a & b & Ea & Eb & M1 & M2).
  exists a, b. split; [exact Ea|]. split; [exact Eb|].
  pose proof (physical_V _ Hr) as Pr. pose proof (physical_V _ Hk) as Pk.
  pose proof (n_mul L _ _ _ _ _ _ _ _ _ _ (near_in _ Hr) (near_in _ Hk) ltac:(lia) ltac:(lia) ltac:(rs)) as NA. fold alpha in NA.
  destruct (near_within _ _ _ _ _ (101 / 100) NA ltac:(lra) ltac:(rs)) as [_ EA]. fold u in EA.
  change (Rabs (V alpha - V rho * V kappa) <= 101 / 100 * u * Rabs (V rho * V kappa)) in EA.
  destruct REG as (HN & HW & HB & HD). destruct (roundings_small n HN) as [R0 R1]. fold u in R1.
  pose proof u_small as US. pose proof u_pos as U0.
  set (k0 := V alpha / V rho).
  assert (Q : Rabs (k0 - V kappa) <= 101 / 100 * u * V kappa).
  { rewrite (Rabs_pos_eq (V rho * V kappa)) in EA by (apply Rmult_le_pos; lra).
    apply Rmult_le_reg_r with (V rho); [exact Pr|]. rewrite <- (Rabs_pos_eq (V rho)) at 1 by lra. rewrite <- Rabs_mult.
    replace ((k0 - V kappa) * V rho) with (V alpha - V rho * V kappa) by (unfold k0; field; lra). lra. }
  assert (P : forall i, (i < n)%nat -> 0 <= B2R (B i) * B2R (d i) /\ 0 <= B2R (D i) * B2R (d i)).
  { intros i Hi. destruct (HW i Hi) as (_ & (_ & A1 & _) & (_ & A2 & _) & (_ & A3 & _)). split; apply Rmult_le_pos; assumption. }
  assert (K0 : 0 < k0) by (apply Rdiv_lt_0_compat; [apply (near_pos _ _ _ _ _ NA)|exact Pr]).
  assert (KK : k0 <= k0 <= k0) by lra.
  pose proof (arithmetic_between _ _ (fun _ => k0) k0 k0 (fun i Hi => conj (proj1 (P i Hi)) KK) HB) as A.
  pose proof (harmonic_between _ _ (fun _ => k0) k0 k0 K0 (fun i Hi => conj (proj2 (P i Hi)) KK) HD) as H.
  assert (END : forall x m, within (mean_roundings n) x m -> k0 <= m <= k0 -> within (mean_roundings n + 2) x (B2R kappa)).
  { intros x m W E. split; [apply W|]. fold u. fold (V kappa) (V x). rewrite (Rabs_pos_eq (V kappa)) by lra. replace m with k0 in W by lra.
    apply Rle_trans with (1 := combine _ _ _ _ (101 / 100 * u) R0 R1 ltac:(lra) Pk W Q). apply Rmult_le_compat_r; lra. }
  split; [apply (END _ _ M1 A)|apply (END _ _ M2 H)].
Qed.

Lemma cell_entries {T} (dp dr : list T) i v : get2 (dp, dr) i = Some v ->
  nth_error dp (Z.to_nat i) = Some (fst v) /\ nth_error dr (Z.to_nat i) = Some (snd v).
Proof.
  unfold get2. destruct (i <? 0)%Z; [discriminate|]. cbn [fst snd].
  destruct (nth_error dp _) as [x|]; [|discriminate]. destruct (nth_error dr _) as [y|]; [|discriminate]. intros E. injection E as <-. now split.
Qed.

(** Every cell of a photon table: it stores the logarithms of two doubles, and these are the
    means of the samples of its group at its density and temperature. *)
Lemma C62_table_proof :
  forall (L : Libm) (pc : PhysConst b64) (dbg : bool) (opc : RuntimePC b64) (coef : b64 -> b64 -> b64 -> result b64)
    (lr0 lr1 lt0 lt1 : b64) (NRho NT ng N : Z) (gb : list b64) (m : @MeanTable b64),
  let O := B64_ops L in
  let n := Z.to_nat N in
  @MeanImpl b64 O pc dbg opc coef lr0 lr1 NRho lt0 lt1 NT gb ng N = Ok m ->
  exists gT gRho, @mk_grid b64 O lt0 lt1 NT = Ok gT /\ @mk_grid b64 O lr0 lr1 NRho = Ok gRho /\
  forall a b c, (Z.of_nat a < NRho)%Z -> (Z.of_nat b < NT)%Z -> (Z.of_nat c < ng)%Z ->
  let at_cell := Z.to_nat ((Z.of_nat a * NT + Z.of_nat b) * ng + Z.of_nat c) in
  let rho := @FromLog b64 O (@g_x b64 O gRho (Z.of_nat a)) in
  let temp := @FromLog b64 O (@g_x b64 O gT (Z.of_nat b)) in
  exists lo hi p r, nth_error gb c = Some lo /\ nth_error gb (S c) = Some hi /\
    nth_error (db_data (mt_lPlanck m)) at_cell = Some (@ToLog b64 O p) /\
    nth_error (db_data (mt_lRosseland m)) at_cell = Some (@ToLog b64 O r) /\
    let win := @sample_window b64 O pc temp lo hi in
    let nu := @sample_nu b64 O win N in
    let B := fun i => fst (@ThermalWeightsAtNu b64 O pc temp (nu i)) in
    let D := fun i => snd (@ThermalWeightsAtNu b64 O pc temp (nu i)) in
    let d := fun i => @Omul b64 O (nu i) (@sample_dlnu b64 O win N) in
    forall alpha, physical rho -> (forall i, (i < n)%nat -> coef rho temp (nu i) = Ok (alpha i)) -> regular n alpha B D d ->
      means_of n rho alpha B D d p r.
Proof.
  intros L pc dbg opc coef lr0 lr1 lt0 lt1 NRho NT ng N gb m O n E.
  destruct (MeanImpl_cells pc coef dbg opc lr0 lr1 NRho lt0 lt1 NT gb ng N m E) as (gT & gRho & dp & dr & GT & GR & _ & _ & EP & ER & _ & _ & _ & HC).
  exists gT, gRho. split; [exact GT|]. split; [exact GR|]. intros a b c Ha Hb Hc at_cell rho temp.
  destruct (HC a b c (conj Ha (conj Hb Hc))) as (v & Gv & lo & hi & nn & dd & Elo & Ehi & En & Ed & Ev & _).
  apply cell_entries in Gv. destruct Gv as [G1 G2].
  exists lo, hi, (@planck_mean b64 O (fst nn) (fst dd)), (@rosseland_mean b64 O (snd nn) (snd dd)).
  assert (LD : forall k x, (0 <= k)%Z -> GroupBoundAt gb k = Ok x -> nth_error gb (Z.to_nat k) = Some x).
  { intros k x Hk. unfold GroupBoundAt. destruct (Z.ltb_spec k 0); [lia|]. unfold load. destruct (nth_error gb _); [|discriminate].
    intros EE. injection EE as ->. reflexivity. }
  split; [rewrite <- (Nat2Z.id c); apply LD; [lia|exact Elo]|].
  split; [replace (S c) with (Z.to_nat (Z.of_nat c + 1)) by lia; apply LD; [lia|exact Ehi]|].
  rewrite EP, ER. cbn [db_data]. subst v. cbn [fst snd] in G1, G2. split; [exact G1|]. split; [exact G2|].
  intros alpha Hr HA REG.
  destruct (C62_photons_proof L pc coef rho temp lo hi N alpha Hr HA REG) as (a' & b' & Ea & Eb & M).
  pose proof (eq_trans (eq_sym Ea) En) as Qa. pose proof (eq_trans (eq_sym Eb) Ed) as Qb. injection Qa as ->. injection Qb as ->. exact M.
Qed.

(** Every cell of a neutrino table, the same. *)
Lemma C62_nu_table_proof :
  forall (L : Libm) (pc : PhysConst b64) (coef : b64 -> b64 -> b64 -> RadiationType -> b64 -> result b64)
    (dist ddist : b64 -> RadiationType -> b64 -> result b64) (inside : bool) (lr0 lr1 lt0 lt1 y0 y1 : b64) (NRho NT NYe N : Z)
    (range : option (b64 * b64)) (m : @NuMeanTable b64),
  let O := B64_ops L in
  let n := Z.to_nat N in
  (inside = false \/ 0 < N)%Z ->
  @nu_impl b64 O pc coef dist ddist inside lr0 lr1 NRho lt0 lt1 NT y0 y1 NYe range N = Ok m ->
  exists gYe gT gRho l0 l1, @mk_grid b64 O y0 y1 NYe = Ok gYe /\ @mk_grid b64 O lt0 lt1 NT = Ok gT /\ @mk_grid b64 O lr0 lr1 NRho = Ok gRho /\
  (forall r, range = Some r -> (l0, l1) = r) /\
  forall a b y k, (Z.of_nat a < NRho)%Z -> (Z.of_nat b < NT)%Z -> (Z.of_nat y < NYe)%Z -> (Z.of_nat k < 3)%Z ->
  let at_cell := Z.to_nat (((Z.of_nat a * NT + Z.of_nat b) * NYe + Z.of_nat y) * 3 + Z.of_nat k) in
  let rho := @FromLog b64 O (@g_x b64 O gRho (Z.of_nat a)) in
  let temp := @FromLog b64 O (@g_x b64 O gT (Z.of_nat b)) in
  let Ye := @g_x b64 O gYe (Z.of_nat y) in
  exists type p r, Idx2RadType (Z.of_nat k) = Ok type /\
    nth_error (db_data (nm_lPlanck m)) at_cell = Some (@ToLog b64 O p) /\
    nth_error (db_data (nm_lRosseland m)) at_cell = Some (@ToLog b64 O r) /\
    let dl := @Odiv b64 O (@Osub b64 O l1 l0) (@OofZ b64 O N) in
    let nu := fun i => @FromLog b64 O (@Oadd b64 O l0 (@Omul b64 O (@Oadd b64 O (@OofZ b64 O (Z.of_nat i)) (@Odec b64 O 5 (-1))) dl)) in
    forall alpha B D, physical rho ->
      (forall i, (i < n)%nat -> coef rho temp Ye type (nu i) = Ok (alpha i) /\ dist temp type (nu i) = Ok (B i) /\ ddist temp type (nu i) = Ok (D i)) ->
      nu_regular n alpha B D nu dl -> nu_means_of n rho alpha B D nu dl p r.
Proof.
  intros L pc coef dist ddist inside lr0 lr1 lt0 lt1 y0 y1 NRho NT NYe N range m O n HI E.
  destruct (nu_impl_cells pc coef dist ddist inside lr0 lr1 NRho lt0 lt1 NT y0 y1 NYe range N m HI E)
    as (gYe & gT & gRho & dp & dr & GY & GT & GR & EP & ER & _ & _ & HC).
  set (rg := match range with Some r => r | None => auto_range pc lt0 lt1 end) in HC.
  exists gYe, gT, gRho, (fst rg), (snd rg). split; [exact GY|]. split; [exact GT|]. split; [exact GR|].
  split; [intros r ->; symmetry; apply surjective_pairing|].
  intros a b y k Ha Hb Hy Hk at_cell rho temp Ye.
  destruct (HC a b y k (conj Ha (conj Hb (conj Hy Hk)))) as (v & Gv & type & sm & Et & Es & Ev & _).
  apply cell_entries in Gv. destruct Gv as [G1 G2].
  exists type, (fst (@nu_means b64 O sm)), (snd (@nu_means b64 O sm)). split; [exact Et|].
  rewrite EP, ER. cbn [db_data]. subst v. cbn [fst snd] in G1, G2. split; [exact G1|]. split; [exact G2|].
  intros alpha B D Hr HA REG.
  destruct (C62_neutrinos_proof L coef dist ddist rho temp Ye type (fst rg) _ N alpha B D _ (fun i => eq_refl) Hr HA REG) as (sm' & Es' & M).
  pose proof (eq_trans (eq_sym Es') Es) as Q. injection Q as ->. exact M.
Qed.

(** ** Narrow groups *)

(** Bounds may be so close that their logarithms are the same double. The constructor accepts
    them, the step is zero, and both means are zero whatever the opacity: with a library that
    is accurate, whose log10 is correctly rounded, at 32768 K and about 1.1e15 Hz. *)
Lemma C62_narrow_refuted_proof :
  exists L lo hi temp, accurate_libm L /\ graceful_libm L /\ nearest_log10 L /\
  let O := B64_ops L in
  let pc := @PhysicalConstantsCGS b64 O in
  physical lo /\ physical hi /\ physical temp /\ B2R lo < B2R hi /\ @ValidateGroupBounds b64 O [lo; hi] 1 = Ok tt /\
  @sample_window b64 O pc temp lo hi = (lo, hi) /\
  forall (coef : b64 -> b64 -> b64 -> result b64) (rho : b64) (N : Z), physical rho -> (1 <= N <= 500000000)%Z ->
    (forall nu, physical nu -> exists al, coef rho temp nu = Ok al /\ physical al) ->
    exists a b, @group_nums b64 O pc coef rho temp lo hi N = Ok a /\ @group_denoms b64 O pc temp lo hi N = Ok b /\
      let p := @planck_mean b64 O (fst a) (fst b) in
      let r := @rosseland_mean b64 O (snd a) (snd b) in
      is_finite p = true /\ B2R p = 0 /\ is_finite r = true /\ B2R r = 0.
Proof.
  set (t := b64_ldexp 32768 0).
  assert (Ht : fin t /\ V t = 32768).
  { destruct (V_lit 32768 0) as [E F]; [reflexivity|lia|lia|]. split; [exact F|]. unfold t. rewrite E. change (bp 0) with 1. lra. }
  destruct Ht as [Ft Et]. destruct x_values as ((F0 & E0) & (F1 & E1) & (F2 & E2)).
  assert (PH : forall x : b64, fin x -> 1 <= V x <= 10 ^ 16 -> physical x).
  { intros x F [A B]. split; [exact F|]. change (B2R x) with (V x). split.
    - apply Rle_trans with 1; [|exact A]. rewrite <- Rinv_1. apply Rinv_le_contravar; [lra|]. apply pow_R1_Rle. lra.
    - apply Rle_trans with (2 ^ 60); [apply Rle_trans with (1 := B); simpl; lra|apply Rle_pow; [lra|lia]]. }
  assert (P0 : physical x0) by (apply PH; [exact F0|rewrite E0; simpl; lra]).
  assert (P1 : physical x1) by (apply PH; [exact F1|rewrite E1; simpl; lra]).
  assert (P2 : physical x2) by (apply PH; [exact F2|rewrite E2; simpl; lra]).
  assert (Pt : physical t) by (apply PH; [exact Ft|rewrite Et; simpl; lra]).
  set (O := B64_ops nearest_libm).
  assert (LG : forall x, @Oadd b64 O (@Oabs b64 O x) (@Omul b64 O (@OofZ b64 O 10) (@Onum_min b64 O)) = x -> @ToLog b64 O x = nearest (log10 (V x))).
  { intros x E. unfold ToLog. rewrite E. reflexivity. }
  assert (T0 : @ToLog b64 O x0 = nearest (log10 (V x0))) by (apply LG, B2SF_inj; vm_compute; reflexivity).
  assert (T1 : @ToLog b64 O x1 = nearest (log10 (V x1))) by (apply LG, B2SF_inj; vm_compute; reflexivity).
  assert (T2 : @ToLog b64 O x2 = nearest (log10 (V x2))) by (apply LG, B2SF_inj; vm_compute; reflexivity).
  assert (LR : forall x, fin x -> 10 ^ 15 <= V x < 10 ^ 16 -> fin (nearest (log10 (V x))) /\ 15 <= V (nearest (log10 (V x))) <= 16).
  { intros x F R. assert (P : 0 < V x). { pose proof (pow_lt 10 15 ltac:(lra)). lra. }
    destruct (nearest_V _ (log10_size x F P)) as [A B]. split; [exact A|]. rewrite B. pose proof (log_range _ R) as G.
    assert (V15 : rnd 15 = 15). { destruct (V_lit 15 0) as [E _]; [reflexivity|lia|lia|]. change (bp 0) with 1 in E. rewrite Rmult_1_r in E. rewrite <- E. apply rnd_id, V_fmt. }
    assert (V16 : rnd 16 = 16) by (apply (rnd_bpow 4); lia).
    rewrite <- V15, <- V16. split; apply rnd_mono; rewrite ?V15, ?V16; lra. }
  assert (W01 : @sample_window b64 O (@PhysicalConstantsCGS b64 O) t x0 x1 = (x0, x1)).
  { unfold sample_window. cbv zeta. match goal with |- (if ?c then _ else _) = _ => assert (C : c = false) by (vm_compute; reflexivity); rewrite C; clear C end.
    f_equal; apply B2SF_inj; vm_compute; reflexivity. }
  assert (W12 : @sample_window b64 O (@PhysicalConstantsCGS b64 O) t x1 x2 = (x1, x2)).
  { unfold sample_window. cbv zeta. match goal with |- (if ?c then _ else _) = _ => assert (C : c = false) by (vm_compute; reflexivity); rewrite C; clear C end.
    f_equal; apply B2SF_inj; vm_compute; reflexivity. }
  assert (END : forall lo hi, physical lo -> physical hi -> B2R lo < B2R hi -> @ValidateGroupBounds b64 O [lo; hi] 1 = Ok tt ->
    @sample_window b64 O (@PhysicalConstantsCGS b64 O) t lo hi = (lo, hi) -> @ToLog b64 O lo = @ToLog b64 O hi ->
    fin (@ToLog b64 O lo) -> 15 <= V (@ToLog b64 O lo) <= 16 ->
    exists L lo hi temp, accurate_libm L /\ graceful_libm L /\ nearest_log10 L /\
      let O := B64_ops L in
      let pc := @PhysicalConstantsCGS b64 O in
      physical lo /\ physical hi /\ physical temp /\ B2R lo < B2R hi /\ @ValidateGroupBounds b64 O [lo; hi] 1 = Ok tt /\
      @sample_window b64 O pc temp lo hi = (lo, hi) /\
      forall (coef : b64 -> b64 -> b64 -> result b64) (rho : b64) (N : Z), physical rho -> (1 <= N <= 500000000)%Z ->
        (forall nu, physical nu -> exists al, coef rho temp nu = Ok al /\ physical al) ->
        exists a b, @group_nums b64 O pc coef rho temp lo hi N = Ok a /\ @group_denoms b64 O pc temp lo hi N = Ok b /\
          let p := @planck_mean b64 O (fst a) (fst b) in
          let r := @rosseland_mean b64 O (snd a) (snd b) in
          is_finite p = true /\ B2R p = 0 /\ is_finite r = true /\ B2R r = 0).
  { intros lo hi Pl Ph H1 HV HW HE HF HR. exists nearest_libm, lo, hi, t.
    split; [apply nearest_accurate|]. split; [apply nearest_graceful|]. split; [apply nearest_log|]. cbv zeta.
    repeat (split; [assumption|]). intros coef rho N Hr HN HC.
    destruct (zero_means coef rho t lo hi (@ToLog b64 O lo) N HN Hr Pt ltac:(fold (V t); rewrite Et; lra) HC HW eq_refl (eq_sym HE) HF HR)
      as (a & b & Ea & Eb & [A1 A2] & [B1 B2]).
    exists a, b. repeat split; assumption. }
  destruct same_log as [E|E].
  - apply (END x0 x1 P0 P1).
    + fold (V x0) (V x1). rewrite E0, E1. lra.
    + vm_compute. reflexivity.
    + exact W01.
    + now rewrite T0, T1.
    + rewrite T0. apply LR; [exact F0|rewrite E0; simpl; lra].
    + rewrite T0. apply LR; [exact F0|rewrite E0; simpl; lra].
  - apply (END x1 x2 P1 P2).
    + fold (V x1) (V x2). rewrite E1, E2. lra.
    + vm_compute. reflexivity.
    + exact W12.
    + now rewrite T1, T2.
    + rewrite T1. apply LR; [exact F1|rewrite E1; simpl; lra].
    + rewrite T1. apply LR; [exact F1|rewrite E1; simpl; lra].
Qed.

(** ** The hypotheses can be met *)
Definition ex_lo : b64 := b64_ldexp 762939453125 17.
Definition ex_hi : b64 := b64_ldexp 19073486328125 19.
Lemma ex_bounds : (fin ex_lo /\ V ex_lo = 10 ^ 17) /\ (fin ex_hi /\ V ex_hi = 10 ^ 19).
Proof.
  destruct (V_lit 762939453125 17) as [E1 F1]; [reflexivity|lia|lia|]. destruct (V_lit 19073486328125 19) as [E2 F2]; [reflexivity|lia|lia|].
  unfold ex_lo, ex_hi. rewrite E1, E2. change (bp 17) with 131072. change (bp 19) with 524288. repeat split; try assumption; simpl; lra.
Qed.
Lemma nearest_id (x : b64) : fin x -> 0 < V x <= bp 1000 -> nearest (V x) = x.
Proof.
  intros F P. destruct (nearest_V (V x)) as [A B]; [rewrite Rabs_pos_eq; lra|]. rewrite rnd_id in B by apply V_fmt.
  apply B2R_inj; [| |exact B]; apply is_finite_strict_B2R; fold (V x); [fold (V (nearest (V x))); rewrite B|]; lra.
Qed.
Lemma log10_pow n : log10 (10 ^ n) = INR n.
Proof. pose proof ln10 as L. unfold log10. rewrite ln10_pow. field. lra. Qed.
Section Example.
  Local Notation O := (B64_ops nearest_libm).
  Local Notation pc := (@PhysicalConstantsCGS b64 O).
  Local Notation win := (@sample_window b64 O pc ex_temp ex_lo ex_hi).
  Local Notation nu := (@sample_nu b64 O win 2).
  Lemma ex_win : win = (ex_lo, ex_hi).
  Proof.
    unfold sample_window. cbv zeta. match goal with |- (if ?c then _ else _) = _ => assert (C : c = false) by (vm_compute; reflexivity); rewrite C; clear C end.
    f_equal; apply B2SF_inj; vm_compute; reflexivity.
  Qed.
  Lemma ex_logs : @ToLog b64 O ex_lo = b64_of_Z 17 /\ @ToLog b64 O ex_hi = b64_of_Z 19.
  Proof.
    destruct ex_bounds as ((F1 & E1) & (F2 & E2)).
    assert (LG : forall x, @Oadd b64 O (@Oabs b64 O x) (@Omul b64 O (@OofZ b64 O 10) (@Onum_min b64 O)) = x -> @ToLog b64 O x = nearest (log10 (V x))).
    { intros x E. unfold ToLog. rewrite E. reflexivity. }
    assert (Q : forall k, (0 < k < 100)%Z -> nearest (IZR k) = b64_of_Z k).
    { intros k Hk. destruct (V_lit k 0) as [E F]; [rewrite Z.abs_eq by lia; apply Z.lt_trans with 100%Z; [lia|reflexivity]|lia|lia|].
      change (bp 0) with 1 in E. rewrite Rmult_1_r in E. rewrite <- E. apply (nearest_id (b64_ldexp k 0)); [exact F|]. rewrite E.
      split; [apply (IZR_lt 0); lia|]. apply Rle_trans with (bp 7); [|apply bpow_le; lia]. change (bp 7) with 128. apply IZR_le. lia. }
    split.
    - rewrite LG by (apply B2SF_inj; vm_compute; reflexivity). rewrite E1, log10_pow. rewrite <- Q by lia. f_equal. simpl. lra.
    - rewrite LG by (apply B2SF_inj; vm_compute; reflexivity). rewrite E2, log10_pow. rewrite <- Q by lia. f_equal. simpl. lra.
  Qed.
  Lemma ex_dl : @sample_dlnu b64 O win 2 = b64_of_Z 1.
  Proof.
    destruct ex_logs as [E1 E2]. rewrite ex_win. unfold sample_dlnu. cbn [fst snd]. rewrite E1, E2. apply B2SF_inj. vm_compute. reflexivity.
  Qed.
  Lemma ex_nus i : (i < 2)%nat -> physical (nu i) /\ 10 ^ (17 + i) <= B2R (nu i) <= 10 ^ (18 + i).
  Proof.
    intros Hi. destruct ex_logs as [E1 _]. unfold sample_nu. rewrite ex_dl, ex_win. cbn [fst]. rewrite E1.
    assert (Q : exists l, @Oadd b64 O (b64_of_Z 17) (@Omul b64 O (@Oadd b64 O (@OofZ b64 O (Z.of_nat i)) (@Odec b64 O 5 (-1))) (b64_of_Z 1)) = l /\
      V l = INR (17 + i) + 1 / 2).
    { destruct i as [|[|i]]; [| |lia].
      - exists (b64_ldexp 35 (-1)). split; [apply B2SF_inj; vm_compute; reflexivity|].
        destruct (V_lit 35 (-1)) as [E _]; [reflexivity|lia|lia|]. rewrite E. change (bp (-1)) with (/ 2). simpl. lra.
      - exists (b64_ldexp 37 (-1)). split; [apply B2SF_inj; vm_compute; reflexivity|].
        destruct (V_lit 37 (-1)) as [E _]; [reflexivity|lia|lia|]. rewrite E. change (bp (-1)) with (/ 2). simpl. lra. }
    destruct Q as (l & -> & El). unfold FromLog.
    change (physical (nearest (Rpower (B2R (b64_of_Z 10)) (V l))) /\ 10 ^ (17 + i) <= B2R (nearest (Rpower (B2R (b64_of_Z 10)) (V l))) <= 10 ^ (18 + i)).
    assert (T : B2R (b64_of_Z 10) = 10). { destruct (V_lit 10 0) as [E' _]; [reflexivity|lia|lia|]. change (bp 0) with 1 in E'. rewrite Rmult_1_r in E'. exact E'. }
    rewrite T, El.
    assert (P : 10 ^ (17 + i) <= Rpower 10 (INR (17 + i) + 1 / 2) <= 10 ^ (18 + i)).
    { rewrite <- !Rpower_pow by lra. replace (INR (18 + i)) with (INR (17 + i) + 1) by (change (18 + i)%nat with (S (17 + i)); rewrite S_INR; reflexivity).
      split; apply Rle_Rpower; lra. }
    assert (F : rnd (10 ^ (17 + i)) = 10 ^ (17 + i) /\ rnd (10 ^ (18 + i)) = 10 ^ (18 + i)).
    { destruct ex_bounds as ((_ & A1) & (_ & A2)). destruct ex_values as (_ & (_ & A3) & _). fold (V ex_nu) in A3.
      destruct i as [|[|i]]; [| |lia]; cbn [Nat.add]; rewrite <- ?A1, <- ?A2, <- ?A3; split; apply rnd_id, V_fmt. }
    assert (Z : 1 <= 10 ^ (17 + i) /\ 10 ^ (18 + i) <= bp 100).
    { split; [apply pow_R1_Rle; lra|]. apply Rle_trans with (10 ^ 19); [apply Rle_pow; [lra|lia]|].
      apply Rle_trans with (bp 70); [change (bp 70) with 1180591620717411303424; simpl; lra|apply bpow_le; lia]. }
    destruct (nearest_V (Rpower 10 (INR (17 + i) + 1 / 2))) as [A B].
    { rewrite Rabs_pos_eq by lra. apply Rle_trans with (bp 100); [lra|apply bpow_le; lia]. }
    set (y := nearest _) in *. fold (V y) in *. clearbody y. destruct F as [F1 F2].
    assert (G : 10 ^ (17 + i) <= V y <= 10 ^ (18 + i)) by (rewrite B, <- F1, <- F2; split; apply rnd_mono; rewrite ?F1, ?F2; apply P).
    split; [|exact G]. split; [exact A|]. fold (V y). rewrite two_pow_bp. change (Z.of_nat 100) with 100%Z.
    split; [|lra]. apply Rle_trans with 1; [|lra]. rewrite <- bpow_opp. change 1 with (bp 0). apply bpow_le. lia.
  Qed.
End Example.

Lemma weight_below t nu : 1 <= t <= bp 100 -> bp 56 <= nu <= bp 100 -> xr t nu <= 40 ->
  / 2 ^ 100 <= BB t nu * nu /\ / 2 ^ 100 <= dPlanck t nu * nu.
Proof.
  intros Ht Hn Hx. assert (Hn' : bp (-100) <= nu <= bp 100). { split; [apply Rle_trans with (bp 56); [apply bpow_le; lia|lra]|lra]. }
  pose proof (BB_low t nu Ht Hn') as A. pose proof (dB_low t nu Ht Hn') as B. pose proof (low_prefix nu 56 (proj1 Hn)) as P.
  pose proof (exp_neg_low40 _ Hx) as E.
  assert (Lw : bp (-74) <= low t nu).
  { unfold low. change (-74)%Z with ((2 * 56 - 122) + (-64))%Z. rewrite bpow_plus. apply Rmult_le_compat; try apply bpow_ge_0; assumption. }
  assert (Q : / 2 ^ 100 <= bp (-74) * bp 56). { rewrite two_pow_bp, <- bpow_opp, <- bpow_plus. apply bpow_le. vm_compute. congruence. }
  pose proof (bpow_ge_0 radix2 (-74)). pose proof (bpow_ge_0 radix2 56).
  split; (apply Rle_trans with (1 := Q)); apply Rmult_le_compat; lra.
Qed.
Lemma ex_planck : let O := B64_ops nearest_libm in
  let pc := @PhysicalConstantsCGS b64 O in
  let win := @sample_window b64 O pc ex_temp ex_lo ex_hi in
  let nu := @sample_nu b64 O win 2 in
  (forall i, (i < 2)%nat -> physical (nu i) /\ h_cgs * B2R (nu i) / (k_cgs * B2R ex_temp) <= 48) /\
  / 2 ^ 100 <= rsum 2 (fun i => planck_weight (B2R ex_temp) (B2R (nu i))) /\
  / 2 ^ 100 <= rsum 2 (fun i => rosseland_weight (B2R ex_temp) (B2R (nu i))).
Proof.
  intros O pc win nu. destruct ex_physical as (PT & PN & P1). destruct ex_values as ((FT & ET) & _). fold (V ex_temp) in ET.
  assert (H1 : 1 <= B2R ex_temp) by (fold (V ex_temp); rewrite ET; simpl; lra).
  pose proof (ex_nus 0 ltac:(lia)) as (N0 & R0). pose proof (ex_nus 1 ltac:(lia)) as (N1 & R1). cbn [Nat.add] in R0, R1.
  change (10 ^ 17 <= V (nu 0%nat) <= 10 ^ 18) in R0. change (10 ^ 18 <= V (nu 1%nat) <= 10 ^ 19) in R1.
  change (physical (nu 0%nat)) in N0. change (physical (nu 1%nat)) in N1.
  destruct consts_pos as (A & B & C). assert (KP : 0 < k_cgs * 10 ^ 7) by (apply Rmult_lt_0_compat; [exact B|apply pow_lt; lra]).
  assert (XX : forall v m, 0 <= v <= m -> h_cgs * v / (k_cgs * B2R ex_temp) <= h_cgs * m / (k_cgs * 10 ^ 7)).
  { intros v m Hv. fold (V ex_temp). rewrite ET. unfold Rdiv. apply Rmult_le_compat_r; [left; now apply Rinv_0_lt_compat|]. apply Rmult_le_compat_l; lra. }
  assert (X18 : h_cgs * 10 ^ 18 / (k_cgs * 10 ^ 7) <= 5).
  { apply Rmult_le_reg_r with (k_cgs * 10 ^ 7); [exact KP|]. replace (h_cgs * 10 ^ 18 / (k_cgs * 10 ^ 7) * (k_cgs * 10 ^ 7)) with (h_cgs * 10 ^ 18) by (field; lra).
    unfold h_cgs, k_cgs. cbn [pow]. lra. }
  assert (X19 : h_cgs * 10 ^ 19 / (k_cgs * 10 ^ 7) <= 48).
  { apply Rmult_le_reg_r with (k_cgs * 10 ^ 7); [exact KP|]. replace (h_cgs * 10 ^ 19 / (k_cgs * 10 ^ 7) * (k_cgs * 10 ^ 7)) with (h_cgs * 10 ^ 19) by (field; lra).
    unfold h_cgs, k_cgs. cbn [pow]. lra. }
  assert (T0 : 0 <= V (nu 0%nat)) by (apply Rle_trans with (10 ^ 17); [apply pow_le; lra|apply R0]).
  assert (T1 : 0 <= V (nu 1%nat)) by (apply Rle_trans with (10 ^ 18); [apply pow_le; lra|apply R1]).
  pose proof (rT ex_temp PT H1) as RT. pose proof (rN _ N0) as RN0. pose proof (rN _ N1) as RN1.
  assert (B56 : bp 56 <= V (nu 0%nat)) by (apply Rle_trans with (10 ^ 17); [change (bp 56) with 72057594037927936; simpl; lra|apply R0]).
  assert (XR : xr (V ex_temp) (V (nu 0%nat)) <= 40).
  { apply Rle_trans with (2 := proj2 (conj I (Rle_trans _ _ 40 X18 ltac:(lra)))). apply XX. lra. }
  destruct (weight_below (V ex_temp) (V (nu 0%nat)) RT (conj B56 (proj2 RN0)) XR) as [Q1 Q2].
  pose proof (low_pos (V ex_temp) (V (nu 1%nat)) RN1) as LP. pose proof (BB_low _ _ RT RN1) as LB. pose proof (dB_low _ _ RT RN1) as LD.
  assert (DE : forall i, physical (nu i) -> rosseland_weight (B2R ex_temp) (B2R (nu i)) = dPlanck (V ex_temp) (V (nu i)) * V (nu i)).
  { intros i P. unfold rosseland_weight. f_equal. apply is_derive_unique. pose proof (physical_V _ P) as Pn. pose proof (physical_V _ PT) as Pt.
    pose proof (Planck_dT_value h_cgs k_cgs c_cgs (V ex_temp) (V (nu i)) A B C Pt Pn) as Z.
    rewrite <- (dPlanck_value _ _ _ Pt Pn Z). exact Z. }
  split; [|split].
  - intros i Hi. destruct i as [|[|i]]; [| |lia].
    + split; [exact N0|]. apply Rle_trans with (1 := XX (V (nu 0%nat)) (10 ^ 18) ltac:(lra)). lra.
    + split; [exact N1|]. apply Rle_trans with (1 := XX (V (nu 1%nat)) (10 ^ 19) ltac:(lra)). lra.
  - cbn [rsum]. assert (0 <= planck_weight (B2R ex_temp) (B2R (nu 1%nat))) by (unfold planck_weight; fold (V ex_temp) (V (nu 1%nat)); apply Rmult_le_pos; lra).
    unfold planck_weight in *. fold (V ex_temp) (V (nu 0%nat)) in *. lra.
  - cbn [rsum]. rewrite (DE _ N0), (DE _ N1). assert (0 <= dPlanck (V ex_temp) (V (nu 1%nat)) * V (nu 1%nat)) by (apply Rmult_le_pos; lra). lra.
Qed.

(** Two samples between 10^17 and 10^19 Hz at 10^7 K, with an opacity proportional to the
    frequency: the hypotheses of C62_planck hold. *)
Lemma C62_planck_example :
  exists L coef rho temp lo hi N alpha X, accurate_libm L /\ graceful_libm L /\
  let O := B64_ops L in
  let pc := @PhysicalConstantsCGS b64 O in
  let n := Z.to_nat N in
  let win := @sample_window b64 O pc temp lo hi in
  let nu := @sample_nu b64 O win N in
  let B := fun i => planck_weight (B2R temp) (B2R (nu i)) in
  let D := fun i => rosseland_weight (B2R temp) (B2R (nu i)) in
  n = 2%nat /\ physical rho /\ physical temp /\ 1 <= B2R temp /\ physical (@sample_dlnu b64 O win N) /\ INR n <= 500000000 /\
  (forall i, (i < n)%nat -> coef rho temp (nu i) = Ok (alpha i) /\ physical (alpha i) /\ physical (nu i) /\
     h_cgs * B2R (nu i) / (k_cgs * B2R temp) <= X) /\
  / 2 ^ 100 <= rsum n B /\ / 2 ^ 100 <= rsum n D.
Proof.
  exists nearest_libm, (fun _ _ v => Ok v), ex_one, ex_temp, ex_lo, ex_hi, 2%Z,
    (fun i => @sample_nu b64 (B64_ops nearest_libm) (@sample_window b64 (B64_ops nearest_libm) (@PhysicalConstantsCGS b64 (B64_ops nearest_libm)) ex_temp ex_lo ex_hi) 2 i), 48.
  split; [apply nearest_accurate|]. split; [apply nearest_graceful|]. cbv zeta. change (Z.to_nat 2) with 2%nat.
  destruct ex_physical as (PT & PN & P1). destruct ex_values as ((FT & ET) & _). destruct ex_planck as (A & B & D).
  split; [reflexivity|]. split; [exact P1|]. split; [exact PT|]. split; [rewrite ET; simpl; lra|].
  split; [rewrite ex_dl; exact P1|]. split; [simpl; lra|]. split; [|split; [exact B|exact D]].
  intros i Hi. destruct (A i Hi) as [A1 A2]. repeat split; try assumption; apply A1.
Qed.

(** There the samples are regular, and at density 1 a gray opacity 1 has regular samples too:
    the hypotheses of C62_photons, C62_between and C62_gray hold. *)
Lemma C62_photons_example :
  exists L coef rho temp lo hi N alpha kappa,
  let O := B64_ops L in
  let pc := @PhysicalConstantsCGS b64 O in
  let n := Z.to_nat N in
  let win := @sample_window b64 O pc temp lo hi in
  let nu := @sample_nu b64 O win N in
  let B := fun i => fst (@ThermalWeightsAtNu b64 O pc temp (nu i)) in
  let D := fun i => snd (@ThermalWeightsAtNu b64 O pc temp (nu i)) in
  let d := fun i => @Omul b64 O (nu i) (@sample_dlnu b64 O win N) in
  n = 2%nat /\ physical rho /\ (forall i, (i < n)%nat -> coef rho temp (nu i) = Ok (alpha i)) /\ regular n alpha B D d /\
  (forall i, (i < n)%nat -> 10 ^ 17 <= B2R (alpha i) / B2R rho <= 10 ^ 19) /\
  physical kappa /\ regular n (fun _ => @Omul b64 O rho kappa) B D d.
Proof.
  destruct ex_physical as (PT & PN & P1). destruct ex_values as ((FT & ET) & _ & (F1 & E1)). destruct ex_planck as (A & B & D).
  exists nearest_libm, (fun _ _ v => Ok v), ex_one, ex_temp, ex_lo, ex_hi, 2%Z,
    (fun i => @sample_nu b64 (B64_ops nearest_libm) (@sample_window b64 (B64_ops nearest_libm) (@PhysicalConstantsCGS b64 (B64_ops nearest_libm)) ex_temp ex_lo ex_hi) 2 i), ex_one.
  cbv zeta. change (Z.to_nat 2) with 2%nat.
  assert (H1 : 1 <= B2R ex_temp) by (rewrite ET; simpl; lra).
  assert (HD : physical (@sample_dlnu b64 (B64_ops nearest_libm) (@sample_window b64 (B64_ops nearest_libm) (@PhysicalConstantsCGS b64 (B64_ops nearest_libm)) ex_temp ex_lo ex_hi) 2))
    by (rewrite ex_dl; exact P1).
  assert (PM : @Omul b64 (B64_ops nearest_libm) ex_one ex_one = ex_one) by (apply B2SF_inj; vm_compute; reflexivity).
  split; [reflexivity|]. split; [exact P1|]. split; [reflexivity|]. split; [|split; [|split]].
  - refine (proj1 (planck_core nearest_libm (fun _ _ v => Ok v) ex_one ex_temp ex_lo ex_hi 2 _ 48 nearest_accurate nearest_graceful P1 PT H1 HD _ _ B D)).
    + simpl. lra.
    + intros i Hi. destruct (A i Hi) as [A1 A2]. repeat split; try assumption; apply A1.
  - intros i Hi. rewrite E1. unfold Rdiv. rewrite Rinv_1, Rmult_1_r. destruct (ex_nus i Hi) as [_ R].
    assert (10 ^ 17 <= 10 ^ (17 + i)) by (apply Rle_pow; [lra|lia]). assert (10 ^ (18 + i) <= 10 ^ 19) by (apply Rle_pow; [lra|lia]).
    split; [apply Rle_trans with (10 ^ (17 + i))|apply Rle_trans with (10 ^ (18 + i))]; first [assumption|apply R].
  - exact P1.
  - rewrite PM. refine (proj1 (planck_core nearest_libm (fun _ _ _ => Ok ex_one) ex_one ex_temp ex_lo ex_hi 2 _ 48 nearest_accurate nearest_graceful P1 PT H1 HD _ _ B D)).
    + simpl. lra.
    + intros i Hi. destruct (A i Hi) as [A1 A2]. repeat split; try assumption; first [apply A1|apply P1].
Qed.

(** *** Tables, with a toy library in which everything computes *)
Definition toy_libm : Libm := {|
  lm_exp := fun x => ex_one; lm_expm1 := fun x => x; lm_log := fun x => x; lm_log10 := fun x => x; lm_logf := fun x => x;
  lm_pow := fun x y => y; lm_cos := fun x => x |}.
Definition inside_b (a b : Z) (x : b64) : bool := is_finite x && Bleb (b64_ldexp 1 a) x && Bleb x (b64_ldexp 1 b).
Lemma inside_ok a b x : (-1000 <= a <= 900)%Z -> (-1000 <= b <= 900)%Z -> inside_b a b x = true -> fin x /\ bp a <= V x <= bp b.
Proof.
  intros Ha Hb H. apply andb_prop in H. destruct H as [H H3]. apply andb_prop in H. destruct H as [H1 H2].
  destruct (V_lit 1 a) as [E1 F1]; [reflexivity|lia|lia|]. destruct (V_lit 1 b) as [E2 F2]; [reflexivity|lia|lia|].
  rewrite Rmult_1_l in E1, E2. split; [exact H1|].
  rewrite Bleb_correct in H2, H3 by assumption. fold (V x) (V (b64_ldexp 1 a)) (V (b64_ldexp 1 b)) in *. rewrite E1 in H2. rewrite E2 in H3.
  split; [destruct (Rle_bool_spec (bp a) (V x)); [assumption|discriminate H2]|destruct (Rle_bool_spec (V x) (bp b)); [assumption|discriminate H3]].
Qed.
Lemma inside_physical x : inside_b (-100) 100 x = true -> physical x.
Proof.
  intros H. apply inside_ok in H; [|lia|lia]. destruct H as [F H]. split; [exact F|]. rewrite two_pow_bp, <- bpow_opp. exact H.
Qed.
Lemma inside_upto k x a : inside_b a (Z.of_nat k) x = true -> (-1000 <= a <= 900)%Z -> (k <= 900)%nat -> upto k x.
Proof.
  intros H Ha Hk. apply inside_ok in H; [|lia|lia]. destruct H as [F H]. split; [exact F|]. fold (V x). rewrite two_pow_bp.
  pose proof (bpow_ge_0 radix2 a). lra.
Qed.
Lemma heavy2 (B d : nat -> b64) : inside_b (-100) 400 (B 0%nat) = true -> inside_b (-100) 400 (d 0%nat) = true ->
  inside_b (-100) 400 (B 1%nat) = true -> inside_b (-100) 400 (d 1%nat) = true -> heavy 2 (fun i => B2R (B i) * B2R (d i)).
Proof.
  intros H1 H2 H3 H4. apply inside_ok in H1, H2, H3, H4; try lia. destruct H1 as [_ H1], H2 as [_ H2], H3 as [_ H3], H4 as [_ H4].
  unfold heavy. cbn [rsum]. fold (V (B 0%nat)) (V (d 0%nat)) (V (B 1%nat)) (V (d 1%nat)). pose proof (bpow_ge_0 radix2 (-100)).
  assert (0 <= V (B 1%nat) * V (d 1%nat)) by (apply Rmult_le_pos; lra).
  assert (bp (-100) * bp (-100) <= V (B 0%nat) * V (d 0%nat)) by (apply Rmult_le_compat; lra).
  assert (/ 2 ^ 500 <= bp (-100) * bp (-100)) by (rewrite two_pow_bp, <- bpow_opp, <- bpow_plus; apply bpow_le; vm_compute; congruence). lra.
Qed.
Definition is_ok {A} (r : result A) : bool := match r with Ok _ => true | _ => false end.
Lemma is_ok_ex {A} (r : result A) : is_ok r = true -> exists m, r = Ok m.
Proof. destruct r as [m| |]; intros H; [now exists m|discriminate H|discriminate H]. Qed.
Lemma grid_values L (lo hi : b64) (N : Z) g : @mk_grid b64 (B64_ops L) lo hi N = Ok g -> Bltb lo hi && (0 <? N)%Z = true ->
  g = {| g_min := lo; g_max := hi; g_dx := @Odiv b64 (B64_ops L) (@Osub b64 (B64_ops L) hi lo) (@OofZ b64 (B64_ops L) (N - 1));
         g_idx := @Odiv b64 (B64_ops L) (@OofZ b64 (B64_ops L) 1) (@Odiv b64 (B64_ops L) (@Osub b64 (B64_ops L) hi lo) (@OofZ b64 (B64_ops L) (N - 1))); g_N := N |}.
Proof. unfold mk_grid. change (@Oltb b64 (B64_ops L) lo hi) with (Bltb lo hi). intros E H. rewrite H in E. now injection E as <-. Qed.

(** A table of two densities, two temperatures and one group from 10^17 to 10^19 Hz can be
    built, and the samples of its first cell are regular: C62_table. *)
Lemma C62_table_example :
  exists L pc opc coef lr0 lr1 lt0 lt1 gb m,
  let O := B64_ops L in
  @MeanImpl b64 O pc false opc coef lr0 lr1 2 lt0 lt1 2 gb 1 2 = Ok m /\
  forall gT gRho, @mk_grid b64 O lt0 lt1 2 = Ok gT -> @mk_grid b64 O lr0 lr1 2 = Ok gRho ->
  let rho := @FromLog b64 O (@g_x b64 O gRho 0) in
  let temp := @FromLog b64 O (@g_x b64 O gT 0) in
  exists lo hi, gb = [lo; hi] /\
    let win := @sample_window b64 O pc temp lo hi in
    let nu := @sample_nu b64 O win 2 in
    let B := fun i => fst (@ThermalWeightsAtNu b64 O pc temp (nu i)) in
    let D := fun i => snd (@ThermalWeightsAtNu b64 O pc temp (nu i)) in
    let d := fun i => @Omul b64 O (nu i) (@sample_dlnu b64 O win 2) in
    exists alpha, physical rho /\ (forall i, (i < 2)%nat -> coef rho temp (nu i) = Ok (alpha i)) /\ regular 2 alpha B D d.
Proof.
  set (O := B64_ops toy_libm). set (pc := @PhysicalConstantsCGS b64 O).
  set (lr1 := b64_of_Z 2). set (lt1 := b64_of_Z 20000000).
  assert (X : exists m, @MeanImpl b64 O pc false (@RuntimePC_of b64 O pc) (fun _ _ v => Ok v) ex_one lr1 2 ex_temp lt1 2 [ex_lo; ex_hi] 1 2 = Ok m).
  { apply is_ok_ex. vm_compute. reflexivity. }
  destruct X as [m Em]. exists toy_libm, pc, (@RuntimePC_of b64 O pc), (fun _ _ v => Ok v), ex_one, lr1, ex_temp, lt1, [ex_lo; ex_hi], m.
  cbv zeta. split; [exact Em|]. clear Em m. intros gT gRho ET ER.
  apply grid_values in ET, ER; [|vm_compute; reflexivity|vm_compute; reflexivity]. subst gT gRho.
  exists ex_lo, ex_hi. split; [reflexivity|]. fold O.
  match goal with |- exists al, physical ?r /\ (forall i, _ -> Ok (@sample_nu _ _ ?w 2 i) = _) /\ _ => exists (fun i => @sample_nu b64 O w 2 i) end.
  split; [apply inside_physical; vm_compute; reflexivity|]. split; [reflexivity|].
  split; [simpl; lra|]. split.
  - intros i Hi. destruct i as [|[|i]]; [| |lia]; (split; [apply inside_physical; vm_compute; reflexivity|]);
      (split; [apply inside_upto with (-100)%Z; [vm_compute; reflexivity|lia|lia]|]);
      (split; [apply inside_upto with (-100)%Z; [vm_compute; reflexivity|lia|lia]|]);
      (apply inside_upto with (-100)%Z; [vm_compute; reflexivity|lia|lia]).
  - split; apply heavy2; vm_compute; reflexivity.
Qed.

(** A neutrino table of two densities, two temperatures and two electron fractions, with
    constant distributions and an opacity equal to the frequency: C62_neutrinos, C62_nu_table. *)
Lemma C62_nu_table_example :
  exists L pc coef dist ddist lr0 lr1 lt0 lt1 y0 y1 l0 l1 m,
  let O := B64_ops L in
  @nu_impl b64 O pc coef dist ddist false lr0 lr1 2 lt0 lt1 2 y0 y1 2 (Some (l0, l1)) 2 = Ok m /\
  forall gT gRho gYe type, @mk_grid b64 O lt0 lt1 2 = Ok gT -> @mk_grid b64 O lr0 lr1 2 = Ok gRho -> @mk_grid b64 O y0 y1 2 = Ok gYe ->
  let rho := @FromLog b64 O (@g_x b64 O gRho 0) in
  let temp := @FromLog b64 O (@g_x b64 O gT 0) in
  let Ye := @g_x b64 O gYe 0 in
  let dl := @Odiv b64 O (@Osub b64 O l1 l0) (@OofZ b64 O 2) in
  let nu := fun i => @FromLog b64 O (@Oadd b64 O l0 (@Omul b64 O (@Oadd b64 O (@OofZ b64 O (Z.of_nat i)) (@Odec b64 O 5 (-1))) dl)) in
  exists alpha B D, physical rho /\
    (forall i, (i < 2)%nat -> coef rho temp Ye type (nu i) = Ok (alpha i) /\ dist temp type (nu i) = Ok (B i) /\ ddist temp type (nu i) = Ok (D i)) /\
    nu_regular 2 alpha B D nu dl.
Proof.
  set (O := B64_ops toy_libm). set (pc := @PhysicalConstantsCGS b64 O).
  set (lr1 := b64_of_Z 2). set (lt1 := b64_of_Z 20000000). set (ye := b64_dec 5 (-1)).
  set (cf := fun (_ _ _ : b64) (_ : RadiationType) (v : b64) => Ok v). set (ds := fun (_ : b64) (_ : RadiationType) (_ : b64) => Ok ex_one).
  assert (X : exists m, @nu_impl b64 O pc cf ds ds false ex_one lr1 2 ex_temp lt1 2 ye ex_one 2 (Some (ex_one, lr1)) 2 = Ok m).
  { apply is_ok_ex. vm_compute. reflexivity. }
  destruct X as [m Em]. exists toy_libm, pc, cf, ds, ds, ex_one, lr1, ex_temp, lt1, ye, ex_one, ex_one, lr1, m.
  cbv zeta. split; [exact Em|]. clear Em m. intros gT gRho gYe type ET ER EY.
  apply grid_values in ET, ER, EY; [|vm_compute; reflexivity|vm_compute; reflexivity|vm_compute; reflexivity]. subst gT gRho gYe.
  eexists _, (fun _ => ex_one), (fun _ => ex_one). split; [apply inside_physical; vm_compute; reflexivity|].
  split; [intros i Hi; split; [reflexivity|split; reflexivity]|].
  assert (W : heavy 2 (fun i => B2R ex_one * B2R (@FromLog b64 O (@Oadd b64 O ex_one (@Omul b64 O (@Oadd b64 O (@OofZ b64 O (Z.of_nat i)) (@Odec b64 O 5 (-1)))
    (@Odiv b64 O (@Osub b64 O lr1 ex_one) (@OofZ b64 O 2))))) * B2R (@Odiv b64 O (@Osub b64 O lr1 ex_one) (@OofZ b64 O 2)))).
  { destruct ex_values as (_ & _ & (_ & E1)). rewrite E1. unfold heavy. erewrite rsum_ext; [|intros i _; rewrite Rmult_1_l; reflexivity].
    apply (heavy2 (fun i => @FromLog b64 O (@Oadd b64 O ex_one (@Omul b64 O (@Oadd b64 O (@OofZ b64 O (Z.of_nat i)) (@Odec b64 O 5 (-1)))
      (@Odiv b64 O (@Osub b64 O lr1 ex_one) (@OofZ b64 O 2))))) (fun _ => @Odiv b64 O (@Osub b64 O lr1 ex_one) (@OofZ b64 O 2))); vm_compute; reflexivity. }
  split; [simpl; lra|]. split; [apply inside_upto with (-100)%Z; [vm_compute; reflexivity|lia|lia]|]. split; [|split; exact W].
  intros i Hi. destruct i as [|[|i]]; [| |lia]; (split; [apply inside_physical; vm_compute; reflexivity|]);
      (split; [apply inside_upto with (-100)%Z; [vm_compute; reflexivity|lia|lia]|]);
      (split; [apply inside_upto with (-100)%Z; [vm_compute; reflexivity|lia|lia]|]);
      (apply inside_upto with (-100)%Z; [vm_compute; reflexivity|lia|lia]).
Qed.
