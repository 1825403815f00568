(** C34. The Wien-tail weights are the exact ones to better than 1e-34. *)
From Coq Require Import Reals ZArith List Lia Lra Bool.
From Coquelicot Require Import Coquelicot.
From Verif Require Import Base.Outcome Base.Ops Inst.ER Inst.ERTac Model.Constants Model.ThermalPhotons Model.MeanUtils
  Spec.Physics Spec.Opacities Spec.Means Inst.RConsts Proofs.BoseIntegral Proofs.PlanckFacts Proofs.MeanExact.
Open Scope R_scope.

Lemma frac_lt p q r s : (0 < q)%Z -> (0 < s)%Z -> (p * s < r * q)%Z -> IZR p / IZR q < IZR r / IZR s.
Proof.
  intros Hq Hs H. apply IZR_lt in Hq, Hs, H. rewrite !mult_IZR in H.
  apply Rmult_lt_reg_r with (IZR q * IZR s); [now apply Rmult_lt_0_compat|].
  replace (IZR p / IZR q * (IZR q * IZR s)) with (IZR p * IZR s) by (field; lra).
  replace (IZR r / IZR s * (IZR q * IZR s)) with (IZR r * IZR q) by (field; lra). exact H.
Qed.
Lemma frac_pow p q n : 0 < IZR q -> (IZR p / IZR q) ^ n = IZR (p ^ Z.of_nat n) / IZR (q ^ Z.of_nat n).
Proof.
  intros H. rewrite <- !pow_IZR. unfold Rdiv. rewrite Rpow_mult_distr. f_equal.
  induction n as [|n IH]; cbn; [now rewrite Rinv_1|]. rewrite IH. field. pose proof (pow_lt _ n H). split; lra.
Qed.

Lemma exp_1_lower : 27 / 10 < exp 1.
Proof.
  assert (H : exp 1 = exp (/ 128) ^ 128).
  { rewrite exp_pow. f_equal. replace (INR 128) with 128 by (rewrite INR_IZR_INZ; reflexivity). lra. }
  rewrite H. apply Rlt_le_trans with ((129 / 128) ^ 128).
  - rewrite frac_pow by lra. apply frac_lt; vm_compute; reflexivity.
  - apply pow_incr. split; [lra|]. pose proof (exp_ineq1_le (/ 128)). lra.
Qed.

(** e^80 > 2 10^34 *)
Lemma exp_80_lower : 2 * 10 ^ 34 < exp 80.
Proof.
  replace 80 with (INR 80 * 1) by (replace (INR 80) with 80 by (rewrite INR_IZR_INZ; reflexivity); lra). rewrite <- exp_pow.
  apply Rlt_le_trans with ((27 / 10) ^ 80).
  - rewrite frac_pow by lra. rewrite pow_IZR, <- mult_IZR. rewrite <- (Rdiv_1 (IZR _)).
    apply frac_lt; vm_compute; reflexivity.
  - apply pow_incr. split; [lra|]. apply Rlt_le, exp_1_lower.
Qed.

(** From h nu = 80 kT on the two weights are positive and differ from the Planck spectrum
    and from its temperature derivative by less than one part in 10^34. *)
Lemma C34_weights_proof :
  forall pc : PhysConst R, positive_hkc pc ->
  forall T nu : R, 0 < T -> 0 < nu -> 80 <= pc_h pc * nu / (pc_kb pc * T) ->
  let exact := fun t : R => Planck_B (pc_h pc) (pc_kb pc) (pc_c pc) t nu in
  exists B dB : R,
    ThermalWeightsAtNu (finpc pc) (Fin T) (Fin nu) = (Fin B, Fin dB) /\ 0 < B /\ 0 < dB /\
    Rabs (B - exact T) < / 10 ^ 34 * exact T /\
    Rabs (dB - Derive exact T) < / 10 ^ 34 * Derive exact T.
Proof.
  intros pc (Hh & Hk & Hc) T nu HT Hn Hx exact.
  exists (weight_B (pc_h pc) (pc_kb pc) (pc_c pc) T nu), (weight_dB (pc_h pc) (pc_kb pc) (pc_c pc) T nu).
  split; [now apply ThermalWeights_fin|]. split; [now apply weight_B_pos|]. split; [now apply weight_dB_pos|].
  assert (E80 : 2 * 10 ^ 34 < exp (pc_h pc * nu / (pc_kb pc * T))).
  { apply Rlt_le_trans with (exp 80); [apply exp_80_lower|].
    destruct Hx as [Hx|Hx]; [now apply Rlt_le, exp_increasing|right; now rewrite Hx]. }
  unfold exact. rewrite Derive_Planck_eq by assumption. unfold weight_B, weight_dB, Planck_B.
  destruct (Rlt_dec _ 80); [lra|]. rewrite exp_Ropp.
  set (E := exp (pc_h pc * nu / (pc_kb pc * T))) in *.
  assert (P10 : 0 < 10 ^ 34) by (apply pow_lt; lra).
  assert (HE : 1 < E) by (assert (1 < 10 ^ 34) by (apply Rlt_pow_R1; [lra|lia]); lra).
  assert (I10 : / E < / 10 ^ 34 / 2).
  { replace (/ 10 ^ 34 / 2) with (/ (2 * 10 ^ 34)) by (field; lra). apply Rinv_lt_contravar; [|exact E80]. nra. }
  clearbody E. clear E80 n exact. set (e := / 10 ^ 34) in *. clearbody e.
  assert (PE : 0 < / E) by (apply Rinv_0_lt_compat; lra).
  split.
  - set (A := 2 * pc_h pc * nu ^ 3 / pc_c pc ^ 2). assert (PA : 0 < A) by (unfold A; pos). clearbody A.
    replace (A * / E - A / (E - 1)) with (- (A / (E - 1) * / E)) by (field; lra).
    assert (PQ : 0 < A / (E - 1)) by (apply Rdiv_lt_0_compat; lra).
    rewrite Rabs_Ropp, Rabs_pos_eq by (apply Rlt_le, Rmult_lt_0_compat; lra).
    rewrite Rmult_comm. apply Rmult_lt_compat_r; lra.
  - set (A := 2 * pc_h pc ^ 2 * nu ^ 4 / (T ^ 2 * pc_c pc ^ 2 * pc_kb pc)).
    assert (PA : 0 < A) by (unfold A; pos). clearbody A.
    set (Q := A * (E / (E - 1) ^ 2)).
    assert (PQ : 0 < Q) by (unfold Q; assert (0 < E - 1) by lra; pos).
    replace (A * / E - Q) with (- (Q * (2 * / E - / E * / E))) by (unfold Q; field; lra).
    assert (0 < 2 * / E - / E * / E < e).
    { assert (/ E < 1) by (rewrite <- Rinv_1; apply Rinv_lt_contravar; lra). nra. }
    rewrite Rabs_Ropp, Rabs_pos_eq by (apply Rlt_le, Rmult_lt_0_compat; lra).
    rewrite Rmult_comm. apply Rmult_lt_compat_r; lra.
Qed.

(** At 100 kT / h in CGS units the Wien form is used. *)
Lemma C34_weights_example :
  positive_hkc cgsR /\ 0 < 1 /\ 0 < 100 * pc_kb cgsR / pc_h cgsR /\
  80 <= pc_h cgsR * (100 * pc_kb cgsR / pc_h cgsR) / (pc_kb cgsR * 1).
Proof.
  destruct cgs_hkc as (Hh & Hk & Hc). split; [exact (conj Hh (conj Hk Hc))|]. split; [lra|]. split; [pos|].
  replace (pc_h cgsR * (100 * pc_kb cgsR / pc_h cgsR) / (pc_kb cgsR * 1)) with 100 by (field; lra). lra.
Qed.

(** Below h nu = 80 kT the weights are the Planck spectrum and its temperature derivative
    themselves. *)
Lemma C34_below_proof :
  forall pc : PhysConst R, positive_hkc pc ->
  forall T nu : R, 0 < T -> 0 < nu -> pc_h pc * nu / (pc_kb pc * T) < 80 ->
  let exact := fun t : R => Planck_B (pc_h pc) (pc_kb pc) (pc_c pc) t nu in
  ThermalWeightsAtNu (finpc pc) (Fin T) (Fin nu) = (Fin (exact T), Fin (Derive exact T)).
Proof.
  intros pc (Hh & Hk & Hc) T nu HT Hn Hx exact. rewrite ThermalWeights_fin by assumption.
  unfold weight_B, weight_dB. destruct (Rlt_dec _ 80); [reflexivity|lra].
Qed.
