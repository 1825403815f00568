(** Facts about single precision and about ln 10. *)
From Coquelicot Require Import Coquelicot.
From Coq Require Import Reals ZArith Lra Lia Bool.
From Flocq Require Import Core IEEE754.BinarySingleNaN Relative.
From Verif Require Import Base.Ops Inst.B64 Spec.SinglePrecision Proofs.B64Facts.
Open Scope R_scope.

Notation sexp := (FLT_exp (-149) 24).
Definition rnd32 (x : R) : R := round radix2 sexp ZnearestE x.
#[global] Instance sexp_valid : Valid_exp sexp.
Proof. apply FLT_exp_valid. reflexivity. Qed.

(** ** Conversions *)
Lemma to_float_V x : is_finite x = true -> Rabs (rnd32 (V x)) < bpow radix2 128 ->
  B2R (to_float x) = rnd32 (V x) /\ is_finite (to_float x) = true.
Proof.
  destruct x as [s|s| |s m e Hb]; cbn [is_finite]; try discriminate; intros _ H; unfold to_float.
  - split; [|reflexivity]. unfold V. cbn. unfold rnd32. now rewrite round_0 by auto with typeclass_instances.
  - pose proof (binary_normalize_correct 24 128 _ _ mode_NE (cond_Zopp s (Zpos m)) e s) as C. cbv zeta in C.
    unfold V in H. cbn [B2R] in H.
    rewrite Rlt_bool_true in C by exact H. destruct C as (C1 & C2 & _). split; [exact C1|exact C2].
Qed.

Lemma to_float_big x : is_finite x = true -> bpow radix2 128 <= rnd32 (V x) ->
  to_float x = B754_infinity false.
Proof.
  destruct x as [s|s| |s m e Hb]; cbn [is_finite]; try discriminate; intros _ H; unfold to_float.
  - exfalso. unfold V in H. cbn [B2R] in H. unfold rnd32 in H.
    rewrite round_0 in H by auto with typeclass_instances. pose proof (bpow_gt_0 radix2 128). lra.
  - pose proof (binary_normalize_correct 24 128 _ _ mode_NE (cond_Zopp s (Zpos m)) e s) as C. cbv zeta in C.
    unfold V in H. cbn [B2R] in H.
    rewrite Rlt_bool_false in C by (eapply Rle_trans; [exact H|apply Rle_abs]).
    assert (P : 0 < F2R (Float radix2 (cond_Zopp s (Zpos m)) e)).
    { destruct (Rle_or_lt (F2R (Float radix2 (cond_Zopp s (Zpos m)) e)) 0) as [N|N]; [exfalso|exact N].
      assert (rnd32 (F2R (Float radix2 (cond_Zopp s (Zpos m)) e)) <= 0).
      { unfold rnd32. rewrite <- (round_0 radix2 sexp ZnearestE). apply round_le; auto with typeclass_instances. }
      pose proof (bpow_gt_0 radix2 128). lra. }
    rewrite Rlt_bool_false in C by lra.
    apply B2SF_inj. rewrite C. reflexivity.
Qed.

Lemma float_in_double x : generic_format radix2 sexp x -> fmt x.
Proof.
  intros H. apply generic_inclusion_mag with (fexp1 := sexp); [|exact H].
  intros _. unfold FLT_exp. lia.
Qed.

Lemma to_double_V (x : b32) : is_finite x = true ->
  V (to_double x) = B2R x /\ is_finite (to_double x) = true.
Proof.
  destruct x as [s|s| |s m e Hb]; cbn [is_finite]; try discriminate; intros _; unfold to_double; [split; reflexivity|].
  pose proof (generic_format_B2R 24 128 (B754_finite s m e Hb)) as Hf.
  pose proof (abs_B2R_lt_emax 24 128 (B754_finite s m e Hb)) as Hl.
  pose proof (binary_normalize_correct 53 1024 _ _ mode_NE (cond_Zopp s (Zpos m)) e s) as C. cbv zeta in C.
  cbn [B2R] in Hf, Hl.
  assert (R : round radix2 (SpecFloat.fexp 53 1024) (round_mode mode_NE) (F2R (Float radix2 (cond_Zopp s (Zpos m)) e))
              = F2R (Float radix2 (cond_Zopp s (Zpos m)) e)).
  { apply rnd_id, float_in_double, Hf. }
  rewrite R, Rlt_bool_true in C.
  - destruct C as (C1 & C2 & _). split; [exact C1|exact C2].
  - eapply Rlt_trans; [exact Hl|]. apply bpow_lt. reflexivity.
Qed.

(** ** Rounding to float *)
Lemma rnd32_mono x y : x <= y -> rnd32 x <= rnd32 y.
Proof. apply round_le; auto with typeclass_instances. Qed.
Lemma rnd32_id x : generic_format radix2 sexp x -> rnd32 x = x.
Proof. intros H. apply round_generic; auto with typeclass_instances. Qed.
Lemma rnd32_bpow e : (-149 <= e)%Z -> rnd32 (bpow radix2 e) = bpow radix2 e.
Proof. intros H. apply rnd32_id. apply generic_format_FLT_bpow; [reflexivity|lia]. Qed.
Lemma rnd32_nearest x y : generic_format radix2 sexp x -> Rabs (rnd32 y - y) <= Rabs (x - y).
Proof. intros H. apply (round_N_pt radix2 sexp (fun z => negb (Z.even z)) y). exact H. Qed.

Definition float_max : R := 2 ^ 128 - 2 ^ 104.
Lemma float_max_fmt : generic_format radix2 sexp float_max.
Proof.
  replace float_max with (F2R (Float radix2 16777215 104)).
  - apply generic_format_FLT. exists (Float radix2 16777215 104); [reflexivity| |]; cbn; lia.
  - unfold F2R, float_max; cbn [Fnum Fexp]. change (bpow radix2 104) with (IZR (2 ^ 104)).
    rewrite <- !pow_IZR || idtac. cbn [Z.pow]. lra.
Qed.

Lemma rnd32_below x : x < 2 ^ 128 - 2 ^ 103 -> rnd32 x <= float_max.
Proof.
  intros H. destruct (Rle_or_lt x float_max) as [L|L].
  - rewrite <- (rnd32_id float_max float_max_fmt). now apply rnd32_mono.
  - pose proof (rnd32_nearest float_max x float_max_fmt) as N.
    rewrite (Rabs_left (float_max - x)) in N by lra.
    assert (B : rnd32 x <= 2 ^ 128).
    { replace (2 ^ 128) with (bpow radix2 128) by (cbn; lra). rewrite <- (rnd32_bpow 128) by lia.
      apply rnd32_mono. replace (bpow radix2 128) with (2 ^ 128) by (cbn; lra).
      pose proof (pow_lt 2 103 ltac:(lra)). lra. }
    destruct (Req_dec (rnd32 x) float_max) as [E|E]; [lra|].
    assert (G : generic_format radix2 sexp (rnd32 x)) by (apply generic_format_round; auto with typeclass_instances).
    assert (D : rnd32 x < 2 ^ 128).
    { pose proof (Rle_abs (rnd32 x - x)). unfold float_max in *. lra. }
    destruct (Rle_or_lt (rnd32 x) float_max) as [M|M]; [exact M|exfalso].
    (* between float_max and 2^128 there is no float *)
    pose proof (succ_le_lt radix2 sexp float_max (rnd32 x) float_max_fmt G M) as S.
    assert (Sf : succ radix2 sexp float_max = 2 ^ 128).
    { rewrite succ_eq_pos by (unfold float_max; lra).
      replace (ulp radix2 sexp float_max) with (2 ^ 104); [unfold float_max; lra|].
      rewrite ulp_neq_0 by (unfold float_max; lra). unfold cexp.
      rewrite (mag_unique_pos radix2 float_max 128).
      - unfold FLT_exp. cbn. lra.
      - unfold float_max. cbn. lra. }
    rewrite Sf in S. lra.
Qed.

Lemma float_range_conv x : is_finite x = true -> float_range (V x) ->
  exists d, Rabs d <= / 2 ^ 24 /\ B2R (to_float x) = V x * (1 + d) /\ is_finite (to_float x) = true.
Proof.
  intros F [H1 H2].
  assert (P : 0 < V x) by (pose proof (pow_lt 2 126 ltac:(lra)) as Q; apply Rinv_0_lt_compat in Q; lra).
  destruct (to_float_V x F) as [E Ff].
  { rewrite Rabs_pos_eq.
    - apply Rle_lt_trans with float_max; [now apply rnd32_below|]. unfold float_max. cbn. lra.
    - unfold rnd32. rewrite <- (round_0 radix2 sexp ZnearestE). apply round_le; auto with typeclass_instances. lra. }
  destruct (relative_error_N_FLT_ex radix2 (-149) 24 eq_refl (fun z => negb (Z.even z)) (V x)) as [d [D1 D2]].
  { rewrite Rabs_pos_eq by lra. cbn. cbn in H1. lra. }
  exists d. split; [|split; [|exact Ff]].
  - eapply Rle_trans; [exact D1|]. cbn. lra.
  - rewrite E. exact D2.
Qed.

(** ** ln 10 *)
Fixpoint ln_series (n : nat) (y : R) : R :=
  match n with O => 0 | Datatypes.S k => ln_series k y + 2 * y ^ (2 * k + 1) / INR (2 * k + 1) end.
Lemma ln_series_derive n y : y ^ 2 <> 1 ->
  is_derive (ln_series n) y (2 * (1 - y ^ (2 * n)) / (1 - y ^ 2)).
Proof.
  intros Hy. induction n as [|n IH].
  - replace (2 * (1 - y ^ (2 * 0)) / (1 - y ^ 2)) with 0 by (cbn; field; lra).
    apply (is_derive_const 0).
  - cbn [ln_series].
    replace (2 * (1 - y ^ (2 * Datatypes.S n)) / (1 - y ^ 2)) with (2 * (1 - y ^ (2 * n)) / (1 - y ^ 2) + 2 * y ^ (2 * n)).
    + apply (is_derive_plus (ln_series n) (fun y => 2 * y ^ (2 * n + 1) / INR (2 * n + 1))); [exact IH|].
      auto_derive; [auto|]. change (n + (n + 0))%nat with (2 * n)%nat.
      replace (Init.Nat.pred (2 * n + 1)) with (2 * n)%nat by lia.
      field. apply not_0_INR. lia.
    + replace (2 * Datatypes.S n)%nat with (2 * n + 2)%nat by lia. rewrite pow_add. field. lra.
Qed.

Lemma ln_series_bound n y : 0 < y < 1 ->
  0 <= ln ((1 + y) / (1 - y)) - ln_series n y <= 2 * y ^ (2 * n + 1) / (1 - y ^ 2).
Proof.
  intros Hy. set (f := fun y => ln ((1 + y) / (1 - y)) - ln_series n y).
  destruct (MVT_cor2 f (fun y => 2 * y ^ (2 * n) / (1 - y ^ 2)) 0 y ltac:(lra)) as [c [E Hc]].
  - intros z Hz. apply is_derive_Reals. unfold f.
    replace (2 * z ^ (2 * n) / (1 - z ^ 2)) with (2 / (1 - z ^ 2) - 2 * (1 - z ^ (2 * n)) / (1 - z ^ 2)) by (field; nra).
    apply (is_derive_minus (fun y => ln ((1 + y) / (1 - y))) (ln_series n)).
    + auto_derive; [split; [lra|]; split; [|auto]; apply Rdiv_lt_0_compat; lra|]. field. repeat split; nra.
    + apply ln_series_derive. nra.
  - assert (Z : f 0 = 0).
    { unfold f. replace ((1 + 0) / (1 - 0)) with 1 by field. rewrite ln_1.
      assert (S0 : forall k, ln_series k 0 = 0); [|rewrite S0; lra].
      induction k as [|k IH]; cbn [ln_series]; [reflexivity|]. rewrite IH, pow_i by lia. unfold Rdiv. ring. }
    rewrite Z, !Rminus_0_r in E. fold (f y). rewrite E.
    assert (C1 : 0 <= c ^ (2 * n) <= y ^ (2 * n)) by (split; [apply pow_le; lra|apply pow_incr; lra]).
    assert (C2 : 0 < / (1 - c ^ 2) <= / (1 - y ^ 2)).
    { split; [apply Rinv_0_lt_compat; nra|apply Rinv_le_contravar; nra]. }
    rewrite pow_add, pow_1. split.
    + apply Rmult_le_pos; [|lra]. apply Rmult_le_pos; [lra|lra].
    + replace (2 * (y ^ (2 * n) * y) / (1 - y ^ 2)) with (2 * y ^ (2 * n) * / (1 - y ^ 2) * y) by (unfold Rdiv; ring).
      apply Rmult_le_compat_r; [lra|]. unfold Rdiv.
      apply Rmult_le_compat; try lra.
Qed.

Lemma ln10_bounds : 2302585092 / 10 ^ 9 <= ln 10 <= 2302585094 / 10 ^ 9.
Proof.
  assert (E : ln 10 = 3 * ln ((1 + / 3) / (1 - / 3)) + ln ((1 + / 9) / (1 - / 9))).
  { replace ((1 + / 3) / (1 - / 3)) with 2 by field. replace ((1 + / 9) / (1 - / 9)) with (5 / 4) by field.
    replace 10 with (2 * (2 * (2 * (5 / 4)))) by field. rewrite !ln_mult by lra. lra. }
  pose proof (ln_series_bound 11 (/ 3) ltac:(lra)) as A. pose proof (ln_series_bound 6 (/ 9) ltac:(lra)) as B.
  rewrite E. cbn [ln_series Nat.mul Nat.add INR] in A, B. cbn [pow] in A, B. cbn [pow]. lra.
Qed.
