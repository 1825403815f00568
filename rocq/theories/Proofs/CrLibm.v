(** A mathematical library whose exp, expm1 and pow return the double nearest the exact
    value: it meets what the theorems ask of the library. Only these three matter here, and
    pow only for bases that are not negative. *)
From Coq Require Import Reals ZArith Lra Lia Bool.
From Flocq Require Import Core IEEE754.BinarySingleNaN.
From Verif Require Import Base.Outcome Base.Ops Inst.B64 Spec.Nonneg Proofs.SignLaws Proofs.MonoLaws.
Local Open Scope R_scope.

Notation fexp64 := (SpecFloat.fexp 53 1024).
(** the double nearest [r]; [s] is the sign of a zero *)
Definition nearest64 (s : bool) (r : R) : b64 :=
  binary_normalize 53 1024 eq_refl eq_refl mode_NE
    (ZnearestE (scaled_mantissa radix2 fexp64 r)) (cexp radix2 fexp64 r) s.

Lemma nearest64_correct s r :
  if Rlt_bool (Rabs (rnd64 r)) (bpow radix2 1024)
  then B2R (nearest64 s r) = rnd64 r /\ is_finite (nearest64 s r) = true
  else is_finite (nearest64 s r) = false /\ is_nan (nearest64 s r) = false /\ Bsign (nearest64 s r) = Rlt_bool (rnd64 r) 0.
Proof.
  pose proof (binary_normalize_correct 53 1024 eq_refl eq_refl mode_NE
    (ZnearestE (scaled_mantissa radix2 fexp64 r)) (cexp radix2 fexp64 r) s) as C.
  cbv zeta in C. fold (nearest64 s r) in C.
  change (F2R (Float radix2 (ZnearestE (scaled_mantissa radix2 fexp64 r)) (cexp radix2 fexp64 r))) with (rnd64 r) in C.
  assert (E : rnd64 (rnd64 r) = rnd64 r).
  { apply round_generic. apply valid_rnd_round_mode. apply generic_format_round.
    apply fexp_correct; reflexivity. apply valid_rnd_round_mode. }
  rewrite E in C. destruct (Rlt_bool (Rabs (rnd64 r)) (bpow radix2 1024)); [tauto|].
  unfold binary_overflow in C. cbn [overflow_to_inf] in C.
  destruct (nearest64 s r); cbn in C |- *; try discriminate. injection C as ->. auto.
Qed.

Lemma nearest64_up s s' a b : 0 <= a -> a <= b -> Bltb (nearest64 s b) (nearest64 s' a) = false.
Proof.
  intros Ha H. pose proof (nearest64_correct s b) as B. pose proof (nearest64_correct s' a) as A.
  pose proof (rnd_le a b H) as Q. pose proof (rnd_ge0 a Ha) as Q0.
  destruct (Rlt_bool (Rabs (rnd64 b)) (bpow radix2 1024)) eqn:E.
  - rewrite (no_over a b Ha H E) in A. destruct A as [Va Fa], B as [Vb Fb]. apply bl_fin; auto. now rewrite Va, Vb.
  - destruct B as (F & N & S). rewrite Rlt_bool_false in S by lra.
    destruct (nearest64 s b); try discriminate. cbn in S. subst. apply bl_inf.
Qed.

Lemma mantissa_pos r : 0 <= r -> (0 <= ZnearestE (scaled_mantissa radix2 fexp64 r))%Z.
Proof.
  intros H. rewrite <- (Zrnd_IZR ZnearestE 0) at 1.
  apply Zrnd_le; [apply valid_rnd_N|]. unfold scaled_mantissa. apply Rmult_le_pos; [exact H|apply bpow_ge_0].
Qed.
Lemma nearest64_nn r : 0 <= r -> not_negative (nearest64 false r).
Proof. intros H. apply nn_norm. now apply mantissa_pos. Qed.
Lemma nearest64_np r : r <= 0 -> Bsign (nearest64 true r) = true.
Proof.
  intros H. set (x := nearest64 true r).
  assert (Hz : (ZnearestE (scaled_mantissa radix2 fexp64 r) <= 0)%Z).
  { rewrite <- (Zrnd_IZR ZnearestE 0) at 1.
    apply Zrnd_le; [apply valid_rnd_N|]. unfold scaled_mantissa.
    assert (0 <= - r * bpow radix2 (- cexp radix2 fexp64 r)) by (apply Rmult_le_pos; [lra|apply bpow_ge_0]). lra. }
  pose proof (binary_normalize_correct 53 1024 eq_refl eq_refl mode_NE
    (ZnearestE (scaled_mantissa radix2 fexp64 r)) (cexp radix2 fexp64 r) true) as C.
  cbv zeta in C. fold (nearest64 true r) in C. fold x in C.
  assert (P : F2R (Float radix2 (ZnearestE (scaled_mantissa radix2 fexp64 r)) (cexp radix2 fexp64 r)) <= 0).
  { apply F2R_le_0. exact Hz. }
  destruct (Rlt_bool _ _) eqn:E.
  - destruct C as (_ & _ & C). rewrite C. destruct (Rcompare_spec (F2R (Float radix2 (ZnearestE (scaled_mantissa radix2 fexp64 r)) (cexp radix2 fexp64 r))) 0); [reflexivity|reflexivity|lra].
  - change (F2R (Float radix2 (ZnearestE (scaled_mantissa radix2 fexp64 r)) (cexp radix2 fexp64 r))) with (rnd64 r) in *.
    assert (R0 : rnd64 r <> 0).
    { intros Z. rewrite Z in E. rewrite round_0 in E by apply valid_rnd_round_mode. rewrite Rabs_R0 in E.
      rewrite Rlt_bool_true in E; [discriminate|apply bpow_gt_0]. }
    rewrite Rlt_bool_true in C by lra. unfold binary_overflow in C. cbn [overflow_to_inf] in C.
    destruct x; cbn in C |- *; try discriminate. now injection C.
Qed.

Definition zero64 : b64 := B754_zero false.
Definition inf64 : b64 := B754_infinity false.
Definition one64 : b64 := b64_of_Z 1.

Definition cr_exp (x : b64) : b64 :=
  match x with
  | B754_nan => B754_nan
  | B754_infinity s => if s then zero64 else inf64
  | _ => nearest64 false (exp (B2R x))
  end.
Definition cr_expm1 (x : b64) : b64 :=
  match x with
  | B754_nan => B754_nan
  | B754_infinity s => if s then b64_of_Z (-1) else inf64
  | _ => nearest64 (Bsign x) (exp (B2R x) - 1)
  end.
Definition cr_pow (x e : b64) : b64 :=
  if is_nan x || is_nan e then B754_nan
  else match e with
  | B754_zero _ => one64
  | _ =>
    match x with
    | B754_zero _ => if Bsign e then inf64 else zero64
    | B754_infinity false => if Bsign e then zero64 else inf64
    | B754_finite false _ _ _ =>
      match e with
      | B754_infinity s =>
        match Rcompare (B2R x) 1 with
        | Lt => if s then inf64 else zero64 | Eq => one64 | Gt => if s then zero64 else inf64 end
      | _ => nearest64 false (Rpower (B2R x) (B2R e))
      end
    | _ => B754_nan
    end
  end.
Definition cr_libm : Libm := {|
  lm_exp := cr_exp; lm_expm1 := cr_expm1; lm_pow := cr_pow;
  lm_log10 := fun x => x; lm_log := fun x => x; lm_logf := fun x => x; lm_cos := fun x => x |}.

Lemma nn_zero64 : not_negative zero64. Proof. right; reflexivity. Qed.
Lemma nn_inf64 : not_negative inf64. Proof. right; reflexivity. Qed.
Lemma nn_one64 : not_negative one64. Proof. apply nn_ofZ. Qed.
Lemma nn_nan64 : not_negative B754_nan. Proof. left; reflexivity. Qed.
Local Hint Resolve nn_zero64 nn_inf64 nn_one64 nn_nan64 : core.

Lemma cr_pow_nn x e : not_negative x -> not_negative (cr_pow x e).
Proof.
  intros Hx. unfold cr_pow. destruct (_ || _)%bool; [auto|].
  assert (P : not_negative (nearest64 false (Rpower (B2R x) (B2R e)))) by (apply nearest64_nn; left; apply exp_pos).
  destruct e as [s|s| |s m e E]; auto; (destruct x as [sx|[|]| |[|] mx ex Ex]; auto; try (destruct (Bsign _); auto)).
  all: destruct (Rcompare _ _); destruct s; auto.
Qed.

Lemma cr_sane : sane_libm cr_libm.
Proof.
  split; cbn [cr_libm lm_exp lm_expm1 lm_pow].
  - intros x. destruct x as [s|[|]| |s m e E]; cbn [cr_exp]; auto; apply nearest64_nn; left; apply exp_pos.
  - intros x Hx. destruct x as [s|[|]| |s m e E]; cbn [cr_expm1]; auto.
    + destruct Hx as [Hx|Hx]; [discriminate|]. cbn in Hx. subst s. cbn [Bsign]. apply nearest64_nn. cbn. rewrite exp_0. lra.
    + destruct Hx as [Hx|Hx]; [discriminate|]. rewrite Hx. apply nearest64_nn.
      pose proof (nn_ge0 (B754_finite s m e E) eq_refl Hx) as Q.
      destruct Q as [Q|Q]; [pose proof (exp_increasing _ _ Q) as Q2; rewrite exp_0 in Q2; lra|rewrite <- Q, exp_0; lra].
  - intros x Hx. destruct x as [s|[|]| |s m e E]; cbn [cr_expm1]; auto; right.
    + destruct Hx as [Hx|Hx]; [discriminate|]. cbn in Hx. subst s. cbn [Bsign]. apply nearest64_np. cbn. rewrite exp_0. lra.
    + destruct Hx as [Hx|Hx]; [discriminate|]. rewrite Hx. apply nearest64_np. cbn in Hx. subst s.
      assert (Q : B2R (B754_finite true m e E) < 0) by (cbn; apply F2R_lt_0; cbn; lia).
      pose proof (exp_increasing _ _ Q) as Q2. rewrite exp_0 in Q2. lra.
  - intros x y Hx. now apply cr_pow_nn.
Qed.

Lemma exp_le a b : a <= b -> exp a <= exp b.
Proof. intros [H| ->]; [left; now apply exp_increasing|lra]. Qed.
Lemma fin_pos (x : b64) : is_finite x = true -> not_negative x -> 0 <= B2R x.
Proof. intros F [N|S]; [destruct x; discriminate|now apply nn_ge0]. Qed.

Lemma cr_monotone : monotone_libm cr_libm.
Proof.
  split; cbn [cr_libm lm_exp lm_expm1 lm_pow].
  - intros x y Hx Hy H.
    assert (Ey : is_finite y = false -> Bltb (cr_exp y) (cr_exp x) = false).
    { intros F. destruct (not_fin y Hy F) as [N| ->]; [destruct y; try discriminate; apply bl_nan_l; reflexivity|apply bl_inf]. }
    destruct (is_finite y) eqn:Fy; [|now apply Ey].
    destruct (is_nan x) eqn:Nx; [destruct x; try discriminate; apply bl_nan_r; reflexivity|].
    pose proof (bl_below x y Hx Nx Fy H) as Fx. apply (bl_fin x y Fx Fy) in H.
    replace (cr_exp y) with (nearest64 false (exp (B2R y))) by (destruct y; try discriminate; reflexivity).
    replace (cr_exp x) with (nearest64 false (exp (B2R x))) by (destruct x; try discriminate; reflexivity).
    apply nearest64_up; [left; apply exp_pos|now apply exp_le].
  - intros x y Hx Hy H.
    assert (Ey : is_finite y = false -> Bltb (cr_expm1 y) (cr_expm1 x) = false).
    { intros F. destruct (not_fin y Hy F) as [N| ->]; [destruct y; try discriminate; apply bl_nan_l; reflexivity|apply bl_inf]. }
    destruct (is_finite y) eqn:Fy; [|now apply Ey].
    destruct (is_nan x) eqn:Nx; [destruct x; try discriminate; apply bl_nan_r; reflexivity|].
    pose proof (bl_below x y Hx Nx Fy H) as Fx. apply (bl_fin x y Fx Fy) in H.
    replace (cr_expm1 y) with (nearest64 (Bsign y) (exp (B2R y) - 1)) by (destruct y; try discriminate; reflexivity).
    replace (cr_expm1 x) with (nearest64 (Bsign x) (exp (B2R x) - 1)) by (destruct x; try discriminate; reflexivity).
    pose proof (fin_pos x Fx Hx) as P. pose proof (exp_le _ _ P) as P1. rewrite exp_0 in P1.
    apply nearest64_up; [lra|]. pose proof (exp_le _ _ H). lra.
  - intros x y e Hx Hy He H. pose proof (cr_pow_nn y e Hy) as Ny.
    destruct (is_nan e) eqn:Ne. { unfold cr_pow. rewrite Ne, orb_true_r. reflexivity. }
    destruct (is_nan x) eqn:Nx. { apply bl_nan_r. unfold cr_pow. rewrite Nx. reflexivity. }
    destruct (is_nan y) eqn:Nyy. { apply bl_nan_l. unfold cr_pow. rewrite Nyy. reflexivity. }
    destruct (match e with B754_zero _ => true | _ => false end) eqn:Z.
    { destruct e; try discriminate. unfold cr_pow. rewrite Nx, Nyy. cbn [is_nan orb]. apply bl_refl. }
    assert (Se : Bsign e = false) by (destruct He; congruence).
    destruct x as [sx|[|]| |[|] mx ex Ex]; try discriminate Nx; try (destruct Hx as [Hx|Hx]; discriminate Hx).
    + replace (cr_pow (B754_zero sx) e) with zero64; [now apply bl_zero|].
      unfold cr_pow. rewrite Ne. cbn [is_nan orb]. rewrite Se. destruct e; try discriminate; reflexivity.
    + destruct y as [sy|[|]| |[|] my ey Ey]; try discriminate; try (destruct Hy as [Hy|Hy]; discriminate Hy).
      apply bl_refl.
    + destruct y as [sy|[|]| |[|] my ey Ey]; try discriminate; try (destruct Hy as [Hy|Hy]; discriminate Hy).
      * replace (cr_pow (B754_infinity false) e) with inf64; [apply bl_inf|].
        unfold cr_pow. rewrite Ne. cbn [is_nan orb]. rewrite Se. destruct e; try discriminate; reflexivity.
      * set (x := B754_finite false mx ex Ex) in *. set (y := B754_finite false my ey Ey) in *.
        apply (bl_fin x y eq_refl eq_refl) in H.
        assert (Px : 0 < B2R x) by (apply F2R_gt_0; cbn; lia).
        destruct e as [se|se| |se m e E]; try discriminate.
        -- cbn in Se. subst se. 
           change (Bltb (match Rcompare (B2R y) 1 with Lt => zero64 | Eq => one64 | Gt => inf64 end)
                        (match Rcompare (B2R x) 1 with Lt => zero64 | Eq => one64 | Gt => inf64 end) = false).
           destruct (Rcompare_spec (B2R y) 1), (Rcompare_spec (B2R x) 1); try lra; try reflexivity; try apply bl_refl;
             try (apply bl_zero; auto).
        -- change (Bltb (nearest64 false (Rpower (B2R y) (B2R (B754_finite se m e E))))
                        (nearest64 false (Rpower (B2R x) (B2R (B754_finite se m e E)))) = false).
           apply nearest64_up; [left; apply exp_pos|]. apply Rle_Rpower_l; [|lra].
           cbn in Se. subst se. left. apply F2R_gt_0. cbn. lia.
Qed.
