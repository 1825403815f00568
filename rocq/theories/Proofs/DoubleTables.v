(** Interpolation in tables of doubles, with absolute errors. *)
From Coq Require Import Reals ZArith List Lra Lia Bool.
From Flocq Require Import Core IEEE754.BinarySingleNaN.
From Verif Require Import Base.Outcome Base.Ops Inst.B64 Model.Spiner Spec.Tables Spec.DoublePrecision Spec.DoubleTables
  Proofs.B64Facts Proofs.Near.
Import ListNotations.
Open Scope R_scope.

Lemma rerr z M : Rabs z <= M -> bp (-900) <= M -> Rabs (rnd z - z) <= u * M.
Proof.
  intros H HM. destruct (Rle_lt_dec (bp (-1022)) (Rabs z)) as [C|C].
  - pose proof (rnd_rel (Rabs z) C) as E. rewrite <- rnd_abs in E. pose proof u_pos as U.
    assert (Q : Rabs (Rabs (rnd z) - Rabs z) <= u * Rabs z) by (apply Rabs_le; lra).
    assert (S : Rabs (rnd z - z) = Rabs (Rabs (rnd z) - Rabs z)).
    { destruct (Rle_lt_dec 0 z) as [P|P].
      - rewrite (Rabs_pos_eq z P), (Rabs_pos_eq (rnd z) (rnd_pos z P)). reflexivity.
      - assert (0 <= - rnd z) by (rewrite <- rnd_opp; apply rnd_pos; lra).
        rewrite (Rabs_left1 z), (Rabs_left1 (rnd z)) by lra. rewrite <- Rabs_Ropp. f_equal. ring. }
    rewrite S. apply Rle_trans with (1 := Q). apply Rmult_le_compat_l; lra.
  - apply Rle_trans with (bp (-1074)).
    + pose proof (error_le_half_ulp radix2 bexp (fun z => negb (Z.even z)) z) as E.
      change (round radix2 bexp (Znearest (fun x => negb (Z.even x))) z) with (rnd z) in E.
      apply Rle_trans with (1 := E). rewrite (ulp_FLT_small radix2 (-1074) 53 z) by (apply Rlt_trans with (1 := C); apply bpow_lt; lia).
      pose proof (bpow_ge_0 radix2 (-1074)). change (SpecFloat.emin 53 1024) with (-1074)%Z. lra.
    + rewrite u_bpow. apply Rle_trans with (bp (-53) * bp (-900)); [rewrite <- bpow_plus; apply bpow_le; lia|].
      apply Rmult_le_compat_l; [apply bpow_ge_0|exact HM].
Qed.

(** one operation: the exact value [z] is at most [M], the result is off by [u * M] *)
Definition op (x : b64) (z M : R) : Prop := Rabs z <= M -> bp (-900) <= M -> M <= bp 1000 -> fin x /\ Rabs (V x - z) <= u * M.
Lemma op_of x z : (Rabs z <= bp 1000 -> V x = rnd z /\ fin x) -> forall M, op x z M.
Proof.
  intros H M H1 H2 H3. destruct (H ltac:(lra)) as [E F]. split; [exact F|]. rewrite E. now apply rerr.
Qed.
Lemma op_sub x y M : fin x -> fin y -> op (Bminus mode_NE x y) (V x - V y) M.
Proof. intros Fx Fy. apply op_of. intros H. now apply (sub_V x y 1000). Qed.
Lemma op_add x y M : fin x -> fin y -> op (Bplus mode_NE x y) (V x + V y) M.
Proof. intros Fx Fy. apply op_of. intros H. now apply (add_V x y 1000). Qed.
Lemma op_mul x y M : fin x -> fin y -> op (Bmult mode_NE x y) (V x * V y) M.
Proof. intros Fx Fy. apply op_of. intros H. now apply (mul_V x y 1000). Qed.
Lemma op_div x y M : fin x -> V y <> 0 -> op (Bdiv mode_NE x y) (V x / V y) M.
Proof. intros Fx Fy. apply op_of. intros H. now apply (div_V x y 1000). Qed.

Lemma u_lit : u = / 9007199254740992.
Proof. rewrite u_bpow. reflexivity. Qed.
Lemma small_900 x : / 10000000000 <= x -> bp (-900) <= x.
Proof.
  intros H. apply Rle_trans with (2 := H). apply Rle_trans with (bp (-40)); [apply bpow_le; lia|].
  change (bp (-40)) with (/ 1099511627776). apply Rinv_le_contravar; lra.
Qed.
Lemma big_1000 x : x <= 10000000000 -> x <= bp 1000.
Proof.
  intros H. apply Rle_trans with (1 := H). apply Rle_trans with (bp 40); [|apply bpow_le; lia].
  change (bp 40) with 1099511627776. lra.
Qed.
Lemma prod_err a A ea b B eb MA Mb : Rabs (a - A) <= ea -> Rabs (b - B) <= eb -> Rabs A <= MA -> Rabs b <= Mb ->
  Rabs (a * b - A * B) <= ea * Mb + MA * eb.
Proof.
  intros H1 H2 H3 H4. replace (a * b - A * B) with ((a - A) * b + A * (b - B)) by ring.
  apply Rle_trans with (1 := Rabs_triang _ _). rewrite !Rabs_mult.
  apply Rplus_le_compat; apply Rmult_le_compat; auto using Rabs_pos.
Qed.
Lemma abs_add a b A B : Rabs a <= A -> Rabs b <= B -> Rabs (a + b) <= A + B.
Proof. intros. apply Rle_trans with (1 := Rabs_triang _ _). lra. Qed.
Lemma abs_near a b c e f : Rabs (a - b) <= e -> Rabs (b - c) <= f -> Rabs (a - c) <= e + f.
Proof. intros. replace (a - c) with ((a - b) + (b - c)) by ring. now apply abs_add. Qed.
Lemma abs_size a b e M : Rabs (a - b) <= e -> Rabs b <= M -> Rabs a <= e + M.
Proof. intros. replace a with ((a - b) + b) by ring. now apply abs_add. Qed.
Lemma abs_bound x M : - M <= x <= M -> Rabs x <= M.
Proof. intros. apply Rabs_le. lra. Qed.
Lemma abs_id x : 0 < x -> Rabs x <= x.
Proof. intros. rewrite Rabs_pos_eq; lra. Qed.
Lemma abs_both x M : Rabs x <= M -> - M <= x <= M.
Proof. intros H. unfold Rabs in H. destruct (Rcase_abs x); lra. Qed.

Lemma of_Z_exact i : (Z.abs i < 2 ^ 31)%Z -> V (b64_of_Z i) = IZR i /\ fin (b64_of_Z i).
Proof.
  intros H. destruct (V_lit i 0) as [E F]; try lia. split; [|exact F].
  change (b64_of_Z i) with (b64_ldexp i 0). rewrite E. simpl. ring.
Qed.

Lemma trunc_spec x k : fin x -> (Z.abs k <= 2147483647)%Z -> Ztrunc (V x) = k -> b64_trunc x = Some k.
Proof.
  intros F Hk E. unfold b64_trunc. rewrite F. cbv zeta.
  assert (B : Btrunc x = k).
  { apply eq_IZR. rewrite Btrunc_correct by reflexivity. rewrite round_FIX_IZR. unfold V in E. now rewrite E. }
  rewrite B. unfold int_fits. replace ((- 2 ^ 31 <=? k)%Z && (k <? 2 ^ 31)%Z) with true; [reflexivity|].
  symmetry. apply andb_true_iff. split; [apply Z.leb_le|apply Z.ltb_lt]; lia.
Qed.

Section Cell.
  Variable L : Libm.
  Notation O := (B64_ops L).
  Variables lo hi : b64.
  Variable N : Z.
  Hypothesis Hord : ordinary lo hi N.
  Notation g := (real_grid lo hi N).
  Notation X := (extent g).
  Notation dx := (rg_dx g).
  Notation S := (cells g).
  Let n1 := IZR (N - 1).
  Let Flo : fin lo. Proof. apply Hord. Qed.
  Let Fhi : fin hi. Proof. apply Hord. Qed.
  Let Hlt : V lo < V hi. Proof. apply Hord. Qed.
  Lemma n_two : (2 <= N)%Z. Proof. apply Hord. Qed.
  Let HX : X <= 1000. Proof. apply Hord. Qed.
  Lemma cells_le : S <= 1000000. Proof. apply Hord. Qed.
  Lemma extent_1 : 1 <= X. Proof. apply Rmax_l. Qed.
  Let Hlo : - X <= V lo <= X.
  Proof. apply abs_both. unfold extent. apply Rle_trans with (2 := Rmax_r _ _). apply Rmax_l. Qed.
  Let Hhi : - X <= V hi <= X.
  Proof. apply abs_both. unfold extent. apply Rle_trans with (2 := Rmax_r _ _). apply Rmax_r. Qed.
  Let Hn1 : 1 <= n1. Proof. apply IZR_le. pose proof n_two. lia. Qed.
  Let Hw : n1 * dx = V hi - V lo.
  Proof. unfold rg_dx. cbn [rg_hi rg_lo rg_n real_grid]. fold n1. unfold V. field. lra. Qed.
  Lemma dx_pos : 0 < dx.
  Proof. apply (Rmult_lt_reg_l n1); lra. Qed.
  Let Hdx := dx_pos.
  Let HS : S * dx = X. Proof. unfold cells. field. lra. Qed.
  Let Hdx2 : dx <= 2 * X.
  Proof. apply Rle_trans with (n1 * dx); [|lra]. rewrite <- (Rmult_1_l dx) at 1. apply Rmult_le_compat_r; lra. Qed.
  Lemma cells_half : 1 / 2 <= S.
  Proof. apply (Rmult_le_reg_r dx); [exact Hdx|]. rewrite HS. lra. Qed.
  Let Hdx6 : / 1000000 <= dx.
  Proof.
    pose proof cells_le as C. pose proof extent_1. apply (Rmult_le_reg_l 1000000); [lra|].
    apply Rle_trans with (S * dx); [lra|]. apply Rmult_le_compat_r; lra.
  Qed.
  Let Hn2 : n1 <= 2 * S.
  Proof. apply (Rmult_le_reg_r dx); [exact Hdx|]. rewrite Hw, Rmult_assoc, HS. lra. Qed.
  Lemma n_small : (N - 1 <= 2000000)%Z.
  Proof. apply le_IZR. fold n1. pose proof cells_le. lra. Qed.
  Let Hi : / dx <= 1000000.
  Proof. rewrite <- (Rinv_inv 1000000). apply Rinv_le_contravar; lra. Qed.
  Let Hi0 : 0 < / dx. Proof. now apply Rinv_0_lt_compat. Qed.
  Let Hi1 : / 2000 <= / dx. Proof. apply Rinv_le_contravar; lra. Qed.
  Let U0 : 0 < u <= / 9000000000000000.
  Proof. rewrite u_lit. split; [apply Rinv_0_lt_compat; lra|apply Rinv_le_contravar; lra]. Qed.

  (** the stored spacing and its inverse *)
  Let d1 := Bminus mode_NE hi lo.
  Let d2 := Bdiv mode_NE d1 (b64_of_Z (N - 1)).
  Let idx := Bdiv mode_NE (b64_of_Z 1) d2.
  Lemma grid64 : mk_grid (O := O) lo hi N = Ok {| g_min := lo; g_max := hi; g_dx := d2; g_idx := idx; g_N := N |}.
  Proof.
    unfold mk_grid. change (@Oltb b64 O lo hi) with (Bltb lo hi).
    rewrite (Bltb_correct _ _ lo hi Flo Fhi), Rlt_bool_true by exact Hlt.
    pose proof n_two. replace (0 <? N)%Z with true by (symmetry; apply Z.ltb_lt; lia). reflexivity.
  Qed.

  Let D1 : fin d1 /\ Rabs (V d1 - n1 * dx) <= u * (n1 * dx).
  Proof.
    rewrite Hw. apply (op_sub hi lo (V hi - V lo)); try assumption.
    - apply abs_bound. lra.
    - apply small_900. rewrite <- Hw. apply Rle_trans with (1 * dx); [lra|]. apply Rmult_le_compat_r; lra.
    - apply big_1000. lra.
  Qed.
  Let D2 : fin d2 /\ Rabs (V d2 - dx) <= 21 / 10 * u * dx.
  Proof.
    destruct D1 as [F1 E1]. destruct (of_Z_exact (N - 1)) as [EN FN]; [pose proof n_small; pose proof n_two; lia|].
    fold n1 in EN.
    assert (Q : Rabs (V d1 / n1 - dx) <= u * dx).
    { replace (V d1 / n1 - dx) with ((V d1 - n1 * dx) * / n1) by (field; lra).
      rewrite Rabs_mult, (Rabs_pos_eq (/ n1)) by (left; apply Rinv_0_lt_compat; lra).
      apply (Rmult_le_reg_r n1); [lra|]. rewrite Rmult_assoc, Rinv_l by lra. lra. }
    pose proof (op_div d1 (b64_of_Z (N - 1)) (101 / 100 * dx) F1) as P. rewrite EN in P.
    specialize (P ltac:(lra)). fold d2 in P.
    assert (ud : u * dx <= 1 / 100 * dx) by (apply Rmult_le_compat_r; lra).
    destruct P as [F2 E2].
    - apply Rle_trans with (1 := abs_size _ dx _ dx Q (abs_bound dx dx ltac:(lra))). lra.
    - apply small_900. lra.
    - apply big_1000. lra.
    - split; [exact F2|]. apply Rle_trans with (1 := abs_near _ _ _ _ _ E2 Q).
      assert (0 < u * dx) by (apply Rmult_lt_0_compat; lra). lra.
  Qed.
  Let ud : 0 < u * dx <= 1 / 1000000 * dx.
  Proof. split; [apply Rmult_lt_0_compat; lra|apply Rmult_le_compat_r; lra]. Qed.
  Let ui : 0 < u * / dx <= 1 / 1000000 * / dx.
  Proof. split; [apply Rmult_lt_0_compat; lra|apply Rmult_le_compat_r; lra]. Qed.
  Let IX : fin idx /\ Rabs (V idx - / dx) <= 33 / 10 * u * / dx.
  Proof.
    destruct D2 as [F2 E2]. pose proof (abs_both _ _ E2) as E2'.
    assert (P2 : 999 / 1000 * dx <= V d2) by lra.
    assert (Q : Rabs (/ V d2 - / dx) <= 22 / 10 * u * / dx).
    { replace (/ V d2 - / dx) with (- (V d2 - dx) * / V d2 * / dx) by (field; lra).
      rewrite !Rabs_mult, Rabs_Ropp, (Rabs_pos_eq (/ V d2)), (Rabs_pos_eq (/ dx)) by (left; apply Rinv_0_lt_compat; lra).
      apply Rmult_le_compat_r; [lra|]. apply (Rmult_le_reg_r (V d2)); [lra|].
      rewrite Rmult_assoc, Rinv_l by lra.
      apply Rle_trans with (22 / 10 * u * (999 / 1000 * dx)); [lra|]. apply Rmult_le_compat_l; lra. }
    destruct (of_Z_exact 1) as [EN FN]; [lia|].
    pose proof (op_div (b64_of_Z 1) d2 (101 / 100 * / dx) FN ltac:(lra)) as P. fold idx in P. rewrite EN in P.
    replace (1 / V d2) with (/ V d2) in P by (field; lra).
    destruct P as [F3 E3].
    - apply Rle_trans with (1 := abs_size _ _ _ _ Q (abs_bound (/ dx) (/ dx) ltac:(lra))). lra.
    - apply small_900. lra.
    - apply big_1000. lra.
    - split; [exact F3|]. apply Rle_trans with (1 := abs_near _ _ _ _ _ E3 Q). lra.
  Qed.

  (** nodes *)
  Let uX : 0 < u * X <= / 1000000000000.
  Proof.
    pose proof extent_1. split; [apply Rmult_lt_0_compat; lra|].
    apply Rle_trans with (/ 9000000000000000 * 1000); [apply Rmult_le_compat; lra|lra].
  Qed.
  Lemma node64 i : (0 <= i <= N - 1)%Z ->
    let fl := Bplus mode_NE (Bmult mode_NE (b64_of_Z i) d2) lo in
    fin fl /\ Rabs (V fl - rg_node g i) <= 96 / 10 * u * X.
  Proof.
    intros Hi'. cbv zeta. destruct D2 as [F2 E2]. pose proof extent_1 as X1.
    destruct (of_Z_exact i) as [EN FN]; [pose proof n_small; lia|].
    assert (I : 0 <= IZR i <= n1) by (split; apply IZR_le; lia).
    assert (ID : 0 <= IZR i * dx <= 2 * X).
    { split; [apply Rmult_le_pos; lra|]. apply Rle_trans with (n1 * dx); [apply Rmult_le_compat_r; lra|lra]. }
    assert (Q : Rabs (IZR i * V d2 - IZR i * dx) <= 42 / 10 * u * X).
    { replace (IZR i * V d2 - IZR i * dx) with (IZR i * (V d2 - dx)) by ring.
      rewrite Rabs_mult, (Rabs_pos_eq (IZR i)) by lra.
      apply Rle_trans with (IZR i * (21 / 10 * u * dx)); [apply Rmult_le_compat_l; lra|].
      replace (IZR i * (21 / 10 * u * dx)) with (21 / 10 * u * (IZR i * dx)) by ring.
      apply Rle_trans with (21 / 10 * u * (2 * X)); [apply Rmult_le_compat_l; lra|lra]. }
    destruct (op_mul (b64_of_Z i) d2 (201 / 100 * X) FN F2) as [Fp Ep].
    - rewrite EN. apply Rle_trans with (1 := abs_size _ _ _ _ Q (abs_bound (IZR i * dx) (2 * X) ltac:(lra))). lra.
    - apply small_900. lra.
    - apply big_1000. lra.
    - set (p := Bmult mode_NE (b64_of_Z i) d2) in *. rewrite EN in Ep.
      pose proof (abs_near _ _ _ _ _ Ep Q) as Ep'. pose proof (abs_both _ _ Ep') as Ep2.
      destruct (op_add p lo (31 / 10 * X) Fp Flo) as [Ff Ef].
      + apply abs_bound. lra.
      + apply small_900. lra.
      + apply big_1000. lra.
      + split; [exact Ff|]. unfold rg_node. cbn [rg_lo real_grid].
        change (B2R lo) with (V lo).
        apply Rle_trans with (u * (31 / 10 * X) + (u * (201 / 100 * X) + 42 / 10 * u * X)); [|lra].
        apply abs_near with (V p + V lo); [exact Ef|].
        replace (V p + V lo - (IZR i * dx + V lo)) with (V p - IZR i * dx) by ring. exact Ep'.
  Qed.

  Lemma node_in i : (0 <= i <= N - 1)%Z -> rg_inside g (rg_node g i).
  Proof.
    intros H. unfold rg_inside, rg_node. cbn [rg_lo rg_hi real_grid]. fold (V lo) (V hi).
    assert (0 <= IZR i <= n1) by (split; apply IZR_le; lia).
    assert (0 <= IZR i * dx) by (apply Rmult_le_pos; lra).
    assert (IZR i * dx <= n1 * dx) by (apply Rmult_le_compat_r; lra). lra.
  Qed.
  Let uS : 0 < u * S <= / 1000000000.
  Proof.
    pose proof cells_half. pose proof cells_le. split; [apply Rmult_lt_0_compat; lra|].
    apply Rle_trans with (/ 9000000000000000 * 1000000); [apply Rmult_le_compat; lra|lra].
  Qed.
  Let XS : X * / dx = S. Proof. reflexivity. Qed.

  Section Query.
    Variable x : b64.
    Variable y : R.
    Hypothesis Fx : fin x.
    Hypothesis Hc : coordinate 20 g (V x) y.
    Let Hy : V lo <= y <= V hi. Proof. apply Hc. Qed.
    Let Hxy : Rabs (V x - y) <= 20 * u * X. Proof. apply Hc. Qed.
    Let tau := (y - V lo) * / dx.
    Let Etau : tau * dx = y - V lo. Proof. unfold tau. field. lra. Qed.
    Let Htau : 0 <= tau <= n1.
    Proof.
      split; apply (Rmult_le_reg_r dx); try exact Hdx; rewrite Etau; lra.
    Qed.
    Let s0 := Bminus mode_NE x lo.
    Let S0 : fin s0 /\ Rabs (V s0 - (y - V lo)) <= 221 / 10 * u * X.
    Proof.
      pose proof extent_1 as X1. pose proof (abs_both _ _ Hxy) as Hxy'.
      destruct (op_sub x lo (21 / 10 * X) Fx Flo) as [F E].
      - apply abs_bound. lra.
      - apply small_900. lra.
      - apply big_1000. lra.
      - split; [exact F|]. fold s0 in E. replace (221 / 10 * u * X) with (u * (21 / 10 * X) + 20 * u * X) by field.
        apply abs_near with (V x - V lo); [exact E|]. replace (V x - V lo - (y - V lo)) with (V x - y) by ring. exact Hxy.
    Qed.
    Let t := Bmult mode_NE idx s0.
    Let TT : fin t /\ Rabs (V t - tau) <= 32 * u * S.
    Proof.
      pose proof extent_1 as X1. pose proof cells_half as C1. pose proof cells_le as C2.
      destruct S0 as [F0 E0]. destruct IX as [Fi Ei].
      assert (B0 : Rabs (V s0) <= 22 / 10 * X).
      { apply Rle_trans with (1 := abs_size _ _ _ _ E0 (abs_bound (y - V lo) (2 * X) ltac:(lra))). lra. }
      assert (Q : Rabs (V idx * V s0 - tau) <= 294 / 10 * u * S).
      { unfold tau. rewrite (Rmult_comm (y - V lo)).
        apply Rle_trans with (1 := prod_err _ _ _ _ _ _ (/ dx) (22 / 10 * X) Ei E0 (abs_id _ Hi0) B0).
        replace (33 / 10 * u * / dx * (22 / 10 * X) + / dx * (221 / 10 * u * X)) with (2936 / 100 * (u * (X * / dx))) by (field; lra).
        rewrite XS. lra. }
      destruct (op_mul idx s0 (23 / 10 * S) Fi F0) as [F E].
      - rewrite Rabs_mult. apply Rle_trans with (101 / 100 * / dx * (22 / 10 * X)).
        + apply Rmult_le_compat; try apply Rabs_pos; try assumption.
          apply Rle_trans with (1 := abs_size _ _ _ _ Ei (abs_bound (/ dx) (/ dx) ltac:(lra))). lra.
        + replace (101 / 100 * / dx * (22 / 10 * X)) with (2222 / 1000 * (X * / dx)) by (field; lra). rewrite XS. lra.
      - apply small_900. lra.
      - apply big_1000. lra.
      - split; [exact F|]. fold t in E. apply Rle_trans with (1 := abs_near _ _ _ _ _ E Q). lra.
    Qed.
    Let k := Ztrunc (V t).
    Let K : (V t < 1 -> -1 < V t -> k = 0%Z) /\ (0 <= V t -> IZR k <= V t < IZR k + 1).
    Proof.
      unfold k. split.
      - intros A B. destruct (Rle_lt_dec 0 (V t)) as [P|P].
        + rewrite Ztrunc_floor by exact P. apply Zfloor_imp. simpl. lra.
        + rewrite Ztrunc_ceil by lra. apply Zceil_imp. simpl. lra.
      - intros P. rewrite Ztrunc_floor by exact P. split; [apply Zfloor_lb|apply Zfloor_ub].
    Qed.
    Let kb : (0 <= k <= 2000001)%Z.
    Proof.
      destruct TT as [_ E]. apply abs_both in E. pose proof cells_le. destruct K as [K1 K2].
      destruct (Rle_lt_dec 0 (V t)) as [P|P].
      - destruct (K2 P) as [A B]. split.
        + assert (-1 < k)%Z by (apply lt_IZR; lra). lia.
        + apply le_IZR. lra.
      - rewrite K1 by lra. lia.
    Qed.
    Let i := if (N - 1 <=? k)%Z then (N - 2)%Z else k.
    Let Hi2 : (0 <= i < N - 1)%Z.
    Proof. pose proof n_two. unfold i. destruct (Z.leb_spec (N - 1) k); lia. Qed.
    Let lam := tau - IZR i.
    Let Hlam : - (32 * u * S) <= lam <= 1 + 32 * u * S.
    Proof.
      unfold lam. destruct TT as [_ E]. apply abs_both in E. destruct K as [K1 K2].
      assert (A : IZR k <= tau + 32 * u * S /\ tau - 1 - 32 * u * S <= IZR k).
      { destruct (Rle_lt_dec 0 (V t)) as [P|P]; [destruct (K2 P); lra|]. rewrite K1 by lra. lra. }
      unfold i. destruct (Z.leb_spec (N - 1) k) as [C|C]; [|lra].
      apply IZR_le in C. fold n1 in C. replace (N - 2)%Z with (N - 1 - 1)%Z by ring. rewrite minus_IZR. fold n1. lra.
    Qed.
    Let fl := Bplus mode_NE (Bmult mode_NE (b64_of_Z i) d2) lo.
    Let q := Bminus mode_NE x fl.
    Let Elam : y = rg_node g i + lam * dx.
    Proof. unfold lam, rg_node. cbn [rg_lo real_grid]. fold (V lo). rewrite Rmult_minus_distr_r, Etau. ring. Qed.
    Let QQ : fin q /\ Rabs (V q - lam * dx) <= 317 / 10 * u * X.
    Proof.
      pose proof extent_1 as X1. destruct (node64 i ltac:(lia)) as [Ff Ef]. fold fl in Ff, Ef.
      pose proof (abs_both _ _ Hxy) as Hxy'. pose proof (abs_both _ _ Ef) as Ef'.
      assert (LD : - (1 / 100 * dx) <= lam * dx <= 101 / 100 * dx).
      { split; [replace (- (1 / 100 * dx)) with (- (1 / 100) * dx) by ring|]; apply Rmult_le_compat_r; lra. }
      destruct (op_sub x fl (205 / 100 * X) Fx Ff) as [F E].
      - apply abs_bound. lra.
      - apply small_900. lra.
      - apply big_1000. lra.
      - split; [exact F|]. fold q in E.
        assert (Q : Rabs (V x - V fl - lam * dx) <= 296 / 10 * u * X) by (apply abs_bound; lra).
        apply Rle_trans with (1 := abs_near _ _ _ _ _ E Q). lra.
    Qed.
    Let w1 := Bmult mode_NE idx q.
    Let W1 : fin w1 /\ Rabs (V w1 - lam) <= 41 * u * S.
    Proof.
      pose proof extent_1 as X1. pose proof cells_half as C1. pose proof cells_le as C2.
      destruct QQ as [Fq Eq]. destruct IX as [Fi Ei].
      assert (LD : - (1 / 100 * dx) <= lam * dx <= 101 / 100 * dx).
      { split; [replace (- (1 / 100 * dx)) with (- (1 / 100) * dx) by ring|]; apply Rmult_le_compat_r; lra. }
      assert (UXd : u * X <= 1 / 1000 * dx).
      { rewrite <- HS. replace (u * (S * dx)) with (u * S * dx) by ring. apply Rmult_le_compat_r; lra. }
      assert (Bq : Rabs (V q) <= 105 / 100 * dx).
      { apply Rle_trans with (1 := abs_size _ _ _ _ Eq (abs_bound (lam * dx) (101 / 100 * dx) ltac:(lra))). lra. }
      assert (Q : Rabs (V idx * V q - lam) <= 35 / 10 * u + 317 / 10 * (u * S)).
      { replace lam with (/ dx * (lam * dx)) at 1 by (field; lra).
        apply Rle_trans with (1 := prod_err _ _ _ _ _ _ (/ dx) (105 / 100 * dx) Ei Eq (abs_id _ Hi0) Bq).
        replace (33 / 10 * u * / dx * (105 / 100 * dx)) with (3465 / 1000 * u) by (field; lra).
        replace (/ dx * (317 / 10 * u * X)) with (317 / 10 * (u * (X * / dx))) by ring. rewrite XS. lra. }
      destruct (op_mul idx q (11 / 10) Fi Fq) as [F E].
      - apply Rle_trans with (1 := abs_size _ _ _ _ Q (abs_bound lam (101 / 100) ltac:(lra))). lra.
      - apply small_900. lra.
      - apply big_1000. lra.
      - split; [exact F|]. fold w1 in E. apply Rle_trans with (1 := abs_near _ _ _ _ _ E Q).
        assert (u * (1 / 2) <= u * S) by (apply Rmult_le_compat_l; lra). lra.
    Qed.
    Let w0 := Bminus mode_NE (b64_of_Z 1) w1.
    Let W0 : fin w0 /\ Rabs (V w0 - (1 - lam)) <= 44 * u * S.
    Proof.
      pose proof cells_half as C1. destruct W1 as [F1 E1]. destruct (of_Z_exact 1) as [EN FN]; [lia|].
      pose proof (abs_both _ _ E1) as E1'.
      destruct (op_sub (b64_of_Z 1) w1 (11 / 10) FN F1) as [F E].
      - rewrite EN. apply abs_bound. lra.
      - apply small_900. lra.
      - apply big_1000. lra.
      - split; [exact F|]. fold w0 in E. rewrite EN in E.
        assert (u * (1 / 2) <= u * S) by (apply Rmult_le_compat_l; lra).
        apply abs_both in E. apply abs_bound. lra.
    Qed.

    Lemma weights64 : exists G, mk_grid (O := O) lo hi N = Ok G /\ exists i w0 w1 lam,
      g_weights (O := O) G x = Ok (i, (w0, w1)) /\ (0 <= i < N - 1)%Z /\ fin w0 /\ fin w1 /\
      y = rg_node g i + lam * dx /\ - (32 * u * S) <= lam <= 1 + 32 * u * S /\
      Rabs (V w1 - lam) <= 41 * u * S /\ Rabs (V w0 - (1 - lam)) <= 44 * u * S.
    Proof.
      eexists. split; [apply grid64|]. exists i, w0, w1, lam.
      split; [|split; [exact Hi2|split; [apply W0|split; [apply W1|split; [exact Elam|split; [exact Hlam|split; [apply W1|apply W0]]]]]]].
      unfold g_weights, g_index. cbn [g_idx g_min g_dx].
      change (@Otrunc b64 O (@Omul b64 O idx (@Osub b64 O x lo))) with (b64_trunc t).
      rewrite (trunc_spec t k); [|apply TT|lia|reflexivity]. cbn [bind].
      unfold g_bound. cbn [g_N]. replace (k <? 0)%Z with false by (symmetry; apply Z.ltb_ge; lia).
      reflexivity.
    Qed.
  End Query.
End Cell.

(** ** One cell *)
Lemma combine64 w0 w1 a b lam e A B ea F : fin w0 -> fin w1 -> fin a -> fin b ->
  u / 2 <= e <= / 1000000000 -> - (32 * e) <= lam <= 1 + 32 * e ->
  Rabs (V w1 - lam) <= 41 * e -> Rabs (V w0 - (1 - lam)) <= 44 * e ->
  Rabs (V a - A) <= ea -> Rabs (V b - B) <= ea -> Rabs A <= F -> Rabs B <= F -> 0 <= ea <= F / 100 -> 1 <= F <= 1000 ->
  let v := Bplus mode_NE (Bmult mode_NE w0 a) (Bmult mode_NE w1 b) in
  fin v /\ Rabs (V v - ((1 - lam) * A + lam * B)) <= 96 * (e * F) + 1001 / 1000 * ea.
Proof.
  intros Fw0 Fw1 Fa Fb He Hlam H1 H0 Ha Hb HA HB Hea HF v.
  assert (U : 0 < u <= / 9000000000000000).
  { rewrite u_lit. split; [apply Rinv_0_lt_compat; lra|apply Rinv_le_contravar; lra]. }
  pose proof (abs_size _ _ _ _ Ha HA) as Sa. pose proof (abs_size _ _ _ _ Hb HB) as Sb.
  pose proof (abs_both _ _ H1) as H1'. pose proof (abs_both _ _ H0) as H0'.
  assert (Sa' : Rabs (V a) <= 101 / 100 * F) by lra. assert (Sb' : Rabs (V b) <= 101 / 100 * F) by lra.
  assert (eF : u * F <= 2 * (e * F)) by (replace (2 * (e * F)) with (2 * e * F) by ring; apply Rmult_le_compat_r; lra).
  assert (eF2 : 0 < e * F <= 1 / 1000 * F) by (split; [apply Rmult_lt_0_compat; lra|apply Rmult_le_compat_r; lra]).
  assert (eE : 0 <= e * ea <= / 1000000000 * ea) by (split; [apply Rmult_le_pos; lra|apply Rmult_le_compat_r; lra]).
  assert (L1 : Rabs lam <= 1 + 32 * e) by (apply abs_bound; lra).
  assert (L0 : Rabs (1 - lam) <= 1 + 32 * e) by (apply abs_bound; lra).
  destruct (op_mul w0 a (11 / 10 * F) Fw0 Fa) as [Fp0 E0].
  { rewrite Rabs_mult. apply Rle_trans with (102 / 100 * (101 / 100 * F)); [|lra].
    apply Rmult_le_compat; try apply Rabs_pos; try assumption. apply abs_bound. lra. }
  { apply small_900. lra. } { apply big_1000. lra. }
  destruct (op_mul w1 b (11 / 10 * F) Fw1 Fb) as [Fp1 E1].
  { rewrite Rabs_mult. apply Rle_trans with (102 / 100 * (101 / 100 * F)); [|lra].
    apply Rmult_le_compat; try apply Rabs_pos; try assumption. apply abs_bound. lra. }
  { apply small_900. lra. } { apply big_1000. lra. }
  set (p0 := Bmult mode_NE w0 a) in *. set (p1 := Bmult mode_NE w1 b) in *.
  pose proof (prod_err _ _ _ _ _ _ (Rabs (1 - lam)) (101 / 100 * F) H0 Ha (Rle_refl _) Sa') as Q0.
  pose proof (prod_err _ _ _ _ _ _ (Rabs lam) (101 / 100 * F) H1 Hb (Rle_refl _) Sb') as Q1.
  pose proof (abs_near _ _ _ _ _ E0 Q0) as R0. pose proof (abs_near _ _ _ _ _ E1 Q1) as R1.
  assert (LL : Rabs (1 - lam) + Rabs lam <= 1 + 64 * e).
  { unfold Rabs. destruct (Rcase_abs (1 - lam)); destruct (Rcase_abs lam); lra. }
  assert (LLe : Rabs (1 - lam) * ea + Rabs lam * ea <= ea + 64 * (e * ea)).
  { replace (Rabs (1 - lam) * ea + Rabs lam * ea) with ((Rabs (1 - lam) + Rabs lam) * ea) by ring.
    replace (ea + 64 * (e * ea)) with ((1 + 64 * e) * ea) by ring. apply Rmult_le_compat_r; lra. }
  assert (B0 : Rabs ((1 - lam) * A) <= 101 / 100 * F).
  { rewrite Rabs_mult. apply Rmult_le_compat; try apply Rabs_pos; lra. }
  assert (B1 : Rabs (lam * B) <= 101 / 100 * F).
  { rewrite Rabs_mult. apply Rmult_le_compat; try apply Rabs_pos; lra. }
  assert (P0 : 0 <= Rabs (1 - lam) * ea) by (apply Rmult_le_pos; [apply Rabs_pos|lra]).
  assert (P1 : 0 <= Rabs lam * ea) by (apply Rmult_le_pos; [apply Rabs_pos|lra]).
  destruct (op_add p0 p1 (23 / 10 * F) Fp0 Fp1) as [Fv Ev].
  { apply Rle_trans with (Rabs (V p0) + Rabs (V p1)); [apply Rabs_triang|].
    pose proof (abs_size _ _ _ _ R0 B0). pose proof (abs_size _ _ _ _ R1 B1). lra. }
  { apply small_900. lra. } { apply big_1000. lra. }
  fold v in Fv, Ev. split; [exact Fv|].
  assert (R2 : Rabs (V p0 + V p1 - ((1 - lam) * A + lam * B)) <=
    (u * (11 / 10 * F) + (44 * e * (101 / 100 * F) + Rabs (1 - lam) * ea)) + (u * (11 / 10 * F) + (41 * e * (101 / 100 * F) + Rabs lam * ea))).
  { replace (V p0 + V p1 - ((1 - lam) * A + lam * B)) with ((V p0 - (1 - lam) * A) + (V p1 - lam * B)) by ring. now apply abs_add. }
  apply Rle_trans with (1 := abs_near _ _ _ _ _ Ev R2). lra.
Qed.

(** the interpolant does not jump from one cell to the next *)
Lemma no_jump mu e A B C F : 0 <= mu <= 32 * e -> Rabs A <= F -> Rabs B <= F -> Rabs C <= F ->
  Rabs (((1 + mu) * B - mu * C) - ((1 - mu) * B + mu * A)) <= 129 * (e * F).
Proof.
  intros Hm HA HB HC. replace ((1 + mu) * B - mu * C - ((1 - mu) * B + mu * A)) with (mu * (2 * B - C - A)) by ring.
  rewrite Rabs_mult, (Rabs_pos_eq mu) by lra.
  apply abs_both in HA. apply abs_both in HB. apply abs_both in HC.
  apply Rle_trans with (32 * e * (4 * F)).
  - apply Rmult_le_compat; try lra; [apply Rabs_pos|]. apply abs_bound. lra.
  - assert (0 <= F) by lra. assert (0 <= e) by lra. assert (0 <= e * F) by (now apply Rmult_le_pos). lra.
Qed.

Lemma stores64_ext F ds : forall d acc f f', (forall is, f is = f' is) -> stores64 F ds d acc f -> stores64 F ds d acc f'.
Proof.
  induction ds as [|D ds IH]; cbn [stores64]; intros d acc f f' E H.
  - destruct H as (x & H1 & H2 & H3 & H4). exists x. rewrite <- E. auto.
  - intros i Hi. apply IH with (2 := H i Hi). intros is. apply E.
Qed.

Definition axis_ok (D : rdim) : Prop :=
  match D with Axis g => exists lo hi, g = real_grid lo hi (rg_n g) /\ ordinary lo hi (rg_n g) | Index _ => True end.
Lemma dim64_ok L p D : dim64 L p D -> axis_ok D.
Proof. destruct D; cbn; [|auto]. intros (lo & hi & G & E & H & _). exists lo, hi. auto. Qed.
Lemma dims64_ok L ps dims : Forall2 (dim64 L) ps dims -> Forall axis_ok dims.
Proof. intros H. induction H; constructor; [eapply dim64_ok; eauto|assumption]. Qed.

Lemma node_next g i : rg_node g (i + 1) = rg_node g i + rg_dx g.
Proof. unfold rg_node. rewrite plus_IZR. ring. Qed.

(** a coordinate inside lies in some cell *)
Lemma cell_exists lo hi N y : ordinary lo hi N -> rg_inside (real_grid lo hi N) y ->
  exists i, (0 <= i < N - 1)%Z /\ rg_node (real_grid lo hi N) i <= y <= rg_node (real_grid lo hi N) (i + 1).
Proof.
  intros H [Hl Hh]. pose proof (dx_pos _ _ _ H) as D. pose proof (n_two _ _ _ H) as N2.
  set (g := real_grid lo hi N) in *. set (tau := (y - rg_lo g) / rg_dx g).
  assert (E : tau * rg_dx g = y - rg_lo g) by (unfold tau; field; lra).
  assert (W : IZR (N - 1) * rg_dx g = rg_hi g - rg_lo g).
  { unfold rg_dx. change (rg_n g) with N. field. apply not_0_IZR. lia. }
  assert (T0 : 0 <= tau) by (apply (Rmult_le_reg_r (rg_dx g)); lra).
  destruct (Z.lt_ge_cases (Zfloor tau) (N - 1)) as [C|C].
  - exists (Zfloor tau). pose proof (Zfloor_lb tau) as F1. pose proof (Zfloor_ub tau) as F2. split.
    + split; [|exact C]. apply Zfloor_lub. simpl. lra.
    + rewrite node_next. unfold rg_node.
      assert (IZR (Zfloor tau) * rg_dx g <= tau * rg_dx g) by (apply Rmult_le_compat_r; lra).
      assert (tau * rg_dx g <= (IZR (Zfloor tau) + 1) * rg_dx g) by (apply Rmult_le_compat_r; lra). lra.
  - exists (N - 2)%Z. split; [lia|]. rewrite node_next. unfold rg_node.
    assert (P : IZR (N - 1) <= tau) by (apply Rle_trans with (2 := Zfloor_lb tau); now apply IZR_le).
    assert (Q : IZR (N - 1) * rg_dx g <= tau * rg_dx g) by (apply Rmult_le_compat_r; lra).
    replace (N - 2)%Z with (N - 1 - 1)%Z by ring. rewrite minus_IZR. lra.
Qed.

Lemma interpolant_exists dims : forall rs f, Forall axis_ok dims -> inside rs dims -> exists r, interpolates rs dims f r.
Proof.
  induction dims as [|D ds IH]; intros rs f HD HI; destruct rs as [|[y|j] rs]; cbn in HI; try contradiction.
  - exists (f []). reflexivity.
  - destruct D as [g|n]; [|contradiction]. destruct HI as [Hy HI]. inversion HD as [|? ? H1 H2]; subst.
    destruct H1 as (lo & hi & E & Ho). rewrite E in Hy. destruct (cell_exists _ _ _ _ Ho Hy) as (i & Hi & Hn). rewrite <- E in Hn.
    destruct (IH rs (fun is => f (i :: is)) H2 HI) as [a Ha]. destruct (IH rs (fun is => f ((i + 1)%Z :: is)) H2 HI) as [b Hb].
    pose proof (dx_pos _ _ _ Ho) as D. rewrite <- E in D.
    exists (((rg_node g (i + 1) - y) * a + (y - rg_node g i) * b) / rg_dx g). cbn [interpolates].
    exists i, a, b. repeat split; try assumption; try lia; try apply Hn. field. lra.
  - destruct D as [g|n]; [contradiction|]. destruct HI as [Hj HI]. inversion HD; subst.
    destruct (IH rs (fun is => f (j :: is))) as [a Ha]; try assumption. exists a. cbn. auto.
Qed.

(** interpolants stay within the numbers interpolated *)
Lemma convex_bound s t d r a b lo hi : 0 <= s -> 0 <= t -> s + t = d -> 0 < d -> r * d = s * a + t * b ->
  lo <= a <= hi -> lo <= b <= hi -> lo <= r <= hi.
Proof.
  intros Hs Ht E D Er Ha Hb. split; apply (Rmult_le_reg_r d); try exact D; rewrite Er; subst d; rewrite Rmult_plus_distr_l.
  - apply Rplus_le_compat; rewrite (Rmult_comm lo); apply Rmult_le_compat_l; lra.
  - apply Rplus_le_compat; rewrite (Rmult_comm hi); apply Rmult_le_compat_l; lra.
Qed.

Lemma interpolant_bound F dims : forall rs d acc f r, Forall axis_ok dims -> stores64 F dims d acc f ->
  interpolates rs dims f r -> - F <= r <= F.
Proof.
  induction dims as [|D ds IH]; intros rs d acc f r HD HS HI; destruct rs as [|[y|j] rs]; cbn in HI; try contradiction.
  - destruct HS as (x & _ & _ & _ & H). subst r. now apply abs_both.
  - destruct D as [g|n]; [|contradiction]. inversion HD as [|? ? H1 H2]; subst.
    destruct H1 as (lo & hi & E & Ho). pose proof (dx_pos _ _ _ Ho) as D. rewrite <- E in D.
    destruct HI as (i & a & b & Hi & Hn & Ha & Hb & Er). cbn [stores64 rd_size] in HS.
    rewrite node_next in *.
    apply (convex_bound (rg_node g i + rg_dx g - y) (y - rg_node g i) (rg_dx g) r a b); try lra.
    + apply (IH _ _ _ _ _ H2 (HS i ltac:(lia)) Ha).
    + apply (IH _ _ _ _ _ H2 (HS (i + 1)%Z ltac:(lia)) Hb).
  - destruct D as [g|n]; [contradiction|]. destruct HI as [Hj HI]. inversion HD; subst.
    apply (IH _ _ _ _ _ ltac:(assumption) (HS j ltac:(cbn; lia)) HI).
Qed.

Lemma all_cells_bound dims : Forall axis_ok dims -> 0 <= all_cells dims <= 1000000 * INR (length dims).
Proof.
  induction dims as [|D ds IH]; intros H; [simpl; lra|]. inversion H as [|? ? H1 H2]; subst.
  specialize (IH H2). cbn [length]. rewrite S_INR. destruct D as [g|n]; cbn [all_cells]; [|lra].
  destruct H1 as (lo & hi & E & Ho). pose proof (cells_half _ _ _ Ho). pose proof (cells_le _ _ _ Ho). rewrite <- E in *. lra.
Qed.

Lemma query_inside cs : forall rs dims, query64 cs rs dims -> inside rs dims.
Proof.
  induction cs as [|[x|i] cs IH]; intros [|[y|j] rs] [|[g|n] ds]; cbn; try contradiction; auto.
  - intros (_ & H & Q). split; [apply H|now apply IH].
  - intros (-> & H & Q). split; [apply H|now apply IH].
Qed.

Section Interp.
  Variable L : Libm.
  Notation O := (B64_ops L).
  Variable F : R.
  Hypothesis HF : 1 <= F <= 1000.
  Notation grow n := ((1001 / 1000) ^ n).
  Lemma grow_pos n : 0 < grow n.
  Proof. apply pow_lt. lra. Qed.
  Lemma grow_ge n : 1 <= grow n.
  Proof. apply pow_R1_Rle. lra. Qed.
  Lemma grow_ten n : (n <= 10)%nat -> grow n <= 102 / 100.
  Proof. intros H. apply Rle_trans with (grow 10); [apply Rle_pow; [lra|exact H]|]. simpl. lra. Qed.

  Lemma interp64 dims : forall cs rs ps d acc f r, (length dims <= 10)%nat -> Forall2 (dim64 L) ps dims ->
    query64 cs rs dims -> stores64 F dims d acc f -> interpolates rs dims f r ->
    exists v, interp (O := O) cs ps d acc = Ok v /\ fin v /\
      Rabs (V v - r) <= 225 * u * F * grow (length dims) * all_cells dims.
  Proof.
    assert (U : 0 < u <= / 9000000000000000).
    { rewrite u_lit. split; [apply Rinv_0_lt_compat; lra|apply Rinv_le_contravar; lra]. }
    induction dims as [|D ds IH]; intros cs rs ps d acc f r Hl HD HQ HS HI.
    - destruct cs as [|[x|i] cs]; destruct rs as [|[y|j] rs]; cbn in HQ; try contradiction.
      inversion HD; subst. destruct HS as (x & H1 & H2 & H3 & H4). exists x. cbn [interp]. split; [exact H1|]. split; [exact H2|].
      cbn in HI. subst r. unfold V. rewrite H3. cbn [all_cells]. rewrite Rminus_diag_eq, Rabs_R0 by reflexivity. lra.
    - inversion HD as [|p ? ps' ? HD1 HD2]; subst. cbn [length] in Hl.
      pose proof (dims64_ok _ _ _ HD2) as Hok. pose proof (all_cells_bound ds Hok) as AC.
      assert (LN : 0 <= INR (length ds) <= 10).
      { split; [apply pos_INR|]. apply (le_INR _ 10) in Hl. rewrite S_INR in Hl. simpl in Hl. lra. }
      pose proof (grow_pos (length ds)) as G0. pose proof (grow_ge (length ds)) as G1. pose proof (grow_ten (length ds) ltac:(lia)) as G10.
      set (G := grow (length ds)) in *. set (C := all_cells ds) in *. set (ea := 225 * u * F * G * C).
      assert (GC : 0 <= G * C <= 102 / 100 * 10000000).
      { split; [apply Rmult_le_pos; lra|apply Rmult_le_compat; lra]. }
      assert (Hea : 0 <= ea <= F / 100).
      { replace ea with ((225 * u * (G * C)) * F) by (unfold ea; ring). replace (F / 100) with (1 / 100 * F) by field. split.
        - apply Rmult_le_pos; [|lra]. apply Rmult_le_pos; [lra|tauto].
        - apply Rmult_le_compat_r; [lra|]. apply Rle_trans with (225 * (/ 9000000000000000 * (102 / 100 * 10000000))); [|lra].
          rewrite Rmult_assoc. apply Rmult_le_compat_l; [lra|]. apply Rmult_le_compat; lra. }
      destruct cs as [|[x|i] cs]; destruct rs as [|[y|j] rs]; destruct D as [g|n]; cbn [query64] in HQ; try contradiction.
      + destruct HQ as (Fx & Hc & HQ). destruct HD1 as (lo & hi & G' & Eg & Ho & EG & ->). set (N := rg_n g) in *. clearbody N. subst g.
        cbn [stores64 rd_size] in HS. change (rg_n (real_grid lo hi N)) with N in HS.
        destruct (weights64 L lo hi N Ho x y Fx Hc) as (G'' & EG' & i & w0 & w1 & lam & Ew & Hi & Fw0 & Fw1 & Ey & Hlam & H1 & H0).
        rewrite EG in EG'. injection EG' as <-.
        cbn [interpolates] in HI. destruct HI as (c & a & b & Hc' & Hn & Ha & Hb & Er). change (rg_n (real_grid lo hi N)) with N in Hc'.
        pose proof (dx_pos _ _ _ Ho) as Dp. pose proof (cells_half _ _ _ Ho) as C1. pose proof (cells_le _ _ _ Ho) as C2.
        set (g := real_grid lo hi N) in *. set (e := u * cells g).
        assert (He : u / 2 <= e <= / 1000000000).
        { unfold e. split; [apply Rle_trans with (u * (1 / 2)); [lra|apply Rmult_le_compat_l; lra]|].
          apply Rle_trans with (/ 9000000000000000 * 1000000); [apply Rmult_le_compat; lra|lra]. }
        replace (32 * u * cells g) with (32 * e) in * by (unfold e; ring).
        replace (41 * u * cells g) with (41 * e) in * by (unfold e; ring).
        replace (44 * u * cells g) with (44 * e) in * by (unfold e; ring).
        pose proof (query_inside _ _ _ HQ) as Hin.
        assert (B : forall k a, (0 <= k < N)%Z -> interpolates rs ds (fun is => f (k :: is)) a -> Rabs a <= F).
        { intros k a' Hk Hk'. apply abs_bound. apply (interpolant_bound F ds rs d _ _ a' Hok (HS k Hk) Hk'). }
        (* computed values, for any interpolants of the two slices *)
        assert (K : forall A B', interpolates rs ds (fun is => f (i :: is)) A -> interpolates rs ds (fun is => f ((i + 1)%Z :: is)) B' ->
          exists v, interp (O := O) (Along x :: cs) ((N, Some G') :: ps') d acc = Ok v /\ fin v /\
            Rabs (V v - ((1 - lam) * A + lam * B')) <= 96 * (e * F) + 1001 / 1000 * ea).
        { intros A B' HA HB.
          destruct (IH cs rs ps' d (acc * N + i)%Z _ A ltac:(lia) HD2 HQ (HS i ltac:(lia)) HA) as (va & Ea & Fa & Ra).
          destruct (IH cs rs ps' d (acc * N + (i + 1))%Z _ B' ltac:(lia) HD2 HQ (HS (i + 1)%Z ltac:(lia)) HB) as (vb & Eb & Fb & Rb).
          fold G in Ra, Rb. fold C in Ra, Rb. fold ea in Ra, Rb.
          cbn [interp]. rewrite Ew. cbn [bind]. rewrite Ea. cbn [bind]. rewrite Eb. cbn [bind]. eexists. split; [reflexivity|].
          apply (combine64 w0 w1 va vb lam e A B' ea F); try assumption.
          - apply (B i A); [lia|exact HA]. - apply (B (i + 1)%Z B'); [lia|exact HB]. }
        assert (Fin1 : 225 * (e * F) + 1001 / 1000 * ea <= 225 * u * F * grow (length (Axis g :: ds)) * all_cells (Axis g :: ds)).
        { cbn [all_cells length]. rewrite <- tech_pow_Rmult. fold G. fold C. unfold ea, e.
          assert (0 < u * cells g * F) by (apply Rmult_lt_0_compat; [apply Rmult_lt_0_compat; lra|lra]).
          assert (u * cells g * F * 1 <= u * cells g * F * (1001 / 1000 * G)) by (apply Rmult_le_compat_l; lra).
          lra. }
        (* which cell *)
        assert (Er' : exists mu, 0 <= mu <= 1 /\ y = rg_node g c + mu * rg_dx g /\ r = (1 - mu) * a + mu * b).
        { exists ((y - rg_node g c) / rg_dx g). rewrite node_next in *. split; [|split].
          - split; apply (Rmult_le_reg_r (rg_dx g)); try exact Dp; unfold Rdiv; rewrite Rmult_assoc, Rinv_l by lra; lra.
          - field. lra.
          - apply (Rmult_eq_reg_r (rg_dx g)); [|lra]. rewrite Er. field. lra. }
        destruct Er' as (mu & Hmu & Ey' & ->).
        assert (IL : IZR i + lam = IZR c + mu).
        { apply (Rmult_eq_reg_r (rg_dx g)); [|lra]. unfold rg_node in *. lra. }
        assert (Hic : i = c \/ i = (c + 1)%Z \/ i = (c - 1)%Z).
        { assert (i < c + 2)%Z by (apply lt_IZR; rewrite plus_IZR; simpl; lra).
          assert (c - 2 < i)%Z by (apply lt_IZR; rewrite minus_IZR; simpl; lra). lia. }
        assert (P0 : 0 <= e * F) by (apply Rmult_le_pos; lra).
        destruct Hic as [->|[->|Hic]].
        * assert (lam = mu) by lra. subst mu. destruct (K a b Ha Hb) as (v & Ev & Fv & Rv). exists v. split; [exact Ev|]. split; [exact Fv|]. lra.
        * rewrite plus_IZR in IL. simpl in IL.
          destruct (interpolant_exists ds rs (fun is => f ((c + 1 + 1)%Z :: is)) Hok Hin) as [z Hz].
          destruct (K b z Hb Hz) as (v & Ev & Fv & Rv). exists v. split; [exact Ev|]. split; [exact Fv|].
          pose proof (no_jump (1 - mu) e a b z F ltac:(lra) (B c a ltac:(lia) Ha) (B (c + 1)%Z b ltac:(lia) Hb) (B (c + 1 + 1)%Z z ltac:(lia) Hz)) as J.
          assert (lam = mu - 1) by lra. subst lam.
          replace ((1 + (1 - mu)) * b - (1 - mu) * z - ((1 - (1 - mu)) * b + (1 - mu) * a))
            with ((1 - (mu - 1)) * b + (mu - 1) * z - ((1 - mu) * a + mu * b)) in J by ring.
          apply Rle_trans with (1 := abs_near _ _ _ _ _ Rv J). lra.
        * assert (i = c - 1)%Z by lia. subst i. rewrite minus_IZR in IL. simpl in IL.
          destruct (interpolant_exists ds rs (fun is => f ((c - 1)%Z :: is)) Hok Hin) as [z Hz].
          assert (Ha' : interpolates rs ds (fun is => f ((c - 1 + 1)%Z :: is)) a) by (replace (c - 1 + 1)%Z with c by ring; exact Ha).
          destruct (K z a Hz Ha') as (v & Ev & Fv & Rv). exists v. split; [exact Ev|]. split; [exact Fv|].
          pose proof (no_jump mu e b a z F ltac:(lra) (B (c + 1)%Z b ltac:(lia) Hb) (B c a ltac:(lia) Ha) (B (c - 1)%Z z ltac:(lia) Hz)) as J.
          assert (lam = mu + 1) by lra. subst lam.
          replace ((1 + mu) * a - mu * z - ((1 - mu) * a + mu * b))
            with ((1 - (mu + 1)) * z + (mu + 1) * a - ((1 - mu) * a + mu * b)) in J by ring.
          apply Rle_trans with (1 := abs_near _ _ _ _ _ Rv J). lra.
      + destruct HQ as (-> & Hj & HQ). destruct p as [n' og]. cbn in HD1. subst n'. cbn [interpolates] in HI. destruct HI as [_ HI].
        cbn [stores64 rd_size] in HS.
        destruct (IH cs rs ps' d (acc * n + j)%Z _ r ltac:(lia) HD2 HQ (HS j ltac:(lia)) HI) as (v & Ev & Fv & Rv).
        exists v. cbn [interp]. split; [exact Ev|]. split; [exact Fv|].
        cbn [all_cells length]. rewrite <- tech_pow_Rmult. fold G in Rv |- *. fold C in Rv |- *.
        assert (0 <= u * F * (G * C)) by (apply Rmult_le_pos; [apply Rmult_le_pos; lra|tauto]). lra.
  Qed.

  Lemma lookup64 b dims cs rs f r : (length dims <= 10)%nat -> holds64 L F b dims f -> query64 cs rs dims -> interpolates rs dims f r ->
    exists v, interpToReal (O := O) b cs = Ok v /\ fin v /\ Rabs (V v - r) <= 230 * F * all_cells dims * u /\ - F <= r <= F.
  Proof.
    intros Hl [H1 H2] HQ HI. pose proof (dims64_ok _ _ _ H1) as Hok. pose proof (all_cells_bound _ Hok) as AC.
    destruct (interp64 dims cs rs _ _ 0 f r Hl H1 HQ H2 HI) as (v & Ev & Fv & Rv). exists v. split; [exact Ev|]. split; [exact Fv|].
    split; [|apply (interpolant_bound F dims rs (db_data b) 0 f r Hok H2 HI)].
    pose proof (grow_ten (length dims) Hl) as G10. pose proof (grow_pos (length dims)). pose proof u_pos as U.
    assert (P : 0 <= u * F * all_cells dims) by (apply Rmult_le_pos; [apply Rmult_le_pos; lra|lra]).
    assert (u * F * all_cells dims * grow (length dims) <= u * F * all_cells dims * (102 / 100)) by (apply Rmult_le_compat_l; lra). lra.
  Qed.
End Interp.
