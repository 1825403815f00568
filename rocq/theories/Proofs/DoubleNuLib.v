(** Loading NuLib files in double precision: the sums over the energy groups. *)
From Coq Require Import Reals ZArith List Lra Lia Bool.
From Flocq Require Import Core IEEE754.BinarySingleNaN.
From Verif Require Import Base.Outcome Base.Ops Inst.B64 Model.RadTypes Model.Constants Model.MeanUtils Model.Spiner Model.SpinerNeutrinos
  Spec.Means Spec.Tables Spec.Tabulated Spec.DoublePrecision Spec.DoubleTables Spec.DoubleSpiner
  Proofs.B64Facts Proofs.Near Proofs.NearConsts Proofs.NearRules Proofs.NarrowGroup Proofs.DoubleTables Proofs.DoubleLookup Proofs.DoubleSpiner Proofs.NuLibFacts.
Import ListNotations.
Open Scope R_scope.

Lemma u_tiny : 0 < u <= / 9000000000000000.
Proof. rewrite u_lit. split; [apply Rinv_0_lt_compat; lra|apply Rinv_le_contravar; lra]. Qed.

(** an answer near a number that is near another *)
Lemma within_trans n m x P r : within n x P -> Rabs (P - r) <= m * u * r -> 0 < P -> 0 < r -> 0 <= n * u <= 1 / 1000 ->
  within (n + 1001 / 1000 * m) x r.
Proof.
  intros [Fx Ex] Em HP Hr Hn. split; [exact Fx|]. fold u (V x) in Ex |- *. rewrite (Rabs_pos_eq P) in Ex by lra. rewrite (Rabs_pos_eq r) by lra.
  pose proof (abs_both _ _ Em) as Em'. apply Rle_trans with (n * u * P + m * u * r); [apply abs_near with P; assumption|].
  assert (n * u * P <= n * u * (r + m * u * r)) by (apply Rmult_le_compat_l; lra).
  assert (K : n * u * (m * u * r) <= 1 / 1000 * (m * u * r)) by (apply Rmult_le_compat_r; lra).
  replace ((n + 1001 / 1000 * m) * u * r) with (n * u * r + m * u * r + 1 / 1000 * (m * u * r)) by field.
  replace (n * u * (r + m * u * r)) with (n * u * r + n * u * (m * u * r)) in H by ring. lra.
Qed.
Lemma near_rel n a b x r : near n a b x r -> n <= 2 ^ 40 -> Rabs (V x - r) <= 1002 / 1000 * n * u * r.
Proof.
  intros H Hn. destruct (near_pos _ _ _ _ _ H) as [P _]. destruct (near_within n a b x r (1002 / 1000 * n) H ltac:(lra) Hn) as [_ E].
  fold u (V x) in E. rewrite (Rabs_pos_eq r) in E by lra. exact E.
Qed.
Lemma near_trans n1 a1 b1 x r1 n2 a2 b2 p r2 : near n1 a1 b1 x r1 -> r1 = V p -> near n2 a2 b2 p r2 -> near (n1 + n2) a2 b2 x r2.
Proof.
  intros (Fx & N1 & R1 & H1) -> (Fp & N2 & R2 & H2). split; [exact Fx|]. split; [lra|]. split; [exact R2|].
  pose proof (exp_pos (n1 * w)). pose proof (exp_pos (- (n1 * w))). rewrite <- scale_add', <- scale_add.
  pose proof (scale_add' r2 n1 n2) as S1. pose proof (scale_add r2 n1 n2) as S2.
  replace (r2 * exp (- (n1 * w)) * exp (- (n2 * w))) with (r2 * exp (- (n2 * w)) * exp (- (n1 * w))) by ring.
  replace (r2 * exp (n1 * w) * exp (n2 * w)) with (r2 * exp (n2 * w) * exp (n1 * w)) by ring. split.
  - apply Rle_trans with (2 := proj1 H1). apply Rmult_le_compat_r; lra.
  - apply Rle_trans with (1 := proj2 H1). apply Rmult_le_compat_r; lra.
Qed.

Section Sums.
  Variable L : Libm.
  Notation O := (B64_ops L).
  Notation pc := (@PhysicalConstantsCGS b64 O).
  Hypothesis HL : accurate_libm L.
  Hypothesis HG : accurate_log10 L.

  Lemma c_MEV : near 2 (-20) (-19) (@sp_MEV b64 O pc) (10 ^ 6 * eV_cgs).
  Proof.
    apply (lit_near' 2 _ 1602176565 (10 ^ 15)); [vm_compute; reflexivity|]. unfold eV_cgs.
    change (10 ^ 15)%Z with (10 ^ Z.of_nat 15)%Z. rewrite <- pow_IZR. field.
  Qed.

  (** ten to a logarithm with an error *)
  Lemma pow_near v r D : fin v -> Rabs (V v - r) <= D * u -> 0 <= D <= 400 -> -200 <= r <= 200 ->
    near (237 / 100 * D + 3) (-840) 840 (@Opow b64 O (@OofZ b64 O 10) v) (pow10 r).
  Proof.
    intros Fv H HD Hb. pose proof u_tiny as U. assert (Du : 0 <= D * u <= 1 / 1000).
    { split; [apply Rmult_le_pos; lra|]. apply Rle_trans with (400 * / 9000000000000000); [apply Rmult_le_compat; lra|lra]. }
    pose proof (abs_both _ _ H) as H'. pose proof (pow10_pos r) as P.
    destruct (FromLog64 L HL v Fv ltac:(lra)) as [Fp Ep]. unfold FromLog in Fp, Ep. set (p := @Opow b64 O (@OofZ b64 O 10) v) in *.
    fold u (V p) in Ep. rewrite (Rabs_pos_eq (pow10 (V v))) in Ep by (left; apply pow10_pos).
    pose proof (pow10_step r (V v) (D * u) H ltac:(lra)) as S. pose proof (abs_both _ _ S) as S'. set (Q := pow10 r) in *.
    assert (DP : 0 <= D * u * Q <= 1 / 1000 * Q) by (split; [apply Rmult_le_pos; lra|apply Rmult_le_compat_r; lra]).
    assert (uP : 0 < u * Q) by (apply Rmult_lt_0_compat; lra).
    assert (W : within (237 / 100 * D + 3) p Q).
    { split; [exact Fp|]. fold u (V p). rewrite (Rabs_pos_eq Q) by lra.
      apply Rle_trans with (2 * u * (11 / 10 * Q) + 236 / 100 * (D * u) * Q); [|lra].
      apply abs_near with (pow10 (V v)); [|exact S]. apply Rle_trans with (1 := Ep). apply Rmult_le_compat_l; lra. }
    destruct (within_near _ _ _ W ltac:(lra) P) as [F1 F2]. split; [exact F1|]. split; [lra|]. split; [|exact F2].
    destruct (pow10_range r ltac:(lra)) as [A B]. split; assumption.
  Qed.
  (** the logarithm of a double, and back *)
  Lemma log_abs F p : 1 <= F <= 200 -> fin p -> 0 < V p -> Rabs (log10 (V p)) <= F ->
    fin (@Olog10 b64 O p) /\ Rabs (V (@Olog10 b64 O p) - log10 (V p)) <= 2 * F * u.
  Proof.
    intros HF Fp Pp Bp. destruct (HG p Fp Pp) as [Fl El]. fold u in El. split; [exact Fl|]. apply Rle_trans with (1 := El).
    fold (V p). pose proof u_pos. apply Rle_trans with (2 * u * F); [apply Rmult_le_compat_l; lra|lra].
  Qed.
  Lemma log_back F p : 1 <= F <= 200 -> fin p -> 0 < V p -> Rabs (log10 (V p)) <= F ->
    near (474 / 100 * F + 3) (-840) 840 (@Opow b64 O (@OofZ b64 O 10) (@Olog10 b64 O p)) (V p).
  Proof.
    intros HF Fp Pp Bp. destruct (log_abs F p HF Fp Pp Bp) as [Fl El].
    pose proof (abs_both _ _ Bp). pose proof (pow_near _ (log10 (V p)) (2 * F) Fl El ltac:(lra) ltac:(lra)) as N.
    rewrite pow10_log in N by exact Pp. apply (near_conv _ _ _ _ _ (474 / 100 * F + 3) (-840) 840 _ N); [reflexivity|lra|lia|lia].
  Qed.

  (** the spacing of a grid *)
  Lemma dx_near lo hi N G : ordinary lo hi N -> mk_grid (O := O) lo hi N = Ok G ->
    near 3 (-20) 11 (g_dx G) (rg_dx (real_grid lo hi N)) /\ / 1000000 <= rg_dx (real_grid lo hi N) /\ g_N G = N /\
    rg_dx (real_grid lo hi N) * IZR (N - 1) <= 2 * extent (real_grid lo hi N).
  Proof.
    intros Ho EG. rewrite (grid64 L lo hi N Ho) in EG. injection EG as <-. cbn [g_dx g_N].
    pose proof (dx_pos _ _ _ Ho) as Dp. pose proof (n_two _ _ _ Ho) as N2. pose proof (n_small _ _ _ Ho) as Ns. pose proof u_tiny as U.
    pose proof (cells_le _ _ _ Ho) as Cl. pose proof (extent_1 lo hi N) as X1. unfold cells in Cl.
    destruct Ho as (Fl & Fh & Hlt & _ & HX & _). fold (V lo) (V hi) in Hlt.
    assert (Hl : - extent (real_grid lo hi N) <= V lo <= extent (real_grid lo hi N)).
    { apply abs_both. unfold extent. apply Rle_trans with (2 := Rmax_r _ _). apply Rmax_l. }
    assert (Hh : - extent (real_grid lo hi N) <= V hi <= extent (real_grid lo hi N)).
    { apply abs_both. unfold extent. apply Rle_trans with (2 := Rmax_r _ _). apply Rmax_r. }
    set (X := extent (real_grid lo hi N)) in *. set (dx := rg_dx (real_grid lo hi N)) in *.
    assert (Hn : 1 <= IZR (N - 1)) by (apply IZR_le; lia).
    assert (Hw : IZR (N - 1) * dx = V hi - V lo) by (unfold dx, rg_dx; cbn [rg_hi rg_lo rg_n real_grid]; unfold V; field; lra).
    assert (D1000 : dx <= 2000).
    { apply Rle_trans with (IZR (N - 1) * dx); [rewrite <- (Rmult_1_l dx) at 1; apply Rmult_le_compat_r; lra|lra]. }
    assert (Dlow : / 1000000 <= dx).
    { apply (Rmult_le_compat_r dx) in Cl; [|lra]. unfold Rdiv in Cl. rewrite Rmult_assoc, Rinv_l in Cl by lra. lra. }
    split; [|split; [exact Dlow|split; [reflexivity|lra]]].
    destruct (op_sub hi lo (V hi - V lo) Fh Fl) as [F1 E1]; [apply abs_bound; lra|apply small_900; nra|apply big_1000; lra|].
    destruct (of_Z_exact (N - 1)) as [EN FN]; [lia|].
    rewrite <- Hw in E1. set (d1 := Bminus mode_NE hi lo) in *. set (n1 := IZR (N - 1)) in *.
    assert (Q : Rabs (V d1 / n1 - dx) <= u * dx).
    { replace (V d1 / n1 - dx) with ((V d1 - n1 * dx) * / n1) by (field; lra).
      rewrite Rabs_mult, (Rabs_pos_eq (/ n1)) by (left; apply Rinv_0_lt_compat; lra).
      apply (Rmult_le_reg_r n1); [lra|]. rewrite Rmult_assoc, Rinv_l by lra. lra. }
    pose proof (op_div d1 (b64_of_Z (N - 1)) (101 / 100 * dx) F1) as P. rewrite EN in P. specialize (P ltac:(lra)).
    assert (ud : 0 < u * dx <= 1 / 100 * dx) by (split; [apply Rmult_lt_0_compat; lra|apply Rmult_le_compat_r; lra]).
    destruct P as [F2 E2].
    - apply Rle_trans with (1 := abs_size _ dx _ dx Q (abs_bound dx dx ltac:(lra))). lra.
    - apply small_900. lra.
    - apply big_1000. lra.
    - set (d2 := Bdiv mode_NE d1 (b64_of_Z (N - 1))) in *.
      assert (W : within 3 d2 dx).
      { split; [exact F2|]. fold u (V d2). rewrite (Rabs_pos_eq dx) by lra. apply Rle_trans with (1 := abs_near _ _ _ _ _ E2 Q). lra. }
      destruct (within_near 3 _ _ W ltac:(lra) Dp) as [G1 G2]. split; [exact G1|]. split; [lra|]. split; [|exact G2].
      change (bp (-20)) with (/ IZR (2 ^ 20)). change (bp 11) with (IZR (2 ^ 11)).
      split; [apply Rle_trans with (2 := Dlow); apply Rinv_le_contravar; [lra|simpl; lra]|simpl; lra].
  Qed.

  (** sums of numbers of the same accuracy *)
  Fixpoint addup (k : nat) (t : nat -> b64) : b64 := match k with 0%nat => @OofZ b64 O 0 | S j => @Oadd b64 O (addup j t) (t j) end.
  Lemma zero_plus (x : b64) : fin x -> 0 < V x -> @Oadd b64 O (@OofZ b64 O 0) x = x.
  Proof. intros F P. destruct x as [s| | |s m e H]; try discriminate F; [exfalso; unfold V in P; cbn in P; lra|reflexivity]. Qed.
  Lemma rsum_range f lo hi : forall k, (forall i, (i < k)%nat -> lo <= f i <= hi) -> INR k * lo <= rsum k f <= INR k * hi.
  Proof.
    induction k as [|k IH]; intros H; [simpl; lra|]. cbn [rsum]. rewrite S_INR. specialize (IH ltac:(intros; apply H; lia)).
    pose proof (H k ltac:(lia)). lra.
  Qed.
  Lemma near_addup m a b t f : 0 <= m <= 10000000 -> (-900 <= a)%Z -> (b <= 900)%Z -> forall k, (1 <= k)%nat -> INR k <= 4000000 ->
    (forall i, (i < k)%nat -> near m a b (t i) (f i)) -> near (m + INR k) a (b + 22) (addup k t) (rsum k f).
  Proof.
    intros Hm Ha Hb. assert (T40 : 2 ^ 40 = 1099511627776) by (simpl; lra).
    induction k as [|k IH]; intros Hk HK H; [lia|]. pose proof (H k ltac:(lia)) as Hl. rewrite S_INR in *.
    assert (K0 : 0 <= INR k) by apply pos_INR.
    assert (Rg : bp a <= rsum (S k) f <= bp (b + 22)).
    { pose proof (rsum_range f (bp a) (bp b) (S k) ltac:(intros i Hi; apply (H i Hi))) as Q. rewrite S_INR in Q.
      pose proof (bpow_gt_0 radix2 a). pose proof (bpow_gt_0 radix2 b). split.
      - apply Rle_trans with ((INR k + 1) * bp a); [|apply Q]. rewrite <- (Rmult_1_l (bp a)) at 1. apply Rmult_le_compat_r; lra.
      - apply Rle_trans with (1 := proj2 Q). rewrite bpow_plus, Rmult_comm. apply Rmult_le_compat_l; [lra|]. change (bp 22) with 4194304. lra. }
    cbn [addup]. destruct k as [|k].
    - destruct (near_pos _ _ _ _ _ Hl) as [_ Pt]. cbn [addup]. rewrite zero_plus by (try exact Pt; apply Hl).
      assert (E1 : rsum 1 f = f 0%nat) by (cbn [rsum]; ring). rewrite E1 in Rg |- *.
      apply (near_weaken _ (m + (INR 0 + 1)) _ _ a (b + 22) _ _ Hl); [simpl; lra|exact Rg].
    - specialize (IH ltac:(lia) ltac:(lra) ltac:(intros; apply H; lia)).
      assert (Hl' : near (m + INR (S k)) a b (t (S k)) (f (S k))) by (apply (near_weaken _ _ _ _ a b _ _ Hl); [lra|apply Hl]).
      pose proof (near_add _ _ _ _ _ _ _ _ _ _ IH Hl' ltac:(lia) ltac:(lia) ltac:(rewrite Rmax_left; lra)) as N. rewrite Rmax_left in N by lra.
      apply (near_weaken _ (m + (INR (S k) + 1)) _ _ a (b + 22) _ _ N); [lra|exact Rg].
  Qed.

  (** ** One node of the table: the groups [j], all storable *)
  Section Node.
    Variables (le0 le1 : b64) (NE : Z) (ge : Grid b64) (F : R) (j : nat -> b64).
    Hypothesis OE : ordinary le0 le1 NE.
    Hypothesis XE : extent (real_grid le0 le1 NE) <= 8.
    Hypothesis GE : mk_grid (O := O) le0 le1 NE = Ok ge.
    Hypothesis HF : 1 <= F <= 170.
    Hypothesis HJ : forall e, (Z.of_nat e < NE)%Z -> storable F (j e).
    Notation rE := (real_grid le0 le1 NE).
    Notation MeV := (10 ^ 6 * eV_cgs).
    Definition scaled (e : nat) : b64 := @Odiv b64 O (@Omul b64 O (pc_h pc) (j e)) (@sp_MEV b64 O pc).
    Notation lj e := (@Olog10 b64 O (scaled e)).

    Lemma j_range e : (Z.of_nat e < NE)%Z -> near 0 (-567) 567 (j e) (V (j e)) /\ pow10 (- F) <= V (j e) <= pow10 F.
    Proof.
      intros He. destruct (HJ e He) as (Fj & Pj & Bj). fold (V (j e)) in Pj, Bj. apply abs_both in Bj.
      assert (R : pow10 (- F) <= V (j e) <= pow10 F).
      { rewrite <- (pow10_log (V (j e)) Pj). split; apply pow10_mono; lra. }
      split; [|exact R]. apply near_exact; [exact Fj|reflexivity|].
      assert (U : pow10 170 <= bp 567).
      { replace 170 with (INR 170) by (simpl; lra). rewrite pow10_nat, pow_IZR. change (bp 567) with (IZR (2 ^ 567)). apply IZR_le. vm_compute. congruence. }
      assert (D : pow10 (- (170)) = / pow10 170) by (unfold pow10; now rewrite <- Rpower_Ropp).
      pose proof (pow10_pos 170) as P. split.
      - apply Rle_trans with (2 := proj1 R). apply Rle_trans with (pow10 (- (170))); [|apply pow10_mono; lra].
        rewrite D. change (-567)%Z with (- (567))%Z. rewrite bpow_opp. apply Rinv_le_contravar; [exact P|exact U].
      - apply Rle_trans with (1 := proj2 R). apply Rle_trans with (2 := U). apply pow10_mono. lra.
    Qed.
    Lemma log_hz : - (21) <= log10 (h_cgs / MeV) <= -20.
    Proof.
      assert (E : h_cgs / MeV = 662606957 / 1602176565 / 10 ^ 20) by (unfold h_cgs, eV_cgs; field).
      rewrite E.
      assert (P : forall n, log10 (/ 10 ^ n) = - INR n).
      { intros n. rewrite <- pow10_nat. replace (/ pow10 (INR n)) with (pow10 (- INR n)) by (unfold pow10; now rewrite Rpower_Ropp). apply log10_pow10. }
      pose proof (P 21%nat) as P21. pose proof (P 20%nat) as P20. replace (INR 21) with 21 in P21 by (simpl; lra). replace (INR 20) with 20 in P20 by (simpl; lra).
      replace (-20) with (- (20)) by lra. rewrite <- P21, <- P20.
      split; apply log_up; simpl; lra.
    Qed.
    Lemma scaled_near e : (Z.of_nat e < NE)%Z -> near 5 (-640) 520 (scaled e) (h_cgs * V (j e) / MeV) /\ fin (scaled e) /\ 0 < V (scaled e) /\ Rabs (log10 (V (scaled e))) <= F + 22.
    Proof.
      intros He. destruct (j_range e He) as [Nj Rj]. destruct (HJ e He) as (_ & Pj & Bj). fold (V (j e)) in Pj, Bj.
      pose proof (n_mul L _ _ _ _ _ _ _ _ _ _ (c_h L) Nj ltac:(lia) ltac:(lia) ltac:(lra)) as N1.
      pose proof (n_div L _ _ _ _ _ _ _ _ _ _ N1 c_MEV ltac:(lia) ltac:(lia) ltac:(lra)) as N2. fold (scaled e) in N2.
      assert (N3 : near 5 (-640) 520 (scaled e) (h_cgs * V (j e) / MeV)) by (apply (near_conv _ _ _ _ _ 5 (-640) 520 _ N2); [reflexivity|lra|lia|lia]).
      split; [exact N3|]. split; [apply N3|]. destruct (near_pos _ _ _ _ _ N3) as [P1 P2]. split; [exact P2|].
      pose proof (log_near _ _ _ _ _ N3) as Q. pose proof u_tiny as U.
      assert (E : log10 (h_cgs * V (j e) / MeV) = log10 (h_cgs / MeV) + log10 (V (j e))).
      { replace (h_cgs * V (j e) / MeV) with (h_cgs / MeV * V (j e)) by (unfold h_cgs, eV_cgs; field). unfold log10. rewrite ln_mult; [field; pose proof ln10; lra| |exact Pj].
        unfold h_cgs, eV_cgs. apply Rdiv_lt_0_compat; simpl; lra. }
      rewrite E in Q. pose proof log_hz. apply abs_both in Q, Bj. apply abs_bound. lra.
    Qed.
    Lemma energy_near e : (Z.of_nat e < NE)%Z ->
      near 190 (-28) 28 (@Opow b64 O (@OofZ b64 O 10) (@g_x b64 O ge (Z.of_nat e))) (pow10 (rg_node rE (Z.of_nat e))) /\
      pow10 (- (8)) <= pow10 (rg_node rE (Z.of_nat e)) <= pow10 8.
    Proof.
      intros He. destruct (sp_node L HL le0 le1 NE ge (Z.of_nat e) 8 OE XE ltac:(lra) GE ltac:(lia)) as (Fv & Bv & Ev & _).
      pose proof (node_in _ _ _ OE (Z.of_nat e) ltac:(lia)) as [I1 I2]. cbn [rg_lo rg_hi real_grid] in I1, I2. fold (V le0) (V le1) in I1, I2.
      assert (Hl : - extent rE <= V le0) by (apply (fun H => proj1 (abs_both _ _ H)); unfold extent; apply Rle_trans with (2 := Rmax_r _ _); apply Rmax_l).
      assert (Hh : V le1 <= extent rE) by (apply (fun H => proj2 (abs_both _ _ H)); unfold extent; apply Rle_trans with (2 := Rmax_r _ _); apply Rmax_r).
      assert (R8 : pow10 (- (8)) <= pow10 (rg_node rE (Z.of_nat e)) <= pow10 8) by (split; apply pow10_mono; lra).
      split; [|exact R8].
      assert (EV : Rabs (V (@g_x b64 O ge (Z.of_nat e)) - rg_node rE (Z.of_nat e)) <= 768 / 10 * u).
      { apply Rle_trans with (1 := Ev). pose proof u_pos. apply Rle_trans with (96 / 10 * u * 8); [apply Rmult_le_compat_l; lra|lra]. }
      pose proof (pow_near _ _ _ Fv EV ltac:(lra) ltac:(lra)) as N.
      apply (near_weaken _ 190 _ _ (-28) 28 _ _ N); [lra|].
      assert (U : pow10 8 = 100000000) by (replace 8 with (INR 8) by (simpl; lra); rewrite pow10_nat; simpl; lra).
      assert (D : pow10 (- (8)) = / 100000000) by (rewrite <- U; unfold pow10; now rewrite <- Rpower_Ropp).
      change (bp (-28)) with (/ 268435456). change (bp 28) with 268435456. lra.
    Qed.

    (** the integrands *)
    Definition term (e : nat) : b64 := @Omul b64 O (@Omul b64 O (@Omul b64 O (@OofZ b64 O 4) (@Opi b64 O))
      (@Odiv b64 O (@Omul b64 O (@Opow b64 O (@OofZ b64 O 10) (lj e)) (@sp_MEV b64 O pc)) (pc_h pc))) (@Opow b64 O (@OofZ b64 O 10) (@g_x b64 O ge (Z.of_nat e))).
    Definition count (e : nat) : b64 := @Odiv b64 O (term e) (@Omul b64 O (@sp_MEV b64 O pc) (@Opow b64 O (@OofZ b64 O 10) (@g_x b64 O ge (Z.of_nat e)))).
    Definition rterm (e : nat) : R := 4 * PI * V (j e) * pow10 (rg_node rE (Z.of_nat e)).
    Definition rcount (e : nat) : R := 4 * PI * V (j e) / MeV.
    Lemma four_near : near 0 2 2 (@OofZ b64 O 4) 4.
    Proof. destruct (of_Z_exact 4) as [E X]; [lia|]. apply near_exact; [exact X|exact E|]. change (bp 2) with 4. lra. Qed.
    Lemma spectrum_near e : (Z.of_nat e < NE)%Z ->
      near (474 / 100 * F + 120) (-575) 575 (@Odiv b64 O (@Omul b64 O (@Opow b64 O (@OofZ b64 O 10) (lj e)) (@sp_MEV b64 O pc)) (pc_h pc)) (V (j e)).
    Proof.
      intros He. destruct (scaled_near e He) as (Ns & Fs & Ps & Bs). destruct (j_range e He) as [Nj Rj].
      pose proof (near_trans _ _ _ _ _ _ _ _ _ _ (log_back (F + 22) _ ltac:(lra) Fs Ps Bs) eq_refl Ns) as N0.
      assert (T40 : 2 ^ 40 = 1099511627776) by (simpl; lra).
      pose proof (n_mul L _ _ _ _ _ _ _ _ _ _ N0 c_MEV ltac:(lia) ltac:(lia) ltac:(lra)) as N1.
      pose proof (n_div L _ _ _ _ _ _ _ _ _ _ N1 (c_h L) ltac:(lia) ltac:(lia) ltac:(lra)) as N2.
      assert (EQ : h_cgs * V (j e) / MeV * MeV / h_cgs = V (j e)) by (unfold h_cgs, eV_cgs; field).
      rewrite EQ in N2. apply (near_weaken _ (474 / 100 * F + 120) _ _ (-575) 575 _ _ N2); [lra|].
      destruct Nj as (_ & _ & [A B] & _). split; [apply Rle_trans with (2 := A)|apply Rle_trans with (1 := B)]; apply bpow_le; lia.
    Qed.
    Lemma term_near e : (Z.of_nat e < NE)%Z -> near (474 / 100 * F + 320) (-600) 607 (term e) (rterm e).
    Proof.
      intros He. pose proof (spectrum_near e He) as Ns. destruct (energy_near e He) as [Ne _]. assert (T40 : 2 ^ 40 = 1099511627776) by (simpl; lra).
      pose proof (n_mul L _ _ _ _ _ _ _ _ _ _ four_near (c_pi L) ltac:(lia) ltac:(lia) ltac:(lra)) as N1.
      pose proof (n_mul L _ _ _ _ _ _ _ _ _ _ N1 Ns ltac:(lia) ltac:(lia) ltac:(lra)) as N2.
      pose proof (n_mul L _ _ _ _ _ _ _ _ _ _ N2 Ne ltac:(lia) ltac:(lia) ltac:(lra)) as N3.
      apply (near_conv _ _ _ _ _ (474 / 100 * F + 320) (-600) 607 _ N3); [reflexivity|lra|lia|lia].
    Qed.
    Lemma count_near e : (Z.of_nat e < NE)%Z -> near (474 / 100 * F + 520) (-660) 660 (count e) (rcount e).
    Proof.
      intros He. pose proof (term_near e He) as Nt. destruct (energy_near e He) as [Ne _]. assert (T40 : 2 ^ 40 = 1099511627776) by (simpl; lra).
      pose proof (n_mul L _ _ _ _ _ _ _ _ _ _ c_MEV Ne ltac:(lia) ltac:(lia) ltac:(lra)) as N1.
      pose proof (n_div L _ _ _ _ _ _ _ _ _ _ Nt N1 ltac:(lia) ltac:(lia) ltac:(lra)) as N2.
      apply (near_conv _ _ _ _ _ (474 / 100 * F + 520) (-660) 660 _ N2); [|lra|lia|lia].
      unfold rterm, rcount. pose proof (pow10_pos (rg_node rE (Z.of_nat e))). unfold eV_cgs. field. lra.
    Qed.
    Lemma isum_addup k : @isum b64 O pc ge (fun e => lj e) k = (addup k term, addup k count).
    Proof. induction k as [|k IH]; [reflexivity|]. cbn [isum addup]. rewrite IH. reflexivity. Qed.

    Lemma pow10_n k : pow10 (INR k) = 10 ^ k /\ pow10 (- INR k) = / 10 ^ k.
    Proof. rewrite <- (pow10_nat k). split; [reflexivity|]. unfold pow10. apply Rpower_Ropp. Qed.
    Lemma total_gen t f n a b : (forall e, (Z.of_nat e < NE)%Z -> near n a b (t e) (f e)) -> n <= 2000 -> (-700 <= a)%Z -> (b <= 700)%Z ->
      (forall e, (Z.of_nat e < NE)%Z -> pow10 (- (F + 8)) <= f e <= pow10 (F + 10)) ->
      let p := @Omul b64 O (addup (Z.to_nat NE) t) (g_dx ge) in
      near (n + IZR NE + 4) (a - 20) (b + 33) p (rg_dx rE * rsum (Z.to_nat NE) f) /\ storable (F + 30) p.
    Proof.
      intros H Hn Ha Hb HR p. pose proof (n_two _ _ _ OE) as N2. pose proof (n_small _ _ _ OE) as Ns.
      destruct (dx_near le0 le1 NE ge OE GE) as (Nd & Dlow & _ & Dhi). assert (T40 : 2 ^ 40 = 1099511627776) by (simpl; lra).
      assert (EN : INR (Z.to_nat NE) = IZR NE) by (rewrite INR_IZR_INZ, Z2Nat.id by lia; reflexivity).
      assert (N0 : 0 <= n) by (apply (H 0%nat); lia).
      assert (RN : 2 <= IZR NE <= 2000001) by (split; apply IZR_le; lia).
      pose proof (near_addup n a b t f ltac:(lra) ltac:(lia) ltac:(lia) (Z.to_nat NE) ltac:(lia) ltac:(lra) ltac:(intros i Hi; apply H; lia)) as NA.
      rewrite EN in NA. pose proof (n_mul L _ _ _ _ _ _ _ _ _ _ NA Nd ltac:(lia) ltac:(lia) ltac:(lra)) as NP. fold p in NP.
      rewrite (Rmult_comm (rsum _ f)) in NP.
      assert (NP' : near (n + IZR NE + 4) (a - 20) (b + 33) p (rg_dx rE * rsum (Z.to_nat NE) f)) by (apply (near_conv _ _ _ _ _ (n + IZR NE + 4) (a - 20) (b + 33) _ NP); [reflexivity|lra|lia|lia]).
      split; [exact NP'|]. destruct (near_pos _ _ _ _ _ NP') as [Pr Pp].
      pose proof (rsum_range f _ _ (Z.to_nat NE) ltac:(intros i Hi; apply HR; lia)) as RS. rewrite EN in RS.
      pose proof (log_near _ _ _ _ _ NP') as LN. set (S := rsum (Z.to_nat NE) f) in *. set (dx := rg_dx rE) in *.
      assert (D2 : dx * IZR NE <= 32).
      { rewrite minus_IZR in Dhi. pose proof (dx_pos _ _ _ OE) as Dp. fold dx in Dp.
        assert (dx * 1 <= dx * (IZR NE - 1)) by (apply Rmult_le_compat_l; lra). lra. }
      assert (D1 : / 1000000 <= dx * IZR NE).
      { apply Rle_trans with (dx * 1); [lra|]. apply Rmult_le_compat_l; lra. }
      assert (Q : pow10 (- (F + 14)) <= dx * S <= pow10 (F + 12)).
      { pose proof (pow10_n 6) as [_ P6]. pose proof (pow10_n 2) as [P2 _]. replace (INR 6) with 6 in P6 by (simpl; lra). replace (INR 2) with 2 in P2 by (simpl; lra).
        replace (- (F + 14)) with (- (F + 8) + - (6)) by ring. replace (F + 12) with (F + 10 + 2) by ring. rewrite (pow10_plus (- (F + 8))), (pow10_plus (F + 10)), P6, P2.
        pose proof (pow10_pos (- (F + 8))) as K1. pose proof (pow10_pos (F + 10)) as K2. pose proof (dx_pos _ _ _ OE) as Dp. fold dx in Dp. split.
        - apply Rle_trans with (dx * (IZR NE * pow10 (- (F + 8)))); [|apply Rmult_le_compat_l; lra].
          replace (dx * (IZR NE * pow10 (- (F + 8)))) with (pow10 (- (F + 8)) * (dx * IZR NE)) by ring. apply Rmult_le_compat_l; simpl; lra.
        - apply Rle_trans with (dx * (IZR NE * pow10 (F + 10))); [apply Rmult_le_compat_l; lra|].
          replace (dx * (IZR NE * pow10 (F + 10))) with (pow10 (F + 10) * (dx * IZR NE)) by ring. apply Rmult_le_compat_l; simpl; lra. }
      assert (LQ : - (F + 14) <= log10 (dx * S) <= F + 12).
      { rewrite <- (log10_pow10 (- (F + 14))), <- (log10_pow10 (F + 12)).
        pose proof (pow10_pos (- (F + 14))). split; apply log_up; lra. }
      split; [apply NP'|]. fold (V p). split; [exact Pp|]. apply abs_both in LN.
      assert (51 / 100 * (n + IZR NE + 4) * u <= 1).
      { pose proof u_tiny. apply Rle_trans with (51 / 100 * (2002005) * / 9000000000000000); [apply Rmult_le_compat; lra|lra]. }
      apply abs_bound. lra.
    Qed.
    Lemma pi_range : 3 <= PI <= 32 / 10.
    Proof. pose proof PI_digits. lra. Qed.
    Lemma energy_total : let p := @Omul b64 O (fst (@isum b64 O pc ge (fun e => lj e) (Z.to_nat NE))) (g_dx ge) in
      near (474 / 100 * F + 324 + IZR NE) (-620) 640 p (rg_dx rE * rsum (Z.to_nat NE) rterm) /\ storable (F + 30) p.
    Proof.
      rewrite isum_addup. cbn [fst]. cbv zeta.
      destruct (total_gen term rterm (474 / 100 * F + 320) (-600) 607 term_near ltac:(lra) ltac:(lia) ltac:(lia)) as [A B].
      - intros e He. destruct (j_range e He) as [_ Rj]. destruct (energy_near e He) as [_ Re]. pose proof pi_range as HP.
        pose proof (pow10_pos (- F)) as K1. pose proof (pow10_pos (- (8))) as K2. unfold rterm.
        pose proof (pow10_n 2) as [P2 _]. replace (INR 2) with 2 in P2 by (simpl; lra).
        replace (- (F + 8)) with (- F + - (8)) by ring. replace (F + 10) with (2 + (F + 8)) by ring. rewrite !pow10_plus, P2.
        set (x := V (j e)) in *. set (y := pow10 (rg_node rE (Z.of_nat e))) in *.
        assert (Z : pow10 (- F) * pow10 (- (8)) <= x * y <= pow10 F * pow10 8) by (split; apply Rmult_le_compat; lra).
        assert (0 < pow10 (- F) * pow10 (- (8))) by (apply Rmult_lt_0_compat; lra).
        replace (4 * PI * x * y) with (4 * PI * (x * y)) by ring. split.
        + apply Rle_trans with (1 * (x * y)); [lra|]. apply Rmult_le_compat_r; lra.
        + apply Rmult_le_compat; simpl; lra.
      - split; [|exact B]. apply (near_conv _ _ _ _ _ (474 / 100 * F + 324 + IZR NE) (-620) 640 _ A); [reflexivity|lra|lia|lia].
    Qed.
    Lemma count_total : let p := @Omul b64 O (snd (@isum b64 O pc ge (fun e => lj e) (Z.to_nat NE))) (g_dx ge) in
      near (474 / 100 * F + 524 + IZR NE) (-680) 693 p (rg_dx rE * rsum (Z.to_nat NE) rcount) /\ storable (F + 30) p.
    Proof.
      rewrite isum_addup. cbn [snd]. cbv zeta.
      destruct (total_gen count rcount (474 / 100 * F + 520) (-660) 660 count_near ltac:(lra) ltac:(lia) ltac:(lia)) as [A B].
      - intros e He. destruct (j_range e He) as [_ Rj]. pose proof pi_range as HP. unfold rcount.
        pose proof (pow10_pos (- F)) as K1. pose proof (pow10_n 10) as [P10 _]. replace (INR 10) with 10 in P10 by (simpl; lra).
        replace (F + 10) with (10 + F) by ring. rewrite (pow10_plus 10 F), P10.
        assert (K : pow10 (- (F + 8)) <= pow10 (- F)) by (apply pow10_mono; lra).
        set (x := V (j e)) in *. replace (4 * PI * x / MeV) with (4 * PI / MeV * x) by (unfold eV_cgs; field).
        assert (M : 1 <= 4 * PI / MeV <= 10 ^ 10).
        { replace (4 * PI / MeV) with (PI * (4 * 10 ^ 15 / 1602176565)) by (unfold eV_cgs; field). simpl. lra. }
        split.
        + apply Rle_trans with (1 * x); [lra|]. apply Rmult_le_compat_r; lra.
        + apply Rmult_le_compat; lra.
      - split; [|exact B]. apply (near_conv _ _ _ _ _ (474 / 100 * F + 524 + IZR NE) (-680) 693 _ A); [reflexivity|lra|lia|lia].
    Qed.
  End Node.
End Sums.
