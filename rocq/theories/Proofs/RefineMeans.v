(** The guarded means converge to the averages over the band. *)
From Coquelicot Require Import Coquelicot.
From Coq Require Import Reals ZArith List Lia Lra.
From Verif Require Import Inst.ER Model.Constants Spec.Physics Spec.Opacities Spec.Tables Spec.Means Spec.Refinement
  Proofs.InterpFacts Proofs.PlanckFacts Proofs.MeanExact Proofs.C34 Proofs.Refine.
Open Scope R_scope.

Local Notation e := (/ 10 ^ 34).
Lemma e_small : 0 < e <= / 1000000.
Proof. split; [apply Rinv_0_lt_compat, pow_lt; lra|]. apply Rinv_le_contravar; [lra|]. replace 1000000 with (10 ^ 6) by ring. apply Rle_pow; [lra|lia]. Qed.
Lemma tiny_e m : / 10 ^ 200 <= m -> tiny <= e * (m / ln 10) /\ tiny < m / ln 10.
Proof.
  intros H. pose proof tiny_small as T. pose proof ln10_bounds as L. assert (P : 0 < / 10 ^ 200) by (apply Rinv_0_lt_compat, pow_lt; lra).
  assert (G : tiny <= e * (m / ln 10)).
  { apply Rle_trans with (/ 10 ^ 306); [lra|]. apply Rle_trans with (e * (/ 10 ^ 200 / 10)).
    - replace (e * (/ 10 ^ 200 / 10)) with (/ 10 ^ 235) by (field; repeat split; apply pow_nonzero; lra).
      apply Rinv_le_contravar; [apply pow_lt; lra|]. apply Rle_pow; [lra|lia].
    - apply Rmult_le_compat_l; [pose proof e_small; lra|]. unfold Rdiv. apply Rmult_le_compat; [lra|lra|exact H|]. apply Rinv_le_contravar; lra. }
  split; [exact G|]. apply Rle_lt_trans with (1 := G). assert (0 < m / ln 10) by (apply Rdiv_lt_0_compat; lra). pose proof e_small. nra.
Qed.

(** a quotient of two numbers known to one part in eta *)
Lemma ratio_close s d S D eta : 0 <= s -> 0 < d -> 0 <= eta <= / 100 ->
  (1 - eta) * s <= S <= (1 + eta) * s -> (1 - eta) * d <= D <= (1 + eta) * d ->
  Rabs (S / D - s / d) <= 3 * eta * (s / d).
Proof.
  intros Hs Hd He HS HD. assert (PD : 0 < D) by nra.
  assert (K : S / D - s / d = (S * d - s * D) / (D * d)) by (field; lra). rewrite K.
  replace (3 * eta * (s / d)) with (3 * eta * s * D / (D * d)) by (field; lra).
  assert (P : 0 < D * d) by (apply Rmult_lt_0_compat; assumption).
  unfold Rdiv. rewrite Rabs_mult, (Rabs_pos_eq (/ (D * d))) by (apply Rlt_le, Rinv_0_lt_compat, P).
  apply Rmult_le_compat_r; [apply Rlt_le, Rinv_0_lt_compat, P|].
  assert (Q : 0 <= s * d) by (apply Rmult_le_pos; lra).
  assert (A1 : (1 - eta) * (s * d) <= S * d <= (1 + eta) * (s * d)) by (split; nra).
  assert (A2 : (1 - eta) * (s * d) <= s * D <= (1 + eta) * (s * d)) by (split; nra).
  apply Rabs_le. split; nra.
Qed.

(** ** A weight close to a continuous spectrum *)
Section Weighted.
  Context (W B : R -> R) (c : R) (W1 W2 : R -> R) (Hc : 0 < c)
    (HW1 : forall x, 0 < x -> x < c -> W x = W1 x) (HW2 : forall x, 0 < x -> c < x -> W x = W2 x)
    (C1 : forall x, 0 < x -> continuous W1 x) (C2 : forall x, 0 < x -> continuous W2 x)
    (CB : forall x, 0 < x -> continuous B x) (PB : forall x, 0 < x -> 0 < B x)
    (CW : forall x, 0 < x -> (1 - e) * B x <= W x <= (1 + e) * B x)
    (l : R * R) (Hl : fst l < snd l).
  Local Notation band := (pow10 (fst l), pow10 (snd l)).

  Lemma band_lt : 0 < pow10 (fst l) < pow10 (snd l).
  Proof. split; [apply pow10_pos|now apply (proj1 (pow10_lt _ _))]. Qed.

  Lemma weighted_pieces f : (forall x, 0 < x -> continuous f x) ->
    pieces c (fun nu => f nu * W nu) (fun nu => f nu * W1 nu) (fun nu => f nu * W2 nu).
  Proof.
    intros Hf. split; [intros; f_equal; auto|]. split; [intros; f_equal; auto|].
    split; intros x Hx; [apply (continuous_mult f W1)|apply (continuous_mult f W2)]; auto.
  Qed.
  Lemma RInt_pos f a b : a < b -> (forall x, a <= x <= b -> continuous f x /\ 0 < f x) -> 0 < RInt f a b.
  Proof.
    intros Hab H. apply RInt_gt_0; [exact Hab| |]; intros x Hx; apply H; lra.
  Qed.
  (** for every g close below or above to f on the band *)
  Lemma average_close f g : (forall x, 0 < x -> continuous g x) -> (forall x, inside_band band x -> continuous f x) ->
    (forall x, inside_band band x -> 0 <= f x /\ (1 - e) * f x <= g x <= f x) ->
    let s := total (fun nu => f nu * B nu) band / ln 10 in 0 < s ->
    exists N0, forall N, (N0 <= N)%Z -> (1 - 3 * e) * s <= average_sum W l N g <= (1 + 2 * e) * s.
  Proof.
    intros Cg Cf Hfg s Hs. pose proof band_lt as HB. pose proof e_small as He. pose proof ln10_bounds as HL.
    destruct (pieces_RInt c _ _ _ (fst l) (snd l) (weighted_pieces g Cg) ltac:(lra) Hc) as (EX & _).
    assert (EF : ex_RInt (fun nu => f nu * B nu) (pow10 (fst l)) (pow10 (snd l))).
    { apply (ex_RInt_continuous (fun nu => f nu * B nu)). rewrite Rmin_left, Rmax_right by lra. intros x Hx.
      apply (continuous_mult f B); [now apply Cf|apply CB; lra]. }
    destruct (average_converges W g c _ _ l Hl Hc (weighted_pieces g Cg) (e * s) ltac:(nra)) as (N0 & HN).
    exists N0. intros N H. specialize (HN N H). apply Rabs_le_between in HN.
    set (I := RInt (fun nu => g nu * W nu) (pow10 (fst l)) (pow10 (snd l))) in *.
    assert (L1 : (1 - 2 * e) * total (fun nu => f nu * B nu) band <= I).
    { unfold total, I; cbn [fst snd]. rewrite <- (RInt_scal (fun nu => f nu * B nu) _ _ (1 - 2 * e)) by exact EF.
      apply RInt_le; [lra|apply (ex_RInt_scal (fun nu => f nu * B nu)); exact EF|exact EX|]. intros x Hx. unfold scal; cbn. unfold mult; cbn.
      destruct (Hfg x) as (F0 & F1); [unfold inside_band; cbn; lra|]. pose proof (CW x ltac:(lra)) as (F3 & F4). pose proof (PB x ltac:(lra)) as F5.
      apply Rle_trans with (((1 - e) * f x) * ((1 - e) * B x)).
      - assert (0 <= f x * B x) by (apply Rmult_le_pos; lra). assert (0 <= e * e * (f x * B x)) by (repeat apply Rmult_le_pos; lra). nra.
      - apply Rmult_le_compat; try lra; apply Rmult_le_pos; lra. }
    assert (L2 : I <= (1 + e) * total (fun nu => f nu * B nu) band).
    { unfold total, I; cbn [fst snd]. rewrite <- (RInt_scal (fun nu => f nu * B nu) _ _ (1 + e)) by exact EF.
      apply RInt_le; [lra|exact EX|apply (ex_RInt_scal (fun nu => f nu * B nu)); exact EF|]. intros x Hx. unfold scal; cbn. unfold mult; cbn.
      destruct (Hfg x) as (F0 & F1); [unfold inside_band; cbn; lra|]. pose proof (CW x ltac:(lra)) as (F3 & F4). pose proof (PB x ltac:(lra)) as F5.
      apply Rle_trans with (f x * W x); [apply Rmult_le_compat_r; [nra|lra]|]. apply Rle_trans with (f x * ((1 + e) * B x)); [apply Rmult_le_compat_l; lra|lra]. }
    assert (M1 : (1 - 2 * e) * s <= I / ln 10).
    { unfold s. replace ((1 - 2 * e) * (total (fun nu => f nu * B nu) band / ln 10)) with (((1 - 2 * e) * total (fun nu => f nu * B nu) band) / ln 10) by (unfold Rdiv; ring).
      apply Rmult_le_compat_r; [apply Rlt_le, Rinv_0_lt_compat; lra|exact L1]. }
    assert (M2 : I / ln 10 <= (1 + e) * s).
    { unfold s. replace ((1 + e) * (total (fun nu => f nu * B nu) band / ln 10)) with (((1 + e) * total (fun nu => f nu * B nu) band) / ln 10) by (unfold Rdiv; ring).
      apply Rmult_le_compat_r; [apply Rlt_le, Rinv_0_lt_compat; lra|exact L2]. }
    assert (0 <= e * s) by nra. split; lra.
  Qed.
  Lemma weight_close : bright B band -> let d := total B band / ln 10 in
    exists N0, forall N, (N0 <= N)%Z -> (1 - 3 * e) * d <= average_sum W l N (fun _ => 1) <= (1 + 2 * e) * d.
  Proof.
    intros Hb d. assert (E : total (fun nu => 1 * B nu) band = total B band) by (apply RInt_ext; intros; match goal with |- ?x = ?y => change (@eq R x y) end; ring).
    unfold d. rewrite <- E. apply average_close.
    - intros. apply continuous_const.
    - intros. apply continuous_const.
    - intros. pose proof e_small. lra.
    - rewrite E. unfold bright in Hb. pose proof ln10_bounds. assert (0 < / 10 ^ 200) by (apply Rinv_0_lt_compat, pow_lt; lra).
      apply Rdiv_lt_0_compat; lra.
  Qed.

  Lemma samples_inside N i : (0 < N)%Z -> (i < Z.to_nat N)%nat -> inside_band band (frequency l N i).
  Proof. intros HN Hi. pose proof (frequency_bounds l N Hl HN i Hi). unfold inside_band; cbn. lra. Qed.
  (** ... and the rate *)
  Lemma average_rate f g N eta : (0 < N)%Z -> 0 <= eta <= / 200 -> (forall x, inside_band band x -> continuous f x) ->
    (forall x, inside_band band x -> 0 <= f x /\ (1 - e) * f x <= g x <= f x) ->
    let s := total (fun nu => f nu * B nu) band / ln 10 in 0 < s -> resolved (fun nu => f nu * B nu) band N eta ->
    (1 - (eta + 3 * e)) * s <= average_sum W l N g <= (1 + (eta + 2 * e)) * s.
  Proof.
    intros HN Heta Cf Hfg s Hs (L & L0 & L1 & L2). pose proof band_lt as HB. pose proof e_small as He. pose proof ln10_bounds as HL.
    assert (Ed : decades band = snd l - fst l).
    { unfold decades; cbn [fst snd]. rewrite ln_div by apply pow10_pos. unfold pow10, Rpower. rewrite !ln_exp. field. lra. }
    assert (I : is_RInt (in_logs (fun nu => f nu * B nu)) (fst l) (snd l) s).
    { apply (logs_RInt (fun nu => f nu * B nu)); [|lra]. intros y Hy. apply (continuous_mult f B); [|apply CB, pow10_pos].
      apply Cf. unfold inside_band; cbn. split; apply Rnot_lt_le; intros K; apply (proj2 (pow10_lt _ _)) in K; lra. }
    assert (M : Rabs (average_sum B l N f - s) <= eta * s).
    { rewrite average_midpoints by exact HN. rewrite <- (is_RInt_unique _ _ _ _ I) at 1.
      apply Rle_trans with (L * (snd l - fst l) ^ 2 / (4 * INR (Z.to_nat N))).
      - apply midpoints_rate; [exact Hl|lia|exact L0|eexists; exact I|]. intros x y Hx Hy. unfold in_logs.
        replace (x - y) with (ln (pow10 x / pow10 y) / ln 10).
        2:{ rewrite ln_div by apply pow10_pos. unfold pow10, Rpower. rewrite !ln_exp. field. lra. }
        apply L1; unfold inside_band; cbn; split; apply Rnot_lt_le; intros K; apply (proj2 (pow10_lt _ _)) in K; lra.
      - rewrite INR_IZR_INZ, Z2Nat.id by lia. rewrite <- Ed. exact L2. }
    apply Rabs_le_between in M.
    assert (Q : forall i, (i < Z.to_nat N)%nat -> let x := frequency l N i in
      (1 - 2 * e) * (f x * quad B l N i) <= g x * quad W l N i <= (1 + e) * (f x * quad B l N i)).
    { intros i Hi x. pose proof (samples_inside N i HN Hi) as Hx. fold x in Hx. destruct (Hfg x Hx) as (F0 & F1).
      pose proof (pow10_pos (fst l + (INR i + / 2) * cell_width l N)) as Xp. change (0 < x) in Xp.
      pose proof (CW x Xp) as (F3 & F4). pose proof (PB x Xp) as F5. unfold quad. fold x.
      pose proof (cell_width_pos l N Hl HN) as Wp. set (q := x * cell_width l N). assert (Pq : 0 < q) by (apply Rmult_lt_0_compat; assumption).
      rewrite <- !Rmult_assoc. split; apply Rmult_le_compat_r; try lra.
      - apply Rle_trans with (((1 - e) * f x) * ((1 - e) * B x)).
        + assert (0 <= f x * B x) by (apply Rmult_le_pos; lra). assert (0 <= e * e * (f x * B x)) by (repeat apply Rmult_le_pos; lra). nra.
        + apply Rmult_le_compat; try lra; apply Rmult_le_pos; lra.
      - apply Rle_trans with (f x * W x); [apply Rmult_le_compat_r; [nra|lra]|]. apply Rle_trans with (f x * ((1 + e) * B x)); [apply Rmult_le_compat_l; lra|lra]. }
    assert (Q1 : (1 - 2 * e) * average_sum B l N f <= average_sum W l N g).
    { unfold average_sum. rewrite <- rsum_scal. apply rsum_le. intros i Hi. apply Q. exact Hi. }
    assert (Q2 : average_sum W l N g <= (1 + e) * average_sum B l N f).
    { unfold average_sum. rewrite <- rsum_scal. apply rsum_le. intros i Hi. apply Q. exact Hi. }
    assert (0 <= e * s) by nra. assert (0 <= eta * s) by nra. assert (e * (eta * s) <= e * s) by (apply Rmult_le_compat_l; nra).
    split; nra.
  Qed.
  Lemma weight_rate N eta : (0 < N)%Z -> 0 <= eta <= / 200 -> bright B band -> resolved B band N eta ->
    let d := total B band / ln 10 in
    (1 - (eta + 3 * e)) * d <= average_sum W l N (fun _ => 1) <= (1 + (eta + 2 * e)) * d.
  Proof.
    intros HN He Hb Hres d. assert (E : total (fun nu => 1 * B nu) band = total B band) by (apply RInt_ext; intros; match goal with |- ?x = ?y => change (@eq R x y) end; ring).
    unfold d. rewrite <- E. apply average_rate; auto.
    - intros. apply continuous_const.
    - intros. pose proof e_small. lra.
    - rewrite E. unfold bright in Hb. pose proof ln10_bounds. assert (0 < / 10 ^ 200) by (apply Rinv_0_lt_compat, pow_lt; lra).
      apply Rdiv_lt_0_compat; lra.
    - destruct Hres as (L & L0 & L1 & L2). exists L. rewrite E. split; [exact L0|]. split; [|exact L2]. intros mu nu M1 M2. rewrite !Rmult_1_l. now apply L1.
  Qed.

  Context (rho : R) (a : R -> R) (Hr : 0 < rho) (Ha : regular a).
  (** the guarded Planck mean *)
  Lemma planck_converges : bright B band -> 0 < total (fun nu => a nu / rho * B nu) band ->
    exists N0, forall N, (N0 <= N)%Z -> agrees (planck_mean_of W rho a l N) (Planck_average B rho a band).
  Proof.
    intros Hb Hp. pose proof e_small as He. pose proof ln10_bounds as HL. pose proof band_lt as HB. pose proof tiny_pos as Tp.
    destruct (weight_close Hb) as (N1 & H1). destruct (tiny_e _ Hb) as (T1 & T2). set (d := total B band / ln 10) in *.
    assert (Cm : forall x, 0 < x -> continuous (fun nu => a nu / rho) x).
    { intros x Hx. apply (continuous_mult a (fun _ => / rho)); [now apply Ha|apply continuous_const]. }
    assert (Ps : 0 < total (fun nu => a nu / rho * B nu) band / ln 10) by (apply Rdiv_lt_0_compat; lra).
    assert (A0 : exists N0, forall N, (N0 <= N)%Z -> (1 - 3 * e) * (total (fun nu => a nu / rho * B nu) band / ln 10) <=
      average_sum W l N (fun nu => a nu / rho) <= (1 + 2 * e) * (total (fun nu => a nu / rho * B nu) band / ln 10)).
    { apply (average_close (fun nu => a nu / rho) (fun nu => a nu / rho)); auto.
      - intros x Hx. apply Cm. unfold inside_band in Hx; cbn in Hx. lra.
      - intros x Hx. unfold inside_band in Hx; cbn in Hx. assert (0 <= a x / rho).
        { apply Rmult_le_pos; [apply Ha; lra|apply Rlt_le, Rinv_0_lt_compat, Hr]. } nra. }
    destruct A0 as (N2 & H2). set (s := total (fun nu => a nu / rho * B nu) band / ln 10) in *.
    exists (Z.max N1 N2). intros N HN. specialize (H1 N ltac:(lia)). specialize (H2 N ltac:(lia)). unfold agrees, planck_mean_of, mass.
    replace (Planck_average B rho a band) with (s / d).
    2:{ unfold s, d, Planck_average. field. unfold bright in Hb. assert (0 < / 10 ^ 200) by (apply Rinv_0_lt_compat, pow_lt; lra). lra. }
    assert (Pd : 0 < d) by lra. assert (Pq : 0 < s / d) by (apply Rdiv_lt_0_compat; lra).
    apply Rle_trans with (3 * (3 * e) * (s / d)).
    - apply ratio_close; lra || (split; nra).
    - apply Rmult_le_compat_r; [lra|]. replace (/ 10 ^ 33) with (10 * e) by (field; lra). lra.
  Qed.
  (** the guarded inverse of the coefficient *)
  Lemma inverse_close x : / 10 ^ 200 <= a x -> inverse rho a x = rho / (a x + tiny) /\ 0 <= rho / a x /\
    (1 - e) * (rho / a x) <= rho / (a x + tiny) <= rho / a x.
  Proof.
    intros H. pose proof tiny_small as T. pose proof tiny_pos as Tp. pose proof e_small as He.
    assert (P : 0 < / 10 ^ 200) by (apply Rinv_0_lt_compat, pow_lt; lra).
    assert (T2 : tiny <= e * a x).
    { apply Rle_trans with (/ 10 ^ 306); [lra|]. apply Rle_trans with (e * / 10 ^ 200); [|apply Rmult_le_compat_l; lra].
      rewrite <- Rinv_mult, <- pow_add. apply Rinv_le_contravar; [apply pow_lt; lra|]. apply Rle_pow; [lra|lia]. }
    unfold inverse. destruct (Rlt_dec tiny (a x)) as [_|K]; [|exfalso; nra]. split; [reflexivity|].
    assert (Q : 0 < rho / a x) by (apply Rdiv_lt_0_compat; lra). split; [lra|].
    split.
    - apply (Rmult_le_reg_r (a x + tiny)); [lra|]. replace (rho / (a x + tiny) * (a x + tiny)) with rho by (field; lra).
      replace ((1 - e) * (rho / a x) * (a x + tiny)) with (rho * ((1 - e) * (1 + tiny / a x))) by (field; lra).
      rewrite <- (Rmult_1_r rho) at 2. apply Rmult_le_compat_l; [lra|].
      assert (tiny / a x <= e). { apply (Rmult_le_reg_r (a x)); [lra|]. replace (tiny / a x * a x) with tiny by (field; lra). lra. }
      assert (0 <= tiny / a x) by (apply Rlt_le, Rdiv_lt_0_compat; lra). nra.
    - apply Rmult_le_compat_l; [lra|]. apply Rinv_le_contravar; lra.
  Qed.
  Lemma inverse_converges : opaque B rho a band ->
    exists N0, forall N, (N0 <= N)%Z -> (1 - 3 * e) * (total (fun nu => rho / a nu * B nu) band / ln 10) <=
      average_sum W l N (inverse rho a) <= (1 + 2 * e) * (total (fun nu => rho / a nu * B nu) band / ln 10).
  Proof.
    intros (H1 & H2 & H3). pose proof e_small as He. pose proof ln10_bounds as HL. pose proof band_lt as HB. pose proof tiny_pos as Tp.
    assert (P : 0 < / 10 ^ 200) by (apply Rinv_0_lt_compat, pow_lt; lra).
    assert (A0 : exists N0, forall N, (N0 <= N)%Z -> (1 - 3 * e) * (total (fun nu => rho / a nu * B nu) band / ln 10) <=
      average_sum W l N (fun nu => rho / (a nu + tiny)) <= (1 + 2 * e) * (total (fun nu => rho / a nu * B nu) band / ln 10)).
    { apply (average_close (fun nu => rho / a nu) (fun nu => rho / (a nu + tiny))).
      - intros x Hx. destruct (Ha x Hx) as (K1 & K2). apply (continuous_mult (fun _ => rho) (fun nu => / (a nu + tiny))); [apply continuous_const|].
        apply (continuous_comp (fun nu => a nu + tiny) Rinv); [apply (continuous_plus a (fun _ => tiny)); [exact K1|apply continuous_const]|].
        apply continuous_Rinv. lra.
      - intros x Hx. assert (0 < a x) by (specialize (H3 x Hx); lra). unfold inside_band in Hx; cbn in Hx.
        apply (continuous_mult (fun _ => rho) (fun nu => / a nu)); [apply continuous_const|].
        apply (continuous_comp a Rinv); [apply Ha; lra|apply continuous_Rinv; lra].
      - intros x Hx. destruct (inverse_close x (H3 x Hx)) as (_ & K). exact K.
      - apply Rdiv_lt_0_compat; lra. }
    destruct A0 as (N0 & HN). exists (Z.max N0 1). intros N H. specialize (HN N ltac:(lia)).
    replace (average_sum W l N (inverse rho a)) with (average_sum W l N (fun nu => rho / (a nu + tiny))); [exact HN|].
    unfold average_sum. apply rsum_ext. intros i Hi. f_equal. symmetry. apply inverse_close. apply H3. apply samples_inside; [lia|exact Hi].
  Qed.
  (** the quotient of the Rosseland mean *)
  Lemma rosseland_quotient : opaque B rho a band ->
    exists N0, forall N, (N0 <= N)%Z -> let D := average_sum W l N (fun _ => 1) in let M := average_sum W l N (inverse rho a) in
      tiny < D /\ tiny < M /\ agrees (D / (M + tiny)) (Rosseland_average B rho a band).
  Proof.
    intros Ho. pose proof e_small as He. pose proof ln10_bounds as HL. pose proof tiny_pos as Tp.
    assert (P : 0 < / 10 ^ 200) by (apply Rinv_0_lt_compat, pow_lt; lra).
    destruct (weight_close (proj1 Ho)) as (N1 & H1). destruct (inverse_converges Ho) as (N2 & H2). destruct Ho as (O1 & O2 & O3).
    destruct (tiny_e _ O1) as (T1 & T2). destruct (tiny_e _ O2) as (T3 & T4).
    set (d := total B band / ln 10) in *. set (m := total (fun nu => rho / a nu * B nu) band / ln 10) in *.
    exists (Z.max N1 N2). intros N HN D M. specialize (H1 N ltac:(lia)). specialize (H2 N ltac:(lia)). fold D in H1. fold M in H2.
    split; [nra|]. split; [nra|]. unfold agrees.
    replace (Rosseland_average B rho a band) with (d / m).
    2:{ unfold d, m, Rosseland_average. field. lra. }
    assert (Pq : 0 < d / m) by (apply Rdiv_lt_0_compat; lra).
    apply Rle_trans with (3 * (3 * e) * (d / m)).
    - apply ratio_close; lra || (split; nra).
    - apply Rmult_le_compat_r; [lra|]. replace (/ 10 ^ 33) with (10 * e) by (field; lra). lra.
  Qed.
  Lemma rosseland_converges : opaque B rho a band ->
    exists N0, forall N, (N0 <= N)%Z -> agrees (rosseland_mean_of W rho a l N) (Rosseland_average B rho a band).
  Proof.
    intros Ho. destruct (rosseland_quotient Ho) as (N0 & H). exists N0. intros N HN. destruct (H N HN) as (H1 & H2 & H3).
    unfold rosseland_mean_of. destruct (Rlt_dec tiny (average_sum W l N (fun _ => 1))) as [_|K]; [|contradiction].
    destruct (Rlt_dec tiny (average_sum W l N (inverse rho a))) as [_|K]; [|contradiction]. exact H3.
  Qed.
  Lemma planck_rate N eta : (0 < N)%Z -> 0 <= eta <= / 200 -> bright B band -> 0 < total (fun nu => a nu / rho * B nu) band ->
    resolved B band N eta -> resolved (fun nu => a nu / rho * B nu) band N eta ->
    Rabs (planck_mean_of W rho a l N - Planck_average B rho a band) <= (3 * eta + / 10 ^ 32) * Planck_average B rho a band.
  Proof.
    intros HN Heta Hb Hp Hr1 Hr2. pose proof e_small as He. pose proof ln10_bounds as HL. pose proof band_lt as HB. pose proof tiny_pos as Tp.
    pose proof (weight_rate N eta HN Heta Hb Hr1) as H1. destruct (tiny_e _ Hb) as (T1 & T2). cbv zeta in H1. set (d := total B band / ln 10) in *.
    assert (Cm : forall x, inside_band band x -> continuous (fun nu => a nu / rho) x).
    { intros x Hx. unfold inside_band in Hx; cbn in Hx. apply (continuous_mult a (fun _ => / rho)); [apply Ha; lra|apply continuous_const]. }
    assert (Ps : 0 < total (fun nu => a nu / rho * B nu) band / ln 10) by (apply Rdiv_lt_0_compat; lra).
    assert (H2 : (1 - (eta + 3 * e)) * (total (fun nu => a nu / rho * B nu) band / ln 10) <=
      average_sum W l N (fun nu => a nu / rho) <= (1 + (eta + 2 * e)) * (total (fun nu => a nu / rho * B nu) band / ln 10)).
    { apply (average_rate (fun nu => a nu / rho) (fun nu => a nu / rho)); auto.
      intros x Hx. unfold inside_band in Hx; cbn in Hx. assert (0 <= a x / rho).
      { apply Rmult_le_pos; [apply Ha; lra|apply Rlt_le, Rinv_0_lt_compat, Hr]. } nra. }
    set (s := total (fun nu => a nu / rho * B nu) band / ln 10) in *. unfold planck_mean_of, mass.
    replace (Planck_average B rho a band) with (s / d).
    2:{ unfold s, d, Planck_average. field. unfold bright in Hb. assert (0 < / 10 ^ 200) by (apply Rinv_0_lt_compat, pow_lt; lra). lra. }
    assert (Pd : 0 < d) by lra. assert (Pq : 0 < s / d) by (apply Rdiv_lt_0_compat; lra).
    apply Rle_trans with (3 * (eta + 3 * e) * (s / d)).
    - apply ratio_close; lra || (split; nra).
    - apply Rmult_le_compat_r; [lra|]. replace (/ 10 ^ 32) with (100 * e) by (field; lra). lra.
  Qed.
  Lemma rosseland_quotient_rate N eta : (0 < N)%Z -> 0 <= eta <= / 200 -> opaque B rho a band ->
    resolved B band N eta -> resolved (fun nu => rho / a nu * B nu) band N eta ->
    let D := average_sum W l N (fun _ => 1) in let M := average_sum W l N (inverse rho a) in
    tiny < D /\ tiny < M /\
    Rabs (D / (M + tiny) - Rosseland_average B rho a band) <= (3 * eta + / 10 ^ 32) * Rosseland_average B rho a band.
  Proof.
    intros HN Heta (O1 & O2 & O3) Hr1 Hr2 D M. pose proof e_small as He. pose proof ln10_bounds as HL. pose proof tiny_pos as Tp. pose proof band_lt as HB.
    assert (P : 0 < / 10 ^ 200) by (apply Rinv_0_lt_compat, pow_lt; lra).
    pose proof (weight_rate N eta HN Heta O1 Hr1) as H1. cbv zeta in H1.
    assert (H2 : (1 - (eta + 3 * e)) * (total (fun nu => rho / a nu * B nu) band / ln 10) <= M <=
      (1 + (eta + 2 * e)) * (total (fun nu => rho / a nu * B nu) band / ln 10)).
    { apply (average_rate (fun nu => rho / a nu) (inverse rho a)); auto.
      - intros x Hx. assert (0 < a x) by (specialize (O3 x Hx); lra). unfold inside_band in Hx; cbn in Hx.
        apply (continuous_mult (fun _ => rho) (fun nu => / a nu)); [apply continuous_const|].
        apply (continuous_comp a Rinv); [apply Ha; lra|apply continuous_Rinv; lra].
      - intros x Hx. destruct (inverse_close x (O3 x Hx)) as (-> & K). exact K.
      - apply Rdiv_lt_0_compat; lra. }
    destruct (tiny_e _ O1) as (T1 & T2). destruct (tiny_e _ O2) as (T3 & T4). fold D in H1.
    set (d := total B band / ln 10) in *. set (m := total (fun nu => rho / a nu * B nu) band / ln 10) in *.
    split; [nra|]. split; [nra|].
    replace (Rosseland_average B rho a band) with (d / m).
    2:{ unfold d, m, Rosseland_average. field. lra. }
    assert (Pq : 0 < d / m) by (apply Rdiv_lt_0_compat; lra).
    apply Rle_trans with (3 * (eta + 3 * e) * (d / m)).
    - apply ratio_close; lra || (split; nra).
    - apply Rmult_le_compat_r; [lra|]. replace (/ 10 ^ 32) with (100 * e) by (field; lra). lra.
  Qed.
  Lemma rosseland_rate N eta : (0 < N)%Z -> 0 <= eta <= / 200 -> opaque B rho a band ->
    resolved B band N eta -> resolved (fun nu => rho / a nu * B nu) band N eta ->
    Rabs (rosseland_mean_of W rho a l N - Rosseland_average B rho a band) <= (3 * eta + / 10 ^ 32) * Rosseland_average B rho a band.
  Proof.
    intros HN Heta Ho Hr1 Hr2. destruct (rosseland_quotient_rate N eta HN Heta Ho Hr1 Hr2) as (H1 & H2 & H3).
    unfold rosseland_mean_of. destruct (Rlt_dec tiny (average_sum W l N (fun _ => 1))) as [_|K]; [|contradiction].
    destruct (Rlt_dec tiny (average_sum W l N (inverse rho a))) as [_|K]; [|contradiction]. exact H3.
  Qed.
End Weighted.
