(** Group means in exact arithmetic. *)
From Coq Require Import Reals ZArith List Lia Lra Bool.
From Coquelicot Require Import Coquelicot.
From Verif Require Import Base.Outcome Base.Ops Inst.ER Inst.ERTac Model.Constants Model.Robust Model.RadTypes
  Model.ThermalPhotons Model.Spiner Model.MeanUtils Model.MeanPhotons Model.MeanNeutrinos Spec.Physics Spec.Tables Spec.Groups Spec.Means
  Proofs.ArrayFacts Proofs.PlanckFacts Proofs.ModelFacts Proofs.GroupFacts Proofs.InterpFacts Proofs.TableFacts
  Proofs.MeanFacts.
Import ListNotations.
Open Scope R_scope.

(** * Finite sums *)
Lemma rsum_ext n f g : (forall i, (i < n)%nat -> f i = g i) -> rsum n f = rsum n g.
Proof. induction n as [|n IH]; intros H; cbn; [reflexivity|]. rewrite IH, H by lia || (intros; apply H; lia). reflexivity. Qed.
Lemma rsum_scal n c f : rsum n (fun i => c * f i) = c * rsum n f.
Proof. induction n as [|n IH]; cbn; [ring|]. rewrite IH. ring. Qed.
Lemma rsum_plus n f g : rsum n (fun i => f i + g i) = rsum n f + rsum n g.
Proof. induction n as [|n IH]; cbn; [ring|]. rewrite IH. ring. Qed.
Lemma rsum_le n f g : (forall i, (i < n)%nat -> f i <= g i) -> rsum n f <= rsum n g.
Proof.
  induction n as [|n IH]; intros H; cbn; [lra|].
  pose proof (H n ltac:(lia)). assert (rsum n f <= rsum n g) by (apply IH; intros; apply H; lia). lra.
Qed.
Lemma rsum_nonneg n f : (forall i, (i < n)%nat -> 0 <= f i) -> 0 <= rsum n f.
Proof.
  intros H. apply Rle_trans with (rsum n (fun _ => 0)); [|now apply rsum_le].
  clear. induction n; cbn; lra.
Qed.
Lemma rsum_pos n f : (0 < n)%nat -> (forall i, (i < n)%nat -> 0 < f i) -> 0 < rsum n f.
Proof.
  intros Hn H. destruct n as [|n]; [lia|]. cbn. pose proof (H n ltac:(lia)).
  assert (0 <= rsum n f) by (apply rsum_nonneg; intros; apply Rlt_le, H; lia). lra.
Qed.
(** one term is at most the sum *)
Lemma rsum_term n f i : (i < n)%nat -> (forall j, (j < n)%nat -> 0 <= f j) -> f i <= rsum n f.
Proof.
  induction n as [|n IH]; intros Hi H; [lia|]. cbn.
  pose proof (H n ltac:(lia)).
  destruct (Nat.eq_dec i n) as [->|].
  - assert (0 <= rsum n f) by (apply rsum_nonneg; intros; apply H; lia). lra.
  - assert (f i <= rsum n f) by (apply IH; [lia|intros; apply H; lia]). lra.
Qed.

(** a loop adding to two accumulators *)
Lemma for_sum2 (N : Z) (op : nat -> ER * ER -> result (ER * ER)) F G :
  (forall i a b, (i < Z.to_nat N)%nat -> op i (Fin a, Fin b) = Ok (Fin (a + F i), Fin (b + G i))) ->
  for_int N op (Fin 0, Fin 0) = Ok (Fin (rsum (Z.to_nat N) F), Fin (rsum (Z.to_nat N) G)).
Proof.
  intros H. unfold for_int, for_loop.
  assert (K : forall m, (m <= Z.to_nat N)%nat ->
    for_from m 0 op (Fin 0, Fin 0) = Ok (Fin (rsum m F), Fin (rsum m G))).
  { induction m as [|m IH]; intros Hm; [reflexivity|].
    rewrite for_from_S_last, IH by lia. cbn [bind]. rewrite H by lia. reflexivity. }
  now apply K.
Qed.

(** * The sampled window *)
Definition good_group (lo : R) (hi : ER) : Prop :=
  0 <= lo /\ ((exists x, hi = Fin x /\ lo < x) \/ hi = PInf).

Lemma powerRZ_m1 : powerRZ 10 (-1) = / 10.
Proof. change (powerRZ 10 (-1)) with (/ 10 ^ 1). f_equal. ring. Qed.
Lemma powerRZ_m3 : powerRZ 10 (-3) = / 1000.
Proof. change (powerRZ 10 (-3)) with (/ 10 ^ 3). f_equal. ring. Qed.

Section Window.
  Context (pc : PhysConst R) (Hh : 0 < pc_h pc) (Hk : 0 < pc_kb pc) (Hc : 0 < pc_c pc).
  Local Notation h := (pc_h pc).
  Local Notation k := (pc_kb pc).
  Local Notation c := (pc_c pc).

  Lemma thermal_lo_pos T : 0 < T -> 0 < thermal_lo h k T.
  Proof. intros. unfold thermal_lo. pos. Qed.
  Lemma thermal_lo_hi T : 0 < T -> thermal_hi h k T = 1000000 * thermal_lo h k T.
  Proof. intros. unfold thermal_lo, thermal_hi. field. lra. Qed.

  Lemma thermal_min_fin T : nu_thermal_min (finpc pc) (Fin T) = Fin (thermal_lo h k T).
  Proof. unfold nu_thermal_min, thermal_lo. er. f_equal. rewrite powerRZ_m3. field. lra. Qed.
  Lemma thermal_max_fin T : nu_thermal_max (finpc pc) (Fin T) = Fin (thermal_hi h k T).
  Proof. unfold nu_thermal_max, thermal_hi. er. f_equal. Qed.

  Lemma window_pos T lo hi : 0 < T -> good_group lo hi ->
    0 < fst (window h k T lo hi) < snd (window h k T lo hi).
  Proof.
    intros HT (Hlo & Hhi). unfold window. pose proof (thermal_lo_pos T HT) as P.
    pose proof (thermal_lo_hi T HT) as E. rewrite E.
    set (t := thermal_lo h k T) in *. clearbody t.
    destruct Hhi as [(x & -> & Hx)| ->];
      repeat match goal with |- context [if ?d then _ else _] => destruct d end; cbn [fst snd]; lra.
  Qed.

  Lemma sample_window_fin T lo hi : 0 < T -> good_group lo hi ->
    let w := window h k T lo hi in
    sample_window (finpc pc) (Fin T) (Fin lo) hi = (Fin (fst w), Fin (snd w)).
  Proof.
    intros HT (Hlo & Hhi). unfold sample_window, window. rewrite thermal_min_fin, thermal_max_fin.
    pose proof (thermal_lo_pos T HT) as P. pose proof (thermal_lo_hi T HT) as E. rewrite E.
    set (t := thermal_lo h k T) in *. clearbody t.
    rewrite !fin_dec, !fin_ofZ, !fin_mul, fin_eqb, fin_ltb. unfold Ogtb, Ogeb. rewrite powerRZ_m1.
    set (A := if Req_EM_T lo 0 then t else if Rlt_dec lo (t / 10) then t else lo).
    assert (EA : (if Reqb lo 0 || Rltb lo (1 * / 10 * t) then Fin t else Fin lo) = Fin A).
    { unfold A, Reqb, Rltb. destruct (Req_EM_T lo 0); cbn [orb]; [reflexivity|].
      destruct (Rlt_dec lo (1 * / 10 * t)), (Rlt_dec lo (t / 10)); try lra; reflexivity. }
    cbv zeta. rewrite EA. clearbody A.
    destruct Hhi as [(x & -> & Hx)| ->].
    - change (Oisfinite (Fin x)) with true. cbn [negb andb orb]. rewrite fin_ltb.
      set (B := if Rlt_dec (10 * (1000000 * t)) x then 1000000 * t else x).
      assert (EB : (if Rltb (10 * (1000000 * t)) x then Fin (1000000 * t) else Fin x) = Fin B).
      { unfold B, Rltb. destruct (Rlt_dec _ _); reflexivity. }
      rewrite EB. clearbody B. rewrite fin_leb, fin_ltb. unfold Rleb, Rltb.
      destruct (Rle_dec B A), (Rlt_dec A B); try lra; cbn [fst snd]; [|reflexivity].
      destruct (Rlt_dec 0 x); [|lra]. rewrite fin_mul. f_equal; f_equal; lra.
    - change (Oisfinite PInf) with false. cbn [negb andb orb]. rewrite fin_leb. unfold Rleb.
      destruct (Rle_dec _ A), (Rlt_dec A _); try lra; cbn [fst snd]; [|reflexivity].
      f_equal; f_equal; lra.
  Qed.
End Window.

(** * Sampled frequencies *)
Section Samples.
  Context (l : R * R) (N : Z).
  Hypotheses (Hl : fst l < snd l) (HN : (0 < N)%Z).

  Lemma IZR_N_pos : 0 < IZR N.
  Proof. now apply IZR_lt. Qed.
  Lemma cell_width_pos : 0 < cell_width l N.
  Proof. unfold cell_width. apply Rdiv_lt_0_compat; [lra|apply IZR_N_pos]. Qed.
  Lemma frequency_pos i : 0 < frequency l N i.
  Proof. apply pow10_pos. Qed.
  Lemma frequency_bounds i : (i < Z.to_nat N)%nat -> pow10 (fst l) < frequency l N i < pow10 (snd l).
  Proof.
    intros Hi. pose proof cell_width_pos as P. unfold frequency. pose proof (pos_INR i).
    assert (E : snd l = fst l + IZR N * cell_width l N).
    { unfold cell_width. field. pose proof IZR_N_pos. lra. }
    assert (I : INR i + 1 <= IZR N).
    { rewrite INR_IZR_INZ, <- plus_IZR. apply IZR_le. lia. }
    split; apply pow10_incr; [nra|]. rewrite E. nra.
  Qed.
  Lemma frequency_incr i j : (i < j)%nat -> frequency l N i < frequency l N j.
  Proof.
    intros Hi. apply pow10_incr. pose proof cell_width_pos. apply lt_INR in Hi. nra.
  Qed.
  Lemma quad_pos weight i : (forall nu, 0 < nu -> 0 < weight nu) -> 0 < quad weight l N i.
  Proof.
    intros H. unfold quad. pose proof (frequency_pos i) as F. pose proof (H _ F). pose proof cell_width_pos. pos.
  Qed.
  Lemma average_pos weight : (forall nu, 0 < nu -> 0 < weight nu) -> 0 < average_sum weight l N (fun _ => 1).
  Proof.
    intros H. unfold average_sum. apply rsum_pos; [lia|]. intros i _. pose proof (quad_pos weight i H). lra.
  Qed.
End Samples.

Lemma logs_incr w : 0 < fst w < snd w -> fst (logs w) < snd (logs w).
Proof. intros H. pose proof tiny_pos. cbn. apply log10_incr; lra. Qed.

Lemma sample_dlnu_fin w N : 0 < fst w < snd w -> (0 < N)%Z ->
  sample_dlnu (Fin (fst w), Fin (snd w)) N = Fin (cell_width (logs w) N).
Proof.
  intros Hw HN. unfold sample_dlnu, cell_width. cbn [fst snd logs]. rewrite !ToLog_pos by lra.
  rewrite fin_sub, fin_ofZ, fin_div; [reflexivity|]. pose proof (IZR_N_pos N HN). lra.
Qed.
Lemma half_fin : Odec 5 (-1) = Fin (/ 2).
Proof. rewrite fin_dec, powerRZ_m1. f_equal. lra. Qed.
Lemma sample_nu_fin w N i : 0 < fst w < snd w -> (0 < N)%Z ->
  sample_nu (Fin (fst w), Fin (snd w)) N i = Fin (frequency (logs w) N i).
Proof.
  intros Hw HN. unfold sample_nu, frequency. rewrite sample_dlnu_fin by assumption. cbn [fst logs].
  rewrite ToLog_pos by lra.
  rewrite half_fin, fin_ofZ, fin_add, fin_mul, fin_add, FromLog_fin, <- INR_IZR_INZ. reflexivity.
Qed.

(** * Thermal weights *)
Section Weights.
  Context (pc : PhysConst R) (Hh : 0 < pc_h pc) (Hk : 0 < pc_kb pc) (Hc : 0 < pc_c pc).
  Local Notation h := (pc_h pc).
  Local Notation k := (pc_kb pc).
  Local Notation c := (pc_c pc).

  (** the closed form of the derivative *)
  Lemma Derive_Planck T nu : 0 < T -> 0 < nu ->
    is_derive (fun t => Planck_B h k c t nu) T
      (2 * h ^ 2 * nu ^ 4 / (T ^ 2 * c ^ 2 * k) * (exp (h * nu / (k * T)) / (exp (h * nu / (k * T)) - 1) ^ 2)).
  Proof.
    intros HT Hn. pose proof (x_pos pc Hh Hk T nu HT Hn) as Hx. unfold Planck_B. auto_derive.
    - repeat split; nz.
    - pose proof (one_lt_exp _ Hx) as H1.
      change (h * nu * / (k * T)) with (h * nu / (k * T)).
      set (E := exp (h * nu / (k * T))) in *.
      field. repeat split; try nz; lra.
  Qed.

  Lemma Derive_Planck_eq T nu : 0 < T -> 0 < nu -> Derive (fun t : R => Planck_B h k c t nu) T =
    2 * h ^ 2 * nu ^ 4 / (T ^ 2 * c ^ 2 * k) * (exp (h * nu / (k * T)) / (exp (h * nu / (k * T)) - 1) ^ 2).
  Proof. intros. apply is_derive_unique. now apply Derive_Planck. Qed.

  Lemma weight_B_pos T nu : 0 < T -> 0 < nu -> 0 < weight_B h k c T nu.
  Proof.
    intros HT Hn. unfold weight_B. destruct (Rlt_dec _ _); [now apply Planck_B_pos|pos].
  Qed.
  Lemma weight_dB_pos T nu : 0 < T -> 0 < nu -> 0 < weight_dB h k c T nu.
  Proof.
    intros HT Hn. pose proof (x_pos pc Hh Hk T nu HT Hn) as Hx. unfold weight_dB. destruct (Rlt_dec _ _); [|pos].
    rewrite Derive_Planck_eq by assumption. pos.
  Qed.

  Lemma ThermalWeights_fin T nu : 0 < T -> 0 < nu ->
    ThermalWeightsAtNu (finpc pc) (Fin T) (Fin nu) = (Fin (weight_B h k c T nu), Fin (weight_dB h k c T nu)).
  Proof.
    intros HT Hn. pose proof (x_pos pc Hh Hk T nu HT Hn) as Hx. unfold ThermalWeightsAtNu, weight_B, weight_dB, wien_tail_x.
    replace (pc_h (finpc pc) * Fin nu / (pc_kb (finpc pc) * Fin T))%o with (Fin (h * nu / (k * T))) by (er; reflexivity).
    rewrite fin_ofZ, fin_ltb. unfold Rltb.
    destruct (Rlt_dec (h * nu / (k * T)) 80).
    - rewrite planck_nu_fin by assumption. destruct (planck_dT_fin pc Hh Hk Hc T nu HT Hn) as (d & -> & D).
      apply is_derive_unique in D. rewrite <- D. reflexivity.
    - f_equal; er; f_equal; field; repeat split; nz.
  Qed.
End Weights.

(** * The sums of one group *)
Section Group.
  Context (pc : PhysConst R) (Hh : 0 < pc_h pc) (Hk : 0 < pc_kb pc) (Hc : 0 < pc_c pc).
  Local Notation h := (pc_h pc).
  Local Notation k := (pc_kb pc).
  Local Notation c := (pc_c pc).
  Context (T lo : R) (hi : ER) (N : Z) (HT : 0 < T) (HG : good_group lo hi) (HN : (0 < N)%Z).
  Local Notation l := (logs (window h k T lo hi)).

  Lemma window_logs : fst l < snd l.
  Proof. apply logs_incr. now apply window_pos. Qed.

  Lemma group_denoms_fin :
    group_denoms (finpc pc) (Fin T) (Fin lo) hi N =
    Ok (Fin (average_sum (weight_B h k c T) l N (fun _ => 1)), Fin (average_sum (weight_dB h k c T) l N (fun _ => 1))).
  Proof.
    unfold group_denoms, ForEachGroupFrequencySample. pose proof (window_pos pc Hh Hk T lo hi HT HG) as Hw.
    rewrite sample_window_fin by assumption. cbv zeta. unfold average_sum.
    rewrite !fin_ofZ. apply for_sum2. intros i a b Hi.
    rewrite sample_dlnu_fin, sample_nu_fin by assumption. pose proof (frequency_pos l N i).
    rewrite ThermalWeights_fin by assumption. cbn [fst snd]. rewrite !fin_mul, !fin_add.
    unfold quad. now rewrite !Rmult_1_l.
  Qed.

  Context (coef : ER -> ER -> ER -> result ER) (rho : R) (a : R -> R) (Hr : 0 < rho).
  (** the coefficient at the sampled frequencies *)
  Definition samples_of : Prop := forall i, (i < Z.to_nat N)%nat ->
    coef (Fin rho) (Fin T) (Fin (frequency l N i)) = Ok (Fin (a (frequency l N i))).

  Lemma group_nums_fin : samples_of ->
    group_nums (finpc pc) coef (Fin rho) (Fin T) (Fin lo) hi N =
    Ok (Fin (average_sum (weight_B h k c T) l N (mass rho a)), Fin (average_sum (weight_dB h k c T) l N (inverse rho a))).
  Proof.
    intros HS. unfold group_nums, ForEachGroupFrequencySample. pose proof (window_pos pc Hh Hk T lo hi HT HG) as Hw.
    rewrite sample_window_fin by assumption. cbv zeta. unfold average_sum.
    rewrite !fin_ofZ. apply for_sum2. intros i x y Hi.
    rewrite sample_dlnu_fin, sample_nu_fin by assumption. pose proof (frequency_pos l N i).
    rewrite HS by assumption. cbn [bind]. rewrite ThermalWeights_fin by assumption. cbn [fst snd].
    unfold Ogtb. rewrite SMALL_fin, fin_ltb. fold tiny. unfold inverse, mass, quad, Rltb. pose proof tiny_pos.
    rewrite fin_div by lra.
    destruct (Rlt_dec tiny (a (frequency l N i))).
    - rewrite ratio_pos by lra. rewrite !fin_mul, !fin_add. fold tiny. f_equal. f_equal; f_equal; ring.
    - rewrite !fin_mul, !fin_add. f_equal. f_equal; f_equal; ring.
  Qed.

  (** the two means stored for the group *)
  Lemma group_means_fin : samples_of -> exists n d,
    group_nums (finpc pc) coef (Fin rho) (Fin T) (Fin lo) hi N = Ok n /\
    group_denoms (finpc pc) (Fin T) (Fin lo) hi N = Ok d /\
    planck_mean (fst n) (fst d) = Fin (planck_mean_of (weight_B h k c T) rho a l N) /\
    rosseland_mean (snd n) (snd d) = Fin (rosseland_mean_of (weight_dB h k c T) rho a l N).
  Proof.
    intros HS. eexists. eexists. split; [now apply group_nums_fin|]. split; [apply group_denoms_fin|]. cbn [fst snd].
    pose proof (average_pos l N window_logs HN _ (fun nu => weight_B_pos pc Hh Hk Hc T nu HT)) as PB.
    split.
    - unfold planck_mean. rewrite ratio_pos; [reflexivity|]. lra.
    - unfold rosseland_mean, rosseland_mean_of, Ogtb. rewrite SMALL_fin, !fin_ltb. fold tiny.
      unfold Rltb. pose proof tiny_pos.
      destruct (Rlt_dec tiny _); cbn [andb]; [|reflexivity].
      destruct (Rlt_dec tiny _); [|reflexivity]. rewrite ratio_pos; [reflexivity|]. lra.
  Qed.
End Group.

(** * The sums of one neutrino cell *)
Section Nu.
  Context (coef : ER -> ER -> ER -> RadiationType -> ER -> result ER)
    (dist ddist : ER -> RadiationType -> ER -> result ER)
    (rho T Ye : ER) (type : RadiationType) (l : R * R) (N : Z) (B dB a : R -> R) (r : R).
  Hypotheses (Hl : fst l < snd l) (HN : (0 < N)%Z) (HB : forall nu, 0 < nu -> 0 < B nu)
    (Hr : 0 < r) (Er : rho = Fin r).
  Definition nu_samples_of : Prop := forall i, (i < Z.to_nat N)%nat -> let nu := frequency l N i in
    coef rho T Ye type (Fin nu) = Ok (Fin (a nu)) /\ dist T type (Fin nu) = Ok (Fin (B nu)) /\
    ddist T type (Fin nu) = Ok (Fin (dB nu)).

  Definition fin_sums (n : nat) : sums ER := {|
    s_pn := Fin (rsum n (fun i => mass r a (frequency l N i) * quad B l N i));
    s_pd := Fin (rsum n (fun i => 1 * quad B l N i));
    s_rn := Fin (rsum n (fun i => inverse r a (frequency l N i) * quad dB l N i));
    s_rd := Fin (rsum n (fun i => counted a (frequency l N i) * quad dB l N i)) |}.

  Lemma nu_sums_from : nu_samples_of -> forall m, (m <= Z.to_nat N)%nat ->
    for_from m 0 (nu_step coef dist ddist rho T Ye type (Fin (fst l)) ((Fin (snd l) - Fin (fst l)) / #N)%o) zero_sums
    = Ok (fin_sums m).
  Proof.
    intros HS. pose proof (IZR_N_pos N HN).
    replace ((Fin (snd l) - Fin (fst l)) / #N)%o with (Fin (cell_width l N))
      by (rewrite fin_sub, fin_ofZ, fin_div by lra; reflexivity).
    assert (K : forall m, (m <= Z.to_nat N)%nat ->
      for_from m 0 (nu_step coef dist ddist rho T Ye type (Fin (fst l)) (Fin (cell_width l N))) zero_sums = Ok (fin_sums m)).
    { induction m as [|m IH]; intros Hm; [reflexivity|].
      rewrite for_from_S_last, IH by lia. cbn [bind Nat.add]. unfold nu_step.
      replace (FromLog (Fin (fst l) + (#(Z.of_nat m) + Odec 5 (-1)) * Fin (cell_width l N)))%o
        with (Fin (frequency l N m)).
      2: { rewrite half_fin, fin_ofZ, fin_add, fin_mul, fin_add, FromLog_fin, <- INR_IZR_INZ. reflexivity. }
      destruct (HS m ltac:(lia)) as (E1 & E2 & E3). rewrite E1. cbn [bind]. rewrite E2. cbn [bind]. rewrite E3. cbn [bind].
      rewrite !Er. unfold Ogtb. rewrite SMALL_fin, fin_ltb. fold tiny. unfold Rltb. pose proof tiny_pos.
      rewrite fin_div by lra.
      unfold fin_sums. cbn [rsum s_pn s_pd s_rn s_rd]. unfold inverse, mass, counted, quad.
      destruct (Rlt_dec tiny (a (frequency l N m))).
      - rewrite ratio_pos by lra. rewrite !fin_mul, !fin_add. fold tiny. f_equal. f_equal; f_equal; ring.
      - rewrite !fin_mul, !fin_add. f_equal. f_equal; f_equal; ring. }
    exact K.
  Qed.
  Lemma nu_sums_fin : nu_samples_of ->
    nu_sums coef dist ddist rho T Ye type (Fin (fst l)) (Fin (snd l)) N = Ok (fin_sums (Z.to_nat N)).
  Proof. intros HS. unfold nu_sums, for_int, for_loop. now apply nu_sums_from. Qed.

  Lemma nu_means_fin :
    nu_means (fin_sums (Z.to_nat N)) = (Fin (planck_mean_of B r a l N), Fin (nu_rosseland_mean_of B dB r a l N)).
  Proof.
    unfold nu_means. cbn [s_pn s_pd s_rn s_rd fin_sums].
    change (rsum (Z.to_nat N) (fun i => mass r a (frequency l N i) * quad B l N i)) with (average_sum B l N (mass r a)).
    change (rsum (Z.to_nat N) (fun i => 1 * quad B l N i)) with (average_sum B l N (fun _ => 1)).
    change (rsum (Z.to_nat N) (fun i => inverse r a (frequency l N i) * quad dB l N i)) with (average_sum dB l N (inverse r a)).
    change (rsum (Z.to_nat N) (fun i => counted a (frequency l N i) * quad dB l N i)) with (average_sum dB l N (counted a)).
    pose proof (average_pos l N Hl HN B HB). rewrite ratio_pos by lra. fold tiny.
    change (average_sum B l N (mass r a) / (average_sum B l N (fun _ => 1) + tiny)) with (planck_mean_of B r a l N).
    unfold Ogtb. rewrite SMALL_fin, !fin_ltb. fold tiny. unfold nu_rosseland_mean_of, Rltb. pose proof tiny_pos.
    destruct (Rlt_dec tiny (planck_mean_of B r a l N)); cbn [andb]; [|reflexivity].
    destruct (Rlt_dec tiny _); [|reflexivity]. rewrite ratio_pos by lra. reflexivity.
  Qed.
End Nu.
