(** C32. Group means lie between the extremes of the sampled coefficient. *)
From Coq Require Import Reals ZArith List Lia Lra Bool.
From Verif Require Import Base.Outcome Base.Ops Inst.ER Inst.ERTac Model.Constants Model.Robust Model.RadTypes
  Model.PhotonApi Model.NeutrinoApi Model.GrayPhotons Model.OpacNeutrinos Model.ThermalNeutrinos Model.Spiner Model.MeanUtils
  Model.MeanPhotons Model.MeanNeutrinos Spec.Physics Spec.Opacities Spec.Tables Spec.Groups Spec.Means Inst.RConsts
  Proofs.InterpFacts Proofs.TableFacts Proofs.ModelFacts Proofs.PlanckFacts Proofs.MeanExact Proofs.MeanTotal Proofs.MeanNodes Proofs.C31.
Import ListNotations.
Open Scope R_scope.

(** every sampled value of [f] lies between lo and hi *)
Definition sampled (l : R * R) (N : Z) (f : R -> R) (lo hi : R) : Prop :=
  forall i, (i < Z.to_nat N)%nat -> lo <= f (frequency l N i) <= hi.

Section Averages.
  Context (w : R -> R) (l : R * R) (N : Z) (Hl : fst l < snd l) (HN : (0 < N)%Z) (Hw : forall nu, 0 < nu -> 0 < w nu).
  Local Notation D := (average_sum w l N (fun _ => 1)).

  Lemma average_le f g : (forall i, (i < Z.to_nat N)%nat -> f (frequency l N i) <= g (frequency l N i)) ->
    average_sum w l N f <= average_sum w l N g.
  Proof.
    intros H. unfold average_sum. apply rsum_le. intros i Hi. apply Rmult_le_compat_r; [|now apply H].
    apply Rlt_le. now apply quad_pos.
  Qed.
  Lemma average_between f lo hi : sampled l N f lo hi -> lo * D <= average_sum w l N f <= hi * D.
  Proof.
    intros H. rewrite <- !(average_const w l N _ (fun _ => _)) by reflexivity.
    split; apply average_le; intros i Hi; now apply H.
  Qed.
  Lemma average_scal c f : average_sum w l N (fun nu => c * f nu) = c * average_sum w l N f.
  Proof. unfold average_sum. rewrite <- rsum_scal. apply rsum_ext. intros i _. ring. Qed.

  (** Planck: between the extremes, up to the guard *)
  Lemma planck_between rho a lo hi : 0 <= lo -> sampled l N (mass rho a) lo hi ->
    0 < D /\ lo * (D / (D + tiny)) <= planck_mean_of w rho a l N <= hi.
  Proof.
    intros Hlo H. pose proof (average_pos l N Hl HN w Hw) as HD. pose proof tiny_pos as Tp. split; [exact HD|].
    destruct (average_between _ _ _ H) as (B1 & B2). unfold planck_mean_of.
    assert (Hhi : lo <= hi) by (specialize (H 0%nat ltac:(lia)); lra).
    split; apply (Rmult_le_reg_r (D + tiny)); try lra.
    - replace (lo * (D / (D + tiny)) * (D + tiny)) with (lo * D) by (field; lra).
      unfold Rdiv. rewrite Rmult_assoc, Rinv_l by lra. lra.
    - unfold Rdiv. rewrite Rmult_assoc, Rinv_l by lra. nra.
  Qed.

  (** the inverse numerator: between Dc/hi and Dc/lo, Dc the weight of the counted samples *)
  Lemma inverse_between rho a lo hi : 0 < rho -> 0 < lo ->
    (forall i, (i < Z.to_nat N)%nat -> tiny < a (frequency l N i) -> lo <= (a (frequency l N i) + tiny) / rho <= hi) ->
    0 < hi ->
    average_sum w l N (counted a) / hi <= average_sum w l N (inverse rho a) <= average_sum w l N (counted a) / lo.
  Proof.
    intros Hr Hlo H Hhi. pose proof tiny_pos as Tp. unfold Rdiv. rewrite !(Rmult_comm (average_sum w l N (counted a))), <- !average_scal.
    split; apply average_le; intros i Hi; specialize (H i Hi); unfold inverse, counted;
      destruct (Rlt_dec tiny (a _)) as [Ha|Ha]; try lra; destruct (H Ha) as (H1 & H2); set (x := a (frequency l N i)) in *;
      assert (E : rho / (x + tiny) = / ((x + tiny) / rho)) by (field; lra);
      rewrite E, Rmult_1_r; apply Rinv_le_contravar; lra.
  Qed.
End Averages.

(** D/(M + tiny) between the extremes when D/hi <= M <= D/lo *)
Lemma quotient_between D M lo hi : 0 < D -> 0 < lo -> lo <= hi -> D / hi <= M <= D / lo ->
  lo * (D / (D + lo * tiny)) <= D / (M + tiny) <= hi.
Proof.
  intros HD Hlo Hh (B1 & B2). pose proof tiny_pos as Tp.
  assert (0 < D / hi) by (apply Rmult_lt_0_compat; [lra|apply Rinv_0_lt_compat; lra]).
  assert (0 < lo * tiny) by (apply Rmult_lt_0_compat; lra).
  assert (M * lo <= D). { apply (Rmult_le_compat_r lo) in B2; [|lra]. replace (D / lo * lo) with D in B2 by (field; lra). exact B2. }
  assert (D <= M * hi). { apply (Rmult_le_compat_r hi) in B1; [|lra]. replace (D / hi * hi) with D in B1 by (field; lra). exact B1. }
  split.
  - apply (Rmult_le_reg_r ((M + tiny) * (D + lo * tiny))); [apply Rmult_lt_0_compat; lra|].
    replace (lo * (D / (D + lo * tiny)) * ((M + tiny) * (D + lo * tiny))) with (lo * D * (M + tiny)) by (field; lra).
    replace (D / (M + tiny) * ((M + tiny) * (D + lo * tiny))) with (D * (D + lo * tiny)) by (field; lra). nra.
  - apply (Rmult_le_reg_r (M + tiny)); [lra|]. unfold Rdiv. rewrite Rmult_assoc, Rinv_l by lra. nra.
Qed.

(** Photons, absorption and scattering, every coefficient: at every node and for every group the
    Planck mean lies between the extremes of the sampled mass coefficients, up to the factor
    D/(D + tiny) of the guard. The Rosseland mean lies between the extremes lo, hi of the
    guarded mass coefficients if no sample is below the guard, up to D/(D + lo tiny), unless
    D or D/hi is below the guard. *)
Lemma C32_photon_proof :
  forall (pc : PhysConst R) (coef : ER -> ER -> ER -> result ER) (a : R -> R -> R -> R),
  positive_hkc pc -> real_coefficient coef a ->
  forall (gR gT : rgrid) (gb : list ER) (ng N : Z), rg_ok gR -> rg_ok gT ->
  partition (edge (fun x => x) gb) (Z.to_nat ng) -> (ng < Z.of_nat (length gb))%Z -> (2 <= N)%Z ->
  forall (dbg : bool) (opc : RuntimePC ER),
  (dbg = true -> RuntimePC_eqb (RuntimePC_of (finpc pc)) opc = true) ->
  exists m,
    MeanImpl (finpc pc) dbg opc coef (Fin (rg_lo gR)) (Fin (rg_hi gR)) (rg_n gR)
      (Fin (rg_lo gT)) (Fin (rg_hi gT)) (rg_n gT) gb ng N = Ok m /\
    at_every_node gR gT ng (fun rho T g =>
      let l := group_logs pc gb T (Z.to_nat g) in
      let DP := planck_weight pc gb N T g in let DR := rosseland_weight pc gb N T g in
      exists P Q, answers m rho T g P Q /\
      (forall lo hi, 0 <= lo -> sampled l N (fun nu => a rho T nu / rho) lo hi ->
         lo * (DP / (DP + tiny)) <= P <= hi) /\
      (forall lo hi, 0 < lo -> sampled l N (fun nu => (a rho T nu + tiny) / rho) lo hi ->
         (forall i, (i < Z.to_nat N)%nat -> tiny < a rho T (frequency l N i)) ->
         Q <= hi /\ (tiny < DR -> tiny < DR / hi -> lo * (DR / (DR + lo * tiny)) <= Q))).
Proof.
  intros pc coef a Hp HC gR gT gb ng N HR HT HG HL HN dbg opc Hd.
  destruct (photon_nodes pc coef a gR gT gb ng N dbg opc Hp HC HR HT HG HL HN Hd) as (m & E & _ & H).
  exists m. split; [exact E|]. intros i j g Hi Hj Hg. specialize (H i j g Hi Hj Hg). cbv zeta in H.
  pose proof (pow10_pos (rg_node gR i)) as Hr. pose proof (pow10_pos (rg_node gT j)) as HTp. pose proof tiny_pos as Tp.
  set (rho := pow10 (rg_node gR i)) in *. set (T := pow10 (rg_node gT j)) in *.
  intros l DP DR. do 2 eexists. split; [exact H|].
  destruct (weights_pos pc gb ng N T g Hp HG HL HN HTp Hg) as (W1 & W2). fold DP in W1. fold DR in W2.
  destruct Hp as (Hh & Hk & Hc).
  destruct (edge_group gb ng HG HL (Z.to_nat g) ltac:(lia)) as (e & Ee & GG & _ & _).
  assert (Hl : fst l < snd l). { unfold l, group_logs. rewrite Ee. apply logs_incr. now apply window_pos. }
  assert (PB : forall nu, 0 < nu -> 0 < weight_B (pc_h pc) (pc_kb pc) (pc_c pc) T nu) by (intros; now apply weight_B_pos).
  assert (PdB : forall nu, 0 < nu -> 0 < weight_dB (pc_h pc) (pc_kb pc) (pc_c pc) T nu) by (intros; now apply weight_dB_pos).
  split.
  - intros lo hi Hlo HS. destruct (planck_between _ l N Hl ltac:(lia) PB rho (a rho T) lo hi Hlo HS) as (_ & B).
    unfold kappa_P. change (average_sum (weight_B (pc_h pc) (pc_kb pc) (pc_c pc) T) l N (fun _ => 1)) with DP in B. fold l.
    rewrite Rabs_pos_eq; [exact B|]. apply Rle_trans with (lo * (DP / (DP + tiny))); [|lra].
    apply Rmult_le_pos; [exact Hlo|]. apply Rlt_le. pos.
  - intros lo hi Hlo HS HA. assert (Hhi : lo <= hi) by (specialize (HS 0%nat ltac:(lia)); lra).
    assert (B := inverse_between (weight_dB (pc_h pc) (pc_kb pc) (pc_c pc) T) l N Hl ltac:(lia) PdB rho (a rho T) lo hi Hr Hlo
       (fun i Hi _ => HS i Hi) ltac:(lra)).
    assert (Ec : average_sum (weight_dB (pc_h pc) (pc_kb pc) (pc_c pc) T) l N (counted (a rho T)) = DR).
    { unfold DR, rosseland_weight, average_sum. apply rsum_ext. intros i' Hi'. specialize (HA i' Hi').
      unfold counted. now destruct (Rlt_dec tiny _). }
    rewrite Ec in B. pose proof (quotient_between DR _ lo hi W2 Hlo Hhi B) as QB.
    assert (Q0 : 0 < DR / hi) by (apply Rmult_lt_0_compat; [lra|apply Rinv_0_lt_compat; lra]).
    unfold kappa_R, rosseland_mean_of. fold l. change (average_sum (weight_dB (pc_h pc) (pc_kb pc) (pc_c pc) T) l N (fun _ => 1)) with DR.
    set (M := average_sum _ l N (inverse rho (a rho T))) in *.
    destruct (Rlt_dec tiny DR) as [D1|D1]; [destruct (Rlt_dec tiny M) as [D2|D2]|].
    + rewrite Rabs_pos_eq; [split; [lra|intros; lra]|]. apply Rmult_le_pos; [lra|]. apply Rlt_le, Rinv_0_lt_compat. lra.
    + rewrite Rabs_R0. split; [lra|intros; lra].
    + rewrite Rabs_R0. split; [lra|intros; lra].
Qed.

(** The Rosseland mean exceeds every sampled value if part of the group is transparent: the
    samples at or below the guard are left out of the numerator only. If the others all have
    the coefficient alpha, and carry less than half of the weight, the mean is at least twice
    the largest sampled mass coefficient, guard included. *)
Lemma C32_photon_refuted_proof :
  forall (pc : PhysConst R) (coef : ER -> ER -> ER -> result ER) (a : R -> R -> R -> R),
  positive_hkc pc -> real_coefficient coef a ->
  forall (gR gT : rgrid) (gb : list ER) (ng N : Z), rg_ok gR -> rg_ok gT ->
  partition (edge (fun x => x) gb) (Z.to_nat ng) -> (ng < Z.of_nat (length gb))%Z -> (2 <= N)%Z ->
  forall (dbg : bool) (opc : RuntimePC ER),
  (dbg = true -> RuntimePC_eqb (RuntimePC_of (finpc pc)) opc = true) ->
  exists m,
    MeanImpl (finpc pc) dbg opc coef (Fin (rg_lo gR)) (Fin (rg_hi gR)) (rg_n gR)
      (Fin (rg_lo gT)) (Fin (rg_hi gT)) (rg_n gT) gb ng N = Ok m /\
    at_every_node gR gT ng (fun rho T g =>
      let l := group_logs pc gb T (Z.to_nat g) in let DR := rosseland_weight pc gb N T g in
      let opaque := average_sum (weight_dB (pc_h pc) (pc_kb pc) (pc_c pc) T) l N
                      (fun nu => if Rlt_dec tiny (a rho T nu) then 1 else 0) in
      forall alpha, 0 < alpha ->
      (forall i, (i < Z.to_nat N)%nat -> let x := a rho T (frequency l N i) in 0 <= x <= tiny \/ x = alpha) ->
      let k := (alpha + tiny) / rho in
      k * tiny < opaque -> 2 * (opaque + k * tiny) <= DR -> tiny < DR ->
      exists P Q, answers m rho T g P Q /\ sampled l N (fun nu => a rho T nu / rho) 0 k /\ 2 * k <= Q).
Proof.
  intros pc coef a Hp HC gR gT gb ng N HR HT HG HL HN dbg opc Hd.
  destruct (photon_nodes pc coef a gR gT gb ng N dbg opc Hp HC HR HT HG HL HN Hd) as (m & E & _ & H).
  exists m. split; [exact E|]. intros i j g Hi Hj Hg. specialize (H i j g Hi Hj Hg). cbv zeta in H.
  pose proof (pow10_pos (rg_node gR i)) as Hr. pose proof (pow10_pos (rg_node gT j)) as HTp. pose proof tiny_pos as Tp.
  set (rho := pow10 (rg_node gR i)) in *. set (T := pow10 (rg_node gT j)) in *.
  intros l DR opaque alpha Ha HS k Ho HD HDR. do 2 eexists. split; [exact H|].
  assert (Hk : 0 < k) by (unfold k; pos).
  split.
  - intros i' Hi'. specialize (HS i' Hi'). cbv zeta in HS. unfold k.
    split; [apply Rmult_le_pos; [|apply Rlt_le; pos]; destruct HS as [?| ->]; lra|].
    apply Rmult_le_compat_r; [apply Rlt_le; pos|]. destruct HS as [?| ->]; lra.
  - destruct Hp as (Hh & Hk' & Hc).
    destruct (edge_group gb ng HG HL (Z.to_nat g) ltac:(lia)) as (e & Ee & GG & _ & _).
    assert (Hl : fst l < snd l). { unfold l, group_logs. rewrite Ee. apply logs_incr. now apply window_pos. }
    assert (PdB : forall nu, 0 < nu -> 0 < weight_dB (pc_h pc) (pc_kb pc) (pc_c pc) T nu) by (intros; now apply weight_dB_pos).
    assert (B := inverse_between (weight_dB (pc_h pc) (pc_kb pc) (pc_c pc) T) l N Hl ltac:(lia) PdB rho (a rho T) k k Hr Hk).
    change (average_sum (weight_dB (pc_h pc) (pc_kb pc) (pc_c pc) T) l N (counted (a rho T))) with opaque in B.
    assert (BM := B ltac:(intros i' Hi' Ht; destruct (HS i' Hi') as [?|Eq]; [lra|rewrite Eq; unfold k; lra]) Hk). clear B.
    unfold kappa_R, rosseland_mean_of. fold l. change (average_sum (weight_dB (pc_h pc) (pc_kb pc) (pc_c pc) T) l N (fun _ => 1)) with DR.
    set (M := average_sum _ l N (inverse rho (a rho T))) in *.
    assert (Mk : M * k = opaque). { replace M with (opaque / k) by lra. field. lra. }
    destruct (Rlt_dec tiny DR); [|lra]. destruct (Rlt_dec tiny M) as [Q|Q]; [|nra].
    assert (0 < DR / (M + tiny)) by (apply Rmult_lt_0_compat; [lra|apply Rinv_0_lt_compat; lra]).
    rewrite Rabs_pos_eq by lra. apply (Rmult_le_reg_r (M + tiny)); [lra|].
    replace (DR / (M + tiny) * (M + tiny)) with DR by (field; lra). nra.
Qed.

(** Unit constants, T = 100, the group [1, 10], two samples, transparent above frequency 3:
    more than five sixths of the weight is at the transparent frequency. *)
Lemma C32_photon_refuted_example :
  let gb := [Fin 1; Fin 10] in let l := group_logs unityR gb 100 (Z.to_nat 0) in
  let a := fun rho T nu : R => if Rlt_dec nu 3 then rho else 0 in
  let opaque := average_sum (weight_dB (pc_h unityR) (pc_kb unityR) (pc_c unityR) 100) l 2
                  (fun nu => if Rlt_dec tiny (a 1 100 nu) then 1 else 0) in
  real_coefficient (fun rho _ nu => if Oltb nu (Fin 3) then Ok rho else Ok (Fin 0)) a /\
  partition (edge (fun x => x) gb) (Z.to_nat 1) /\
  (forall i, (i < Z.to_nat 2)%nat -> let x := a 1 100 (frequency l 2 i) in 0 <= x <= tiny \/ x = 1) /\
  (1 + tiny) / 1 * tiny < opaque /\
  2 * (opaque + (1 + tiny) / 1 * tiny) <= rosseland_weight unityR gb 2 100 0 /\
  tiny < rosseland_weight unityR gb 2 100 0.
Proof.
  cbv zeta. pose proof (positive_consts_hkc _ unity_pos) as Hu.
  pose proof tiny_pos as Tp. pose proof tiny_lt_1 as T1. pose proof tiny_small as Ts.
  split. { intros rho T nu _ _ _. rewrite fin_ltb. unfold Rltb. now destruct (Rlt_dec nu 3). }
  split; [apply one_group_ok; lra|].
  assert (E : pc_h unityR = 1 /\ pc_kb unityR = 1 /\ pc_c unityR = 1).
  { repeat split; cbv -[IZR Rmult Rdiv Rplus]; field. } destruct E as (Eh & Ek & Ec).
  assert (W : group_logs unityR [Fin 1; Fin 10] 100 (Z.to_nat 0) = logs (1, 10)).
  { unfold group_logs. f_equal. cbn [edge nth_error Z.to_nat]. unfold window, thermal_lo, thermal_hi. rewrite Eh, Ek.
    destruct (Req_EM_T 1 0); [lra|]. destruct (Rlt_dec 1 _); [lra|]. destruct (Rlt_dec _ 10); [lra|].
    destruct (Rlt_dec 1 10); [reflexivity|lra]. }
  unfold rosseland_weight. rewrite W. set (l := logs (1, 10)).
  assert (Hl : fst l < snd l) by (apply logs_incr; cbn; lra).
  pose proof (cell_width_pos l 2 Hl ltac:(lia)) as Cw.
  set (n0 := frequency l 2 0). set (n1 := frequency l 2 1).
  assert (LN : forall x y n, 0 < x -> 0 < y -> log10 (x ^ n * y) = INR n * log10 x + log10 y).
  { intros x y n Hx Hy. unfold log10. rewrite ln_mult by (try apply pow_lt; lra). rewrite ln_pow by lra. field. pose proof ln10_pos. lra. }
  assert (F0 : 1 < n0 < 2).
  { split. { pose proof (frequency_bounds l 2 Hl ltac:(lia) 0 ltac:(cbn; lia)) as B. unfold l in B at 1. unfold logs in B. cbn [fst snd] in B.
             rewrite pow10_log10 in B by lra. fold n0 in B. lra. }
    apply Rlt_le_trans with (pow10 (log10 2)); [|right; apply pow10_log10; lra]. unfold n0, frequency. apply pow10_incr. unfold cell_width, l, logs. cbn [fst snd INR].
    assert (L : log10 ((1 + tiny) ^ 3 * (10 + tiny)) < log10 (2 ^ 3 * 2)).
    { apply log10_incr. { apply Rmult_lt_0_compat; [apply pow_lt|]; lra. } assert ((1 + tiny) ^ 3 <= 1.1 ^ 3) by (apply pow_incr; lra). nra. }
    rewrite !LN in L by lra. cbn [INR] in L. lra. }
  assert (F1 : 4 < n1 < 11).
  { split. 2: { pose proof (frequency_bounds l 2 Hl ltac:(lia) 1 ltac:(cbn; lia)) as B. unfold l in B at 4. unfold logs in B. cbn [fst snd] in B.
             rewrite pow10_log10 in B by lra. fold n1 in B. lra. }
    apply Rle_lt_trans with (pow10 (log10 4)); [right; symmetry; apply pow10_log10; lra|]. unfold n1, frequency. apply pow10_incr. unfold cell_width, l, logs. cbn [fst snd INR].
    assert (L : log10 (4 ^ 3 * 4) < log10 ((10 + tiny) ^ 3 * (1 + tiny))).
    { apply log10_incr; [lra|]. assert (10 ^ 3 <= (10 + tiny) ^ 3) by (apply pow_incr; lra). nra. }
    rewrite !LN in L by lra. cbn [INR] in L. lra. }
  assert (X : forall nu, 1 < nu < 11 ->
    let w := weight_dB (pc_h unityR) (pc_kb unityR) (pc_c unityR) 100 nu in 1.7 * nu ^ 2 <= w <= 2.6 * nu ^ 2).
  { intros nu Hn. cbv zeta. destruct Hu as (Hh & Hk & Hc). unfold weight_dB.
    assert (Ex : pc_h unityR * nu / (pc_kb unityR * 100) = nu / 100) by (rewrite Eh, Ek; field).
    rewrite Ex. destruct (Rlt_dec _ 80); [|lra]. rewrite Derive_Planck_eq by lra. rewrite Ex, Eh, Ek, Ec.
    set (x := nu / 100). assert (Hx : 0.01 < x < 0.11) by (unfold x; lra).
    pose proof (exp_ineq1_le x) as I1. pose proof (exp_ineq1_le (- x)) as I2. rewrite exp_Ropp in I2. set (e := exp x) in *.
    assert (He : e <= / (1 - x)).
    { apply (Rmult_le_reg_r (1 - x)); [lra|]. rewrite Rinv_l by lra. assert (e * / e = 1) by (apply Rinv_r; lra). nra. }
    assert (e <= 1.13). { apply Rle_trans with (1 := He). apply (Rmult_le_reg_r (1 - x)); [lra|]. rewrite Rinv_l by lra. lra. }
    assert (Hy : x <= e - 1 <= x * e).
    { split; [lra|]. assert (e * (1 - x) <= 1). { apply (Rmult_le_compat_r (1 - x)) in He; [|lra]. rewrite Rinv_l in He by lra. exact He. } lra. }
    assert (Hq : 0.85 <= x ^ 2 * (e / (e - 1) ^ 2) <= 1.3).
    { split; apply (Rmult_le_reg_r ((e - 1) ^ 2)); try (apply pow_lt; lra);
        replace (x ^ 2 * (e / (e - 1) ^ 2) * (e - 1) ^ 2) with (x ^ 2 * e) by (field; lra).
      - apply Rle_trans with (0.85 * (x * e) ^ 2). { apply Rmult_le_compat_l; [lra|]. apply pow_incr. lra. }
        replace (0.85 * (x * e) ^ 2) with (x ^ 2 * e * (0.85 * e)) by ring. rewrite <- (Rmult_1_r (x ^ 2 * e)) at 2.
        apply Rmult_le_compat_l; [|lra]. apply Rmult_le_pos; [apply pow_le|]; lra.
      - apply Rle_trans with (1.3 * x ^ 2). { assert (0 < x ^ 2) by (apply pow_lt; lra). nra. }
        apply Rmult_le_compat_l; [lra|]. apply pow_incr. lra. }
    replace (2 * 1 ^ 2 * nu ^ 4 / (100 ^ 2 * 1 ^ 2 * 1) * (e / (e - 1) ^ 2)) with (2 * nu ^ 2 * (x ^ 2 * (e / (e - 1) ^ 2)))
      by (unfold x; field; lra).
    assert (0 < nu ^ 2) by (apply pow_lt; lra). nra. }
  assert (A0 : (if Rlt_dec n0 3 then 1 else 0) = 1) by (destruct (Rlt_dec n0 3); lra).
  assert (A1 : (if Rlt_dec n1 3 then 1 else 0) = 0) by (destruct (Rlt_dec n1 3); lra).
  split.
  { intros i Hi. assert (i = 0 \/ i = 1)%nat as [-> | ->] by (cbn in Hi; lia); [right; exact A0|left]. fold n1. rewrite A1. lra. }
  unfold average_sum. change (Z.to_nat 2) with 2%nat. cbn [rsum]. fold n0 n1. rewrite A0, A1.
  destruct (Rlt_dec tiny 1); [|lra]. destruct (Rlt_dec tiny 0); [lra|]. unfold quad. fold n0 n1.
  pose proof (X n0 ltac:(lra)) as X0. pose proof (X n1 ltac:(lra)) as X1. cbv zeta in X0, X1.
  set (w0 := weight_dB _ _ _ _ n0) in *. set (w1 := weight_dB _ _ _ _ n1) in *.
  assert (C : 0.4 < cell_width l 2).
  { unfold cell_width, l, logs. cbn [fst snd].
    assert (L : log10 (10 ^ 4 * 1) < log10 ((10 + tiny) ^ 5 * 1)).
    { apply log10_incr; [lra|]. assert (10 ^ 5 <= (10 + tiny) ^ 5) by (apply pow_incr; lra). lra. }
    assert (L2 : log10 ((1 + tiny) ^ 5 * (10 ^ 4 * 1)) < log10 ((10 + tiny) ^ 5 * 1)).
    { apply log10_incr; [apply Rmult_lt_0_compat; [apply pow_lt|]; lra|].
      assert (10 ^ 5 <= (10 + tiny) ^ 5) by (apply pow_incr; lra). assert ((1 + tiny) ^ 5 <= 1.1 ^ 5) by (apply pow_incr; lra). lra. }
    rewrite !LN in L2 by lra. cbn [INR] in L2.
    assert (log10 1 = 0) by (unfold log10; rewrite ln_1; field; pose proof ln10_pos; lra).
    assert (log10 10 = 1) by (unfold log10; field; pose proof ln10_pos; lra). lra. }
  set (w := cell_width l 2) in *.
  assert (Y0 : 1.7 <= w0 * n0 <= 20.8). { assert (1 <= n0 ^ 2 <= 4) by (split; [|assert (n0 * n0 <= 2 * 2) by nra]; nra). split; nra. }
  assert (Y1 : 108 <= w1 * n1). { assert (16 <= n1 ^ 2) by nra. nra. }
  rewrite <- !Rmult_assoc. rewrite !Rmult_1_l, Rmult_0_l, Rmult_0_l, Rmult_0_l. 
  assert (Z0 : 1.7 * w <= w0 * n0 * w <= 20.8 * w) by (split; apply Rmult_le_compat_r; lra).
  assert (Z1 : 108 * w <= w1 * n1 * w) by (apply Rmult_le_compat_r; lra).
  set (z0 := w0 * n0 * w) in *. set (z1 := w1 * n1 * w) in *.
  assert ((1 + tiny) / 1 * tiny < 0.02) by (unfold Rdiv; rewrite Rinv_1; nra).
  split; [lra|]. split; lra.
Qed.

(** Neutrinos, absorption and scattering, every coefficient and positive spectrum: the Planck
    mean lies between the extremes of all sampled mass coefficients, the Rosseland mean
    between those of the samples above the guard (Dc is their weight), also when others are
    below it; up to the guard terms. *)
Lemma C32_neutrino_proof :
  forall (absorption : bool) (pc : PhysConst R) (coef : ER -> ER -> ER -> RadiationType -> ER -> result ER)
    (dist ddist : ER -> RadiationType -> ER -> result ER)
    (a : R -> R -> R -> RadiationType -> R -> R) (B dB : R -> RadiationType -> R -> R),
  positive_hkc pc -> nu_real_coefficient coef a -> real_spectrum dist ddist B dB ->
  forall (gR gT gY : rgrid) (range : option (R * R * Z)), rg_ok gR -> rg_ok gT -> rg_ok gY ->
  (forall r N, range = Some (r, N) -> fst r < snd r /\ (0 < N)%Z) ->
  forall (dbg : bool) (opc : RuntimePC ER),
  (dbg = true -> RuntimePC_eqb (RuntimePC_of (finpc pc)) opc = true) ->
  let l := nu_range pc gT range in let N := nu_samples absorption range in
  exists m,
    nu_build absorption pc dbg opc coef dist ddist gR gT gY range = Ok m /\
    at_every_nu_node gR gT gY (fun rho T Ye type =>
      let x := a rho T Ye type in
      let DP := average_sum (B T type) l N (fun _ => 1) in
      let Dc := average_sum (dB T type) l N (fun nu => if Rlt_dec tiny (x nu) then 1 else 0) in
      exists P Q, nu_answers m rho T Ye type P Q /\
      (forall lo hi, 0 <= lo -> sampled l N (fun nu => x nu / rho) lo hi -> lo * (DP / (DP + tiny)) <= P <= hi) /\
      (forall lo hi, 0 < lo -> lo <= hi ->
         (forall i, (i < Z.to_nat N)%nat -> let nu := frequency l N i in
            0 <= x nu /\ (tiny < x nu -> lo <= (x nu + tiny) / rho <= hi)) ->
         Q <= hi /\ (tiny < P -> tiny < Dc / hi -> lo * (Dc / (Dc + lo * tiny)) <= Q))).
Proof.
  intros absorption pc coef dist ddist a B dB Hp HC HB gR gT gY range HR HT HY Hr dbg opc Hd l N.
  destruct (nu_nodes absorption pc dbg opc coef _ _ _ _ _ gR gT gY range Hp HC HB HR HT HY Hr Hd) as (m & E & H).
  exists m. split; [exact E|]. intros i j y type Hi Hj Hy Ht.
  pose proof (pow10_pos (rg_node gR i)) as Hrho. pose proof (pow10_pos (rg_node gT j)) as HTp. pose proof tiny_pos as Tp.
  specialize (H i j y type Hi Hj Hy Ht). cbv zeta in H. fold l N in H.
  set (rho := pow10 (rg_node gR i)) in *. set (T := pow10 (rg_node gT j)) in *. set (Ye := rg_node gY y) in *.
  assert (Hl : fst l < snd l).
  { unfold l, nu_range. destruct range as [[r n']|]; [now apply (Hr r n')|]. now apply (auto_range_fin pc gT). }
  assert (HN : (0 < N)%Z). { unfold N, nu_samples, nu_count. destruct absorption; [|lia]. destruct range as [[r n']|]; [now apply (Hr r n')|lia]. }
  assert (PB : forall nu, 0 < nu -> 0 < B T type nu) by (intros; now apply HB).
  assert (PdB : forall nu, 0 < nu -> 0 < dB T type nu) by (intros; now apply HB).
  intros x DP Dc. do 2 eexists. split; [exact H|].
  pose proof (average_pos l N Hl HN (B T type) PB) as W1. fold DP in W1.
  assert (Kn : (forall i, (i < Z.to_nat N)%nat -> 0 <= x (frequency l N i)) -> 0 <= nu_kappa_P a B l N rho T Ye type).
  { intros HS. unfold nu_kappa_P, planck_mean_of. fold x DP.
    apply Rmult_le_pos; [|apply Rlt_le, Rinv_0_lt_compat; lra]. unfold average_sum. apply rsum_nonneg. intros i' Hi'.
    apply Rmult_le_pos; [|apply Rlt_le, quad_pos; auto]. unfold mass. apply Rmult_le_pos; [now apply HS|]. apply Rlt_le. pos. }
  split.
  - intros lo hi Hlo HS. destruct (planck_between _ l N Hl HN PB rho x lo hi Hlo HS) as (_ & BB). fold DP in BB.
    unfold nu_kappa_P. fold x. rewrite Rabs_pos_eq; [exact BB|]. apply Rle_trans with (lo * (DP / (DP + tiny))); [|lra].
    apply Rmult_le_pos; [exact Hlo|]. apply Rlt_le. pos.
  - intros lo hi Hlo Hhi HS. rewrite (Rabs_pos_eq (nu_kappa_P _ _ _ _ _ _ _ _)) by (apply Kn; intros; now apply HS).
    assert (BM := inverse_between (dB T type) l N Hl HN PdB rho x lo hi Hrho Hlo (fun i Hi => proj2 (HS i Hi)) ltac:(lra)).
    change (average_sum (dB T type) l N (counted x)) with Dc in BM.
    unfold nu_kappa_R, nu_rosseland_mean_of, nu_kappa_P. fold x. change (average_sum (dB T type) l N (counted x)) with Dc.
    set (P := planck_mean_of (B T type) rho x l N). set (M := average_sum _ l N (inverse rho x)) in *.
    destruct (Rlt_dec tiny P) as [D1|D1]; [destruct (Rlt_dec tiny M) as [D2|D2]|]; try (rewrite Rabs_R0; split; [lra|intros; lra]).
    assert (Hc : 0 < Dc).
    { assert (0 < Dc / lo) by lra. apply (Rmult_lt_compat_r lo) in H0; [|lra]. rewrite Rmult_0_l in H0.
      replace (Dc / lo * lo) with Dc in H0 by (field; lra). exact H0. }
    pose proof (quotient_between Dc M lo hi Hc Hlo Hhi BM) as QB.
    rewrite Rabs_pos_eq; [split; [lra|intros; lra]|]. apply Rmult_le_pos; [lra|]. apply Rlt_le, Rinv_0_lt_compat. lra.
Qed.

(** A coefficient with a transparent part, the Fermi-Dirac spectrum of three species. *)
Lemma C32_neutrino_example :
  nu_real_coefficient (fun rho _ _ _ nu => if Oltb nu (Fin 3) then Ok rho else Ok (Fin 0))
    (fun rho _ _ _ nu => if Rlt_dec nu 3 then rho else 0) /\
  real_spectrum (fun T type nu => Ok (fd_nu 3 (finpc cgsR) T type nu)) (fun T type nu => Ok (fd_dT 3 (finpc cgsR) T type nu))
    (FD_spectrum cgsR 3) (FD_slope cgsR 3) /\
  (forall nu, let x := fun nu : R => if Rlt_dec nu 3 then 2 else 0 in
     0 <= x nu /\ (tiny < x nu -> 2 <= (x nu + tiny) / 1 <= 2 + tiny)).
Proof.
  pose proof tiny_pos as Tp. split; [|split].
  - intros rho T Ye type nu _ _ _. rewrite fin_ltb. unfold Rltb. now destruct (Rlt_dec nu 3).
  - apply FD_real_spectrum; [apply cgs_hkc|lia].
  - intros nu. cbv beta zeta. destruct (Rlt_dec nu 3); (split; [lra|intros; lra]).
Qed.

(** The gray table of C31: with kappa = 1 every sample is 1. *)
Lemma C32_photon_example :
  real_coefficient (ph_Absorption (GrayOpacity (finpc cgsR) (Fin 1))) (fun rho _ _ => rho * 1) /\
  (forall l N rho, 0 < rho -> sampled l N (fun _ => rho * 1 / rho) 1 1) /\
  partition (edge (fun x => x) whole_spectrum) (Z.to_nat 1).
Proof.
  split; [apply gray_coefficient|]. split; [|apply whole_spectrum_ok]. intros l N rho H i _. replace (rho * 1 / rho) with 1 by (field; lra). lra.
Qed.
