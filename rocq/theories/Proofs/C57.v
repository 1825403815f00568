(** C57. Refining the frequency grid makes the averages exact. *)
From Coquelicot Require Import Coquelicot.
From Coq Require Import Reals ZArith List Lia Lra Bool Classical_Prop.
From Verif Require Import Base.Outcome Base.Ops Inst.ER Inst.ERTac Model.Constants Model.RadTypes Model.MeanUtils
  Model.MeanPhotons Model.MeanNeutrinos Spec.Physics Spec.Opacities Spec.Tables Spec.Groups Spec.Means Spec.Refinement Inst.RConsts
  Proofs.InterpFacts Proofs.TableFacts Proofs.PlanckFacts Proofs.MeanExact Proofs.MeanTotal Proofs.MeanNodes Proofs.C31 Proofs.C34 Proofs.C54
  Proofs.Refine Proofs.RefineMeans.
Import ListNotations.
Open Scope R_scope.

(** ** The photon weights *)
Section Weights.
  Context (pc : PhysConst R) (Hp : positive_hkc pc) (T : R) (HT : 0 < T).
  Local Notation h := (pc_h pc).
  Local Notation k := (pc_kb pc).
  Local Notation c := (pc_c pc).
  Local Notation B := (Planck_B h k c T).
  Local Notation dB := (fun nu => Derive (fun t => Planck_B h k c t nu) T).
  Definition turn : R := 80 * (k * T / h).
  Lemma turn_pos : 0 < turn.
  Proof. destruct Hp as (Hh & Hk & Hc). unfold turn. apply Rmult_lt_0_compat; [lra|]. apply Rdiv_lt_0_compat; [apply Rmult_lt_0_compat|]; assumption. Qed.
  Lemma turn_lt nu : h * nu / (k * T) < 80 <-> nu < turn.
  Proof.
    destruct Hp as (Hh & Hk & Hc). unfold turn. assert (P : 0 < h / (k * T)) by (apply Rdiv_lt_0_compat; [|apply Rmult_lt_0_compat]; assumption).
    replace (h * nu / (k * T)) with (nu * (h / (k * T))) by (unfold Rdiv; ring).
    replace 80 with (80 * (k * T / h) * (h / (k * T))) at 1 by (field; lra). split; [apply Rmult_lt_reg_r|apply Rmult_lt_compat_r]; exact P.
  Qed.
  Definition wien_B (nu : R) : R := 2 * h * nu ^ 3 / c ^ 2 * exp (- (h * nu / (k * T))).
  Definition wien_dB (nu : R) : R := 2 * h ^ 2 * nu ^ 4 / (T ^ 2 * c ^ 2 * k) * exp (- (h * nu / (k * T))).
  Definition slope (nu : R) : R :=
    2 * h ^ 2 * nu ^ 4 / (T ^ 2 * c ^ 2 * k) * (exp (h * nu / (k * T)) / (exp (h * nu / (k * T)) - 1) ^ 2).
  Lemma exp_x_gt nu : 0 < nu -> 0 < exp (h * nu / (k * T)) - 1.
  Proof. destruct Hp as (Hh & Hk & Hc). intros H. pose proof (one_lt_exp _ (x_pos pc Hh Hk T nu HT H)). lra. Qed.
  Lemma B_smooth nu : 0 < nu -> ex_derive B nu.
  Proof.
    intros H. destruct Hp as (Hh & Hk & Hc). pose proof (exp_x_gt nu H) as E. unfold Planck_B. auto_derive. change (h * nu * / (k * T)) with (h * nu / (k * T)).
    repeat split; try lra; apply Rmult_integral_contrapositive_currified || idtac; lra.
  Qed.
  Lemma slope_smooth nu : 0 < nu -> ex_derive slope nu.
  Proof.
    intros H. destruct Hp as (Hh & Hk & Hc). pose proof (exp_x_gt nu H) as E. unfold slope. auto_derive. change (h * nu * / (k * T)) with (h * nu / (k * T)).
    assert (k * T <> 0) by (apply Rmult_integral_contrapositive_currified; lra).
    repeat split; try lra; try assumption. rewrite Rmult_1_r. apply Rmult_integral_contrapositive_currified; lra.
  Qed.
  Lemma dB_slope nu : 0 < nu -> dB nu = slope nu.
  Proof. destruct Hp as (Hh & Hk & Hc). intros H. now apply Derive_Planck_eq. Qed.
  Lemma near_pos (nu : R) : 0 < nu -> locally nu (fun y => 0 < y).
  Proof. intros H. apply (open_gt 0 nu H). Qed.
  Lemma B_continuous nu : 0 < nu -> continuous B nu.
  Proof. intros H. apply (ex_derive_continuous B). now apply B_smooth. Qed.
  Lemma dB_continuous nu : 0 < nu -> continuous dB nu.
  Proof.
    intros H. apply (continuous_ext_loc dB slope nu).
    - apply (filter_imp (fun y => 0 < y)); [intros y Hy; symmetry; now apply dB_slope|now apply near_pos].
    - apply (ex_derive_continuous slope). now apply slope_smooth.
  Qed.
  Lemma wien_B_continuous nu : continuous wien_B nu.
  Proof. destruct Hp as (Hh & Hk & Hc). apply (ex_derive_continuous wien_B). unfold wien_B. auto_derive. repeat split. Qed.
  Lemma wien_dB_continuous nu : continuous wien_dB nu.
  Proof. destruct Hp as (Hh & Hk & Hc). apply (ex_derive_continuous wien_dB). unfold wien_dB. auto_derive. repeat split. Qed.
  Local Notation e := (/ 10 ^ 34).
  Lemma weights_close nu : 0 < nu ->
    (1 - e) * B nu <= weight_B h k c T nu <= (1 + e) * B nu /\ (1 - e) * dB nu <= weight_dB h k c T nu <= (1 + e) * dB nu.
  Proof.
    intros H. pose proof e_small as He. pose proof Hp as (Hh & Hk & Hc). destruct (Rlt_dec (h * nu / (k * T)) 80) as [K|K].
    - unfold weight_B, weight_dB. destruct (Rlt_dec (h * nu / (k * T)) 80) as [_|K']; [|contradiction].
      pose proof (Planck_B_pos pc Hh Hk Hc T nu HT H) as P1. assert (P2 : 0 < dB nu).
      { pose proof (weight_dB_pos pc Hh Hk Hc T nu HT H) as P2. unfold weight_dB in P2. destruct (Rlt_dec (h * nu / (k * T)) 80) as [_|K']; [exact P2|contradiction]. }
      split; nra.
    - destruct (C34_weights_proof pc Hp T nu HT H ltac:(lra)) as (b & db & E & _ & _ & E1 & E2).
      rewrite ThermalWeights_fin in E by assumption. injection E as <- <-. apply Rabs_def2 in E1, E2. split; lra.
  Qed.

  Context (l : R * R) (Hl : fst l < snd l) (rho : R) (a : R -> R) (Hr : 0 < rho) (Ha : regular a).
  Local Notation band := (pow10 (fst l), pow10 (snd l)).
  Lemma W_below x : 0 < x -> x < turn -> weight_B h k c T x = B x /\ weight_dB h k c T x = dB x.
  Proof. intros _ H. apply turn_lt in H. unfold weight_B, weight_dB. destruct (Rlt_dec _ _); [auto|contradiction]. Qed.
  Lemma W_above x : 0 < x -> turn < x -> weight_B h k c T x = wien_B x /\ weight_dB h k c T x = wien_dB x.
  Proof.
    intros _ H. assert (~ h * x / (k * T) < 80) by (intros K; apply turn_lt in K; lra).
    unfold weight_B, weight_dB. destruct (Rlt_dec _ _); [contradiction|auto].
  Qed.
  Lemma B_pos x : 0 < x -> 0 < B x.
  Proof. destruct Hp as (Hh & Hk & Hc). intros. now apply Planck_B_pos. Qed.
  Lemma dB_pos x : 0 < x -> 0 < dB x.
  Proof. intros H. pose proof Hp as (Hh & Hk & Hc). pose proof (weights_close x H) as (_ & _ & K). pose proof (weight_dB_pos pc Hh Hk Hc T x HT H). pose proof e_small. nra. Qed.

  Lemma photon_planck_converges : bright B band -> 0 < total (fun nu => a nu / rho * B nu) band ->
    exists N0, forall N, (N0 <= N)%Z -> agrees (planck_mean_of (weight_B h k c T) rho a l N) (Planck_average B rho a band).
  Proof.
    refine (planck_converges (weight_B h k c T) B turn B wien_B turn_pos (fun x p q => proj1 (W_below x p q)) (fun x p q => proj1 (W_above x p q))
      B_continuous (fun x _ => wien_B_continuous x) B_continuous B_pos (fun x p => proj1 (weights_close x p)) l Hl rho a Hr Ha).
  Qed.
  Lemma photon_rosseland_converges : opaque dB rho a band ->
    exists N0, forall N, (N0 <= N)%Z -> agrees (rosseland_mean_of (weight_dB h k c T) rho a l N) (Rosseland_average dB rho a band).
  Proof.
    refine (rosseland_converges (weight_dB h k c T) dB turn dB wien_dB turn_pos (fun x p q => proj2 (W_below x p q)) (fun x p q => proj2 (W_above x p q))
      dB_continuous (fun x _ => wien_dB_continuous x) dB_continuous dB_pos (fun x p => proj2 (weights_close x p)) l Hl rho a Hr Ha).
  Qed.
  Lemma photon_planck_rate N eta : (0 < N)%Z -> 0 <= eta <= / 200 -> bright B band -> 0 < total (fun nu => a nu / rho * B nu) band ->
    resolved B band N eta -> resolved (fun nu => a nu / rho * B nu) band N eta ->
    Rabs (planck_mean_of (weight_B h k c T) rho a l N - Planck_average B rho a band) <= (3 * eta + / 10 ^ 32) * Planck_average B rho a band.
  Proof.
    refine (planck_rate (weight_B h k c T) B B_continuous B_pos (fun x p => proj1 (weights_close x p)) l Hl rho a Hr Ha N eta).
  Qed.
  Lemma photon_rosseland_rate N eta : (0 < N)%Z -> 0 <= eta <= / 200 -> opaque dB rho a band ->
    resolved dB band N eta -> resolved (fun nu => rho / a nu * dB nu) band N eta ->
    Rabs (rosseland_mean_of (weight_dB h k c T) rho a l N - Rosseland_average dB rho a band) <= (3 * eta + / 10 ^ 32) * Rosseland_average dB rho a band.
  Proof.
    refine (rosseland_rate (weight_dB h k c T) dB dB_continuous dB_pos (fun x p => proj2 (weights_close x p)) l Hl rho a Hr Ha N eta).
  Qed.
End Weights.

(** ** Finitely many nodes *)
Lemma eventually_all (n : Z) (P : Z -> Z -> Prop) : (forall i, (0 <= i < n)%Z -> exists N0, forall N, (N0 <= N)%Z -> P i N) ->
  exists N0, forall N, (N0 <= N)%Z -> forall i, (0 <= i < n)%Z -> P i N.
Proof.
  intros H. assert (G : forall m : nat, (Z.of_nat m <= n)%Z -> exists N0, forall N, (N0 <= N)%Z -> forall i, (0 <= i < Z.of_nat m)%Z -> P i N).
  { induction m as [|m IH]; intros Hm; [exists 0%Z; intros; lia|]. destruct (IH ltac:(lia)) as (N1 & H1). destruct (H (Z.of_nat m) ltac:(lia)) as (N2 & H2).
    exists (Z.max N1 N2). intros N HN i Hi. destruct (Z.eq_dec i (Z.of_nat m)) as [->|K]; [apply H2; lia|apply H1; lia]. }
  destruct (Z_le_gt_dec 0 n) as [K|K]; [|exists 0%Z; intros; lia]. destruct (G (Z.to_nat n) ltac:(lia)) as (N0 & H0).
  exists N0. intros N HN i Hi. apply H0; lia.
Qed.
(** eventually, if a condition that does not depend on the number holds *)
Lemma eventually_if (C : Prop) (P : Z -> Prop) : (C -> exists N0, forall N, (N0 <= N)%Z -> P N) ->
  exists N0, forall N, (N0 <= N)%Z -> C -> P N.
Proof.
  intros H. destruct (classic C) as [K|K]; [destruct (H K) as (N0 & H0); exists N0; auto|]. exists 0%Z. intros N _ K'. contradiction.
Qed.
Lemma eventually_both (P Q : Z -> Prop) : (exists N0, forall N, (N0 <= N)%Z -> P N) -> (exists N0, forall N, (N0 <= N)%Z -> Q N) ->
  exists N0, forall N, (N0 <= N)%Z -> P N /\ Q N.
Proof. intros (N1 & H1) (N2 & H2). exists (Z.max N1 N2). intros N H. split; [apply H1|apply H2]; lia. Qed.
Lemma abs_closer x y k : 0 < k -> Rabs (x - y) <= k * y -> Rabs (Rabs x - y) <= k * y.
Proof.
  intros Hk H. assert (Hy : 0 <= y) by (pose proof (Rabs_pos (x - y)); nra).
  apply Rle_trans with (2 := H). rewrite <- (Rabs_pos_eq y Hy) at 1. apply Rabs_triang_inv2.
Qed.
Lemma p33 : 0 < / 10 ^ 33.
Proof. apply Rinv_0_lt_compat, pow_lt; lra. Qed.
Lemma p32 : 0 < / 10 ^ 32.
Proof. apply Rinv_0_lt_compat, pow_lt; lra. Qed.

(** ** Photons *)
(** the sampled band of a group: the group clipped to the thermal window, plus the guard of the
    logarithm *)
Definition group_band (pc : PhysConst R) (gb : list ER) (T : R) (g : Z) : R * R :=
  let w := window (pc_h pc) (pc_kb pc) T (match edge (fun x => x) gb (Z.to_nat g) with Fin x => x | _ => 0 end)
             (edge (fun x => x) gb (S (Z.to_nat g))) in
  (fst w + tiny, snd w + tiny).
Lemma group_band_logs pc gb T g : let w := window (pc_h pc) (pc_kb pc) T (match edge (fun x => x) gb (Z.to_nat g) with Fin x => x | _ => 0 end)
             (edge (fun x => x) gb (S (Z.to_nat g))) in 0 < fst w < snd w ->
  group_band pc gb T g = (pow10 (fst (group_logs pc gb T (Z.to_nat g))), pow10 (snd (group_logs pc gb T (Z.to_nat g)))).
Proof.
  intros w H. unfold group_band, group_logs, logs. fold w. cbn [fst snd]. pose proof tiny_pos. now rewrite !pow10_log10 by lra.
Qed.

Section Photon.
  Context (pc : PhysConst R) (Hp : positive_hkc pc) (gb : list ER) (ng : Z)
    (HG : partition (edge (fun x => x) gb) (Z.to_nat ng)) (HL : (ng < Z.of_nat (length gb))%Z).
  Lemma group_window T g : 0 < T -> (0 <= g < ng)%Z ->
    fst (group_logs pc gb T (Z.to_nat g)) < snd (group_logs pc gb T (Z.to_nat g)) /\
    group_band pc gb T g = (pow10 (fst (group_logs pc gb T (Z.to_nat g))), pow10 (snd (group_logs pc gb T (Z.to_nat g)))).
  Proof.
    intros HT Hg. split; [now apply (group_logs_incr pc Hp gb ng HG HL)|]. destruct Hp as (Hh & Hk & Hc).
    destruct (edge_group gb ng HG HL (Z.to_nat g) ltac:(lia)) as (e & Ee & GG & _ & _).
    apply group_band_logs. rewrite Ee. now apply window_pos.
  Qed.
End Photon.

(** Photons, absorption and scattering, every coefficient that is a continuous function of the
    frequency: with enough samples the stored means are, at every node and for every group, the
    Planck and the Rosseland average over the sampled band to one part in 10^33. The limit of
    accuracy is the Wien form of the spectrum beyond h nu = 80 kT. *)
Lemma C57_photon_proof :
  forall (pc : PhysConst R) (coef : ER -> ER -> ER -> result ER) (a : R -> R -> R -> R),
  positive_hkc pc -> real_coefficient coef a -> (forall rho T, 0 < rho -> 0 < T -> regular (a rho T)) ->
  forall (gR gT : rgrid) (gb : list ER) (ng : Z), rg_ok gR -> rg_ok gT ->
  partition (edge (fun x => x) gb) (Z.to_nat ng) -> (ng < Z.of_nat (length gb))%Z ->
  forall (dbg : bool) (opc : RuntimePC ER), (dbg = true -> RuntimePC_eqb (RuntimePC_of (finpc pc)) opc = true) ->
  exists N0, forall N, (N0 <= N)%Z -> exists m, photon_mean pc dbg opc coef gR gT gb ng N = Ok m /\
    at_every_node gR gT ng (fun rho T g =>
      let B := Planck_B (pc_h pc) (pc_kb pc) (pc_c pc) in
      let dB := fun nu => Derive (fun t => B t nu) T in
      let band := group_band pc gb T g in
      exists P Q, answers m rho T g P Q /\
      (bright (B T) band -> 0 < total (fun nu => a rho T nu / rho * B T nu) band ->
         agrees P (Planck_average (B T) rho (a rho T) band)) /\
      (opaque dB rho (a rho T) band -> agrees Q (Rosseland_average dB rho (a rho T) band))).
Proof.
  intros pc coef a Hp HC Hreg gR gT gb ng HR HT HG HL dbg opc Hd.
  set (B := Planck_B (pc_h pc) (pc_kb pc) (pc_c pc)).
  set (ok := fun i j g N => let rho := pow10 (rg_node gR i) in let T := pow10 (rg_node gT j) in
    let dB := fun nu => Derive (fun t => B t nu) T in let band := group_band pc gb T g in
    (bright (B T) band -> 0 < total (fun nu => a rho T nu / rho * B T nu) band -> agrees (Rabs (kappa_P pc a gb N rho T (Z.to_nat g))) (Planck_average (B T) rho (a rho T) band)) /\
    (opaque dB rho (a rho T) band -> agrees (Rabs (kappa_R pc a gb N rho T (Z.to_nat g))) (Rosseland_average dB rho (a rho T) band))).
  assert (E : exists N0, forall N, (N0 <= N)%Z -> forall i, (0 <= i < rg_n gR)%Z -> forall j, (0 <= j < rg_n gT)%Z -> forall g, (0 <= g < ng)%Z -> ok i j g N).
  { apply (eventually_all (rg_n gR) (fun i N => forall j, (0 <= j < rg_n gT)%Z -> forall g, (0 <= g < ng)%Z -> ok i j g N)). intros i Hi.
    apply (eventually_all (rg_n gT) (fun j N => forall g, (0 <= g < ng)%Z -> ok i j g N)). intros j Hj.
    apply (eventually_all ng (fun g N => ok i j g N)). intros g Hg. unfold ok.
    pose proof (pow10_pos (rg_node gR i)) as Pr. pose proof (pow10_pos (rg_node gT j)) as PT.
    set (rho := pow10 (rg_node gR i)) in *. set (T := pow10 (rg_node gT j)) in *. cbv zeta.
    destruct (group_window pc Hp gb ng HG HL T g PT Hg) as (W1 & ->). set (l := group_logs pc gb T (Z.to_nat g)) in *.
    apply eventually_both.
    - apply eventually_if. intros C1. apply eventually_if. intros C2.
      destruct (photon_planck_converges pc Hp T PT l W1 rho (a rho T) Pr (Hreg rho T Pr PT) C1 C2) as (N0 & H0).
      exists N0. intros N HN. apply abs_closer; [apply p33|]. exact (H0 N HN).
    - apply eventually_if. intros C1.
      destruct (photon_rosseland_converges pc Hp T PT l W1 rho (a rho T) Pr (Hreg rho T Pr PT) C1) as (N0 & H0).
      exists N0. intros N HN. apply abs_closer; [apply p33|]. exact (H0 N HN). }
  destruct E as (N0 & E). exists (Z.max N0 2). intros N HN.
  destruct (photon_nodes pc coef a gR gT gb ng N dbg opc Hp HC HR HT HG HL ltac:(lia) Hd) as (m & Em & _ & H).
  exists m. split; [exact Em|]. intros i j g Hi Hj Hg. cbv zeta. do 2 eexists. split; [exact (H i j g Hi Hj Hg)|].
  exact (E N ltac:(lia) i Hi j Hj g Hg).
Qed.

(** ... and the number of samples it takes: if N cells resolve the two integrands of an average
    to the fraction eta, the stored mean is the average to 3 eta + 10^-32. *)
Lemma C57_photon_rate_proof :
  forall (pc : PhysConst R) (coef : ER -> ER -> ER -> result ER) (a : R -> R -> R -> R),
  positive_hkc pc -> real_coefficient coef a -> (forall rho T, 0 < rho -> 0 < T -> regular (a rho T)) ->
  forall (gR gT : rgrid) (gb : list ER) (ng N : Z), rg_ok gR -> rg_ok gT ->
  partition (edge (fun x => x) gb) (Z.to_nat ng) -> (ng < Z.of_nat (length gb))%Z -> (2 <= N)%Z ->
  forall (dbg : bool) (opc : RuntimePC ER), (dbg = true -> RuntimePC_eqb (RuntimePC_of (finpc pc)) opc = true) ->
  exists m, photon_mean pc dbg opc coef gR gT gb ng N = Ok m /\
    at_every_node gR gT ng (fun rho T g =>
      let B := Planck_B (pc_h pc) (pc_kb pc) (pc_c pc) in
      let dB := fun nu => Derive (fun t => B t nu) T in
      let band := group_band pc gb T g in
      exists P Q, answers m rho T g P Q /\ forall eta, 0 <= eta <= / 200 ->
      let KP := Planck_average (B T) rho (a rho T) band in
      let KR := Rosseland_average dB rho (a rho T) band in
      (bright (B T) band -> 0 < total (fun nu => a rho T nu / rho * B T nu) band ->
       resolved (B T) band N eta -> resolved (fun nu => a rho T nu / rho * B T nu) band N eta ->
         Rabs (P - KP) <= (3 * eta + / 10 ^ 32) * KP) /\
      (opaque dB rho (a rho T) band ->
       resolved dB band N eta -> resolved (fun nu => rho / a rho T nu * dB nu) band N eta ->
         Rabs (Q - KR) <= (3 * eta + / 10 ^ 32) * KR)).
Proof.
  intros pc coef a Hp HC Hreg gR gT gb ng N HR HT HG HL HN dbg opc Hd.
  destruct (photon_nodes pc coef a gR gT gb ng N dbg opc Hp HC HR HT HG HL HN Hd) as (m & Em & _ & H).
  exists m. split; [exact Em|]. intros i j g Hi Hj Hg. cbv zeta. do 2 eexists. split; [exact (H i j g Hi Hj Hg)|]. intros eta He.
  pose proof (pow10_pos (rg_node gR i)) as Pr. pose proof (pow10_pos (rg_node gT j)) as PT.
  set (rho := pow10 (rg_node gR i)) in *. set (T := pow10 (rg_node gT j)) in *. pose proof p32 as P32.
  destruct (group_window pc Hp gb ng HG HL T g PT Hg) as (W1 & ->). set (l := group_logs pc gb T (Z.to_nat g)) in *.
  split; intros; (apply abs_closer; [lra|]).
  - apply photon_planck_rate; auto. lia.
  - apply photon_rosseland_rate; auto. lia.
Qed.

(** ** Neutrinos *)
Section NuCell.
  Context (B dB : R -> R) (CB : forall x, 0 < x -> continuous B x) (CdB : forall x, 0 < x -> continuous dB x)
    (PB : forall x, 0 < x -> 0 < B x) (PdB : forall x, 0 < x -> 0 < dB x)
    (l : R * R) (Hl : fst l < snd l) (rho : R) (a : R -> R) (Hr : 0 < rho) (Ha : regular a).
  Local Notation band := (pow10 (fst l), pow10 (snd l)).
  Local Notation e := (/ 10 ^ 34).
  Lemma itself (F : R -> R) : (forall x, 0 < x -> 0 < F x) -> forall x, 0 < x -> (1 - e) * F x <= F x <= (1 + e) * F x.
  Proof. intros H x Hx. specialize (H x Hx). pose proof e_small. nra. Qed.
  Lemma same (F : R -> R) (P : R -> Prop) : forall x, 0 < x -> P x -> F x = F x.
  Proof. reflexivity. Qed.
  Lemma nu_planck_converges : bright B band -> 0 < total (fun nu => a nu / rho * B nu) band ->
    exists N0, forall N, (N0 <= N)%Z -> agrees (planck_mean_of B rho a l N) (Planck_average B rho a band).
  Proof. exact (planck_converges B B 1 B B Rlt_0_1 (same B _) (same B _) CB CB CB PB (itself B PB) l Hl rho a Hr Ha). Qed.
  Lemma all_counted N : (0 < N)%Z -> (forall nu, inside_band band nu -> / 10 ^ 200 <= a nu) ->
    average_sum dB l N (counted a) = average_sum dB l N (fun _ => 1).
  Proof.
    intros HN H. unfold average_sum. apply rsum_ext. intros i Hi. f_equal. unfold counted.
    pose proof (H _ (samples_inside l Hl N i HN Hi)) as K. destruct (Rlt_dec tiny (a (frequency l N i))) as [_|K']; [reflexivity|].
    exfalso. apply K'. apply Rlt_le_trans with (2 := K). apply Rlt_le_trans with (1 := tiny_small).
    apply Rinv_le_contravar; [apply pow_lt; lra|]. apply Rle_pow; [lra|lia].
  Qed.
  Lemma above_guard N k : Rabs (planck_mean_of B rho a l N - Planck_average B rho a band) <= k * Planck_average B rho a band -> k <= / 2 ->
    / 10 ^ 200 <= Planck_average B rho a band -> tiny < planck_mean_of B rho a l N.
  Proof.
    intros H Hk HP. apply Rabs_le_between in H. assert (P : 0 < / 10 ^ 200) by (apply Rinv_0_lt_compat, pow_lt; lra).
    apply Rlt_le_trans with (/ 10 ^ 200 / 2).
    - apply Rlt_le_trans with (1 := tiny_small). apply Rle_trans with (/ 10 ^ 201).
      + apply Rinv_le_contravar; [apply pow_lt; lra|]. apply Rle_pow; [lra|lia].
      + replace (/ 10 ^ 201) with (/ 10 ^ 200 / 10); [lra|]. change (10 ^ 201) with (10 * 10 ^ 200). field.
    - nra.
  Qed.
  Lemma nu_rosseland_converges : bright B band -> 0 < total (fun nu => a nu / rho * B nu) band ->
    / 10 ^ 200 <= Planck_average B rho a band -> opaque dB rho a band ->
    exists N0, forall N, (N0 <= N)%Z -> agrees (nu_rosseland_mean_of B dB rho a l N) (Rosseland_average dB rho a band).
  Proof.
    intros H1 H2 H3 H4. destruct (nu_planck_converges H1 H2) as (N1 & K1).
    destruct (rosseland_quotient dB dB 1 dB dB Rlt_0_1 (same dB _) (same dB _) CdB CdB CdB PdB (itself dB PdB) l Hl rho a Hr Ha H4) as (N2 & K2).
    exists (Z.max (Z.max N1 N2) 1). intros N HN. specialize (K1 N ltac:(lia)). specialize (K2 N ltac:(lia)). cbv zeta in K2. destruct K2 as (K2 & K3 & K4).
    unfold nu_rosseland_mean_of. rewrite all_counted by (lia || apply H4).
    destruct (Rlt_dec tiny (planck_mean_of B rho a l N)) as [_|K]; [|exfalso; apply K; apply (above_guard N _ K1); [|exact H3]].
    - destruct (Rlt_dec tiny (average_sum dB l N (inverse rho a))) as [_|K]; [exact K4|contradiction].
    - apply Rle_trans with (/ 10 ^ 1); [|lra]. apply Rinv_le_contravar; [lra|]. apply Rle_pow; [lra|lia].
  Qed.
  Lemma nu_planck_rate N eta : (0 < N)%Z -> 0 <= eta <= / 200 -> bright B band -> 0 < total (fun nu => a nu / rho * B nu) band ->
    resolved B band N eta -> resolved (fun nu => a nu / rho * B nu) band N eta ->
    Rabs (planck_mean_of B rho a l N - Planck_average B rho a band) <= (3 * eta + / 10 ^ 32) * Planck_average B rho a band.
  Proof. exact (planck_rate B B CB PB (itself B PB) l Hl rho a Hr Ha N eta). Qed.
  Lemma nu_rosseland_rate N eta : (0 < N)%Z -> 0 <= eta <= / 200 -> bright B band -> 0 < total (fun nu => a nu / rho * B nu) band ->
    resolved B band N eta -> resolved (fun nu => a nu / rho * B nu) band N eta -> / 10 ^ 200 <= Planck_average B rho a band ->
    opaque dB rho a band -> resolved dB band N eta -> resolved (fun nu => rho / a nu * dB nu) band N eta ->
    Rabs (nu_rosseland_mean_of B dB rho a l N - Rosseland_average dB rho a band) <= (3 * eta + / 10 ^ 32) * Rosseland_average dB rho a band.
  Proof.
    intros HN He H1 H2 H3 H4 H5 H6 H7 H8. pose proof (nu_planck_rate N eta HN He H1 H2 H3 H4) as K1.
    destruct (rosseland_quotient_rate dB dB CdB PdB (itself dB PdB) l Hl rho a Hr Ha N eta HN He H6 H7 H8) as (K2 & K3 & K4).
    unfold nu_rosseland_mean_of. rewrite all_counted by (lia || apply H6).
    destruct (Rlt_dec tiny (planck_mean_of B rho a l N)) as [_|K]; [|exfalso; apply K; apply (above_guard N _ K1); [|exact H5]].
    - destruct (Rlt_dec tiny (average_sum dB l N (inverse rho a))) as [_|K]; [exact K4|contradiction].
    - assert (/ 10 ^ 32 <= / 10 ^ 1). { apply Rinv_le_contravar; [lra|]. apply Rle_pow; [lra|lia]. } lra.
  Qed.
End NuCell.

(** the sampled band: the given range of log10 nu, or the thermal range of the table *)
Definition nu_band (pc : PhysConst R) (gT : rgrid) (range : option (R * R * Z)) : R * R :=
  let l := nu_range pc gT range in (pow10 (fst l), pow10 (snd l)).
(** the spectrum and its derivative are continuous functions of the frequency *)
Definition regular_spectrum (B dB : R -> RadiationType -> R -> R) : Prop :=
  forall T type nu, 0 < T -> 0 < nu -> continuous (B T type) nu /\ continuous (dB T type) nu.

(** Neutrino absorption, every continuous coefficient and spectrum: with enough samples of a
    given range the stored means are, at every node and for every species, the averages over
    that range to one part in 10^33. *)
Lemma C57_neutrino_proof :
  forall (pc : PhysConst R) (coef : ER -> ER -> ER -> RadiationType -> ER -> result ER)
    (dist ddist : ER -> RadiationType -> ER -> result ER)
    (a : R -> R -> R -> RadiationType -> R -> R) (B dB : R -> RadiationType -> R -> R),
  positive_hkc pc -> nu_real_coefficient coef a -> real_spectrum dist ddist B dB -> regular_spectrum B dB ->
  (forall rho T Ye type, 0 < rho -> 0 < T -> regular (a rho T Ye type)) ->
  forall (gR gT gY : rgrid) (r : R * R), rg_ok gR -> rg_ok gT -> rg_ok gY -> fst r < snd r ->
  forall (dbg : bool) (opc : RuntimePC ER), (dbg = true -> RuntimePC_eqb (RuntimePC_of (finpc pc)) opc = true) ->
  exists N0, forall N, (N0 <= N)%Z -> exists m,
    nu_build true pc dbg opc coef dist ddist gR gT gY (Some (r, N)) = Ok m /\
    at_every_nu_node gR gT gY (fun rho T Ye type =>
      let band := (pow10 (fst r), pow10 (snd r)) in let x := a rho T Ye type in
      exists P Q, nu_answers m rho T Ye type P Q /\
      (bright (B T type) band -> 0 < total (fun nu => x nu / rho * B T type nu) band ->
         agrees P (Planck_average (B T type) rho x band) /\
         (/ 10 ^ 200 <= Planck_average (B T type) rho x band -> opaque (dB T type) rho x band ->
          agrees Q (Rosseland_average (dB T type) rho x band)))).
Proof.
  intros pc coef dist ddist a B dB Hp HC HS Hcont Hreg gR gT gY r HR HT HY Hl dbg opc Hd. set (band := (pow10 (fst r), pow10 (snd r))).
  set (ok := fun i j y t N => let rho := pow10 (rg_node gR i) in let T := pow10 (rg_node gT j) in let Ye := rg_node gY y in
    let type := type_of t in let x := a rho T Ye type in
    bright (B T type) band -> 0 < total (fun nu => x nu / rho * B T type nu) band ->
      agrees (Rabs (nu_kappa_P a B r N rho T Ye type)) (Planck_average (B T type) rho x band) /\
      (/ 10 ^ 200 <= Planck_average (B T type) rho x band -> opaque (dB T type) rho x band ->
       agrees (Rabs (nu_kappa_R a B dB r N rho T Ye type)) (Rosseland_average (dB T type) rho x band))).
  assert (E : exists N0, forall N, (N0 <= N)%Z -> forall i, (0 <= i < rg_n gR)%Z -> forall j, (0 <= j < rg_n gT)%Z -> forall y, (0 <= y < rg_n gY)%Z -> forall t, (0 <= t < 3)%Z -> ok i j y t N).
  { apply (eventually_all (rg_n gR) (fun i N => forall j, (0 <= j < rg_n gT)%Z -> forall y, (0 <= y < rg_n gY)%Z -> forall t, (0 <= t < 3)%Z -> ok i j y t N)). intros i Hi.
    apply (eventually_all (rg_n gT) (fun j N => forall y, (0 <= y < rg_n gY)%Z -> forall t, (0 <= t < 3)%Z -> ok i j y t N)). intros j Hj.
    apply (eventually_all (rg_n gY) (fun y N => forall t, (0 <= t < 3)%Z -> ok i j y t N)). intros y Hy.
    apply (eventually_all 3 (fun t N => ok i j y t N)). intros t Ht. unfold ok.
    pose proof (pow10_pos (rg_node gR i)) as Pr. pose proof (pow10_pos (rg_node gT j)) as PT.
    set (rho := pow10 (rg_node gR i)) in *. set (T := pow10 (rg_node gT j)) in *. set (Ye := rg_node gY y). set (type := type_of t). cbv zeta.
    assert (CB : forall x, 0 < x -> continuous (B T type) x) by (intros; now apply Hcont).
    assert (CdB : forall x, 0 < x -> continuous (dB T type) x) by (intros; now apply Hcont).
    assert (PB : forall x, 0 < x -> 0 < B T type x) by (intros x Hx; apply (HS T type x PT Hx)).
    assert (PdB : forall x, 0 < x -> 0 < dB T type x) by (intros x Hx; apply (HS T type x PT Hx)).
    apply eventually_if. intros C1. apply eventually_if. intros C2. apply eventually_both.
    - destruct (nu_planck_converges (B T type) CB PB r Hl rho _ Pr (Hreg rho T Ye type Pr PT) C1 C2) as (N0 & H0).
      exists N0. intros N HN. apply abs_closer; [apply p33|]. exact (H0 N HN).
    - apply eventually_if. intros C3. apply eventually_if. intros C4.
      destruct (nu_rosseland_converges (B T type) (dB T type) CB CdB PB PdB r Hl rho _ Pr (Hreg rho T Ye type Pr PT) C1 C2 C3 C4) as (N0 & H0).
      exists N0. intros N HN. apply abs_closer; [apply p33|]. exact (H0 N HN). }
  destruct E as (N0 & E). exists (Z.max N0 1). intros N HN.
  destruct (nu_nodes true pc dbg opc coef dist ddist a B dB gR gT gY (Some (r, N)) Hp HC HS HR HT HY) as (m & Em & H).
  { intros r' N' Eq. injection Eq as <- <-. split; [exact Hl|lia]. } { exact Hd. }
  exists m. split; [exact Em|]. intros i j y type Hi Hj Hy Ht. cbv zeta. do 2 eexists. split; [exact (H i j y type Hi Hj Hy Ht)|].
  pose proof (E N ltac:(lia) i Hi j Hj y Hy (RadType2Idx type) Ht) as K. unfold ok in K. rewrite type_of_idx in K by exact Ht. exact K.
Qed.

(** Neutrinos, absorption and scattering, with and without a given range: the means are the
    averages to 3 eta + 10^-32 if the cells, 100 of them for scattering, resolve the integrands
    to the fraction eta. *)
Lemma C57_neutrino_rate_proof :
  forall (absorption : bool) (pc : PhysConst R) (coef : ER -> ER -> ER -> RadiationType -> ER -> result ER)
    (dist ddist : ER -> RadiationType -> ER -> result ER)
    (a : R -> R -> R -> RadiationType -> R -> R) (B dB : R -> RadiationType -> R -> R),
  positive_hkc pc -> nu_real_coefficient coef a -> real_spectrum dist ddist B dB -> regular_spectrum B dB ->
  (forall rho T Ye type, 0 < rho -> 0 < T -> regular (a rho T Ye type)) ->
  forall (gR gT gY : rgrid) (range : option (R * R * Z)), rg_ok gR -> rg_ok gT -> rg_ok gY ->
  (forall r N, range = Some (r, N) -> fst r < snd r /\ (0 < N)%Z) ->
  forall (dbg : bool) (opc : RuntimePC ER), (dbg = true -> RuntimePC_eqb (RuntimePC_of (finpc pc)) opc = true) ->
  let band := nu_band pc gT range in let N := nu_samples absorption range in
  exists m, nu_build absorption pc dbg opc coef dist ddist gR gT gY range = Ok m /\
    at_every_nu_node gR gT gY (fun rho T Ye type =>
      let x := a rho T Ye type in
      let KP := Planck_average (B T type) rho x band in
      let KR := Rosseland_average (dB T type) rho x band in
      exists P Q, nu_answers m rho T Ye type P Q /\ forall eta, 0 <= eta <= / 200 ->
      bright (B T type) band -> 0 < total (fun nu => x nu / rho * B T type nu) band ->
      resolved (B T type) band N eta -> resolved (fun nu => x nu / rho * B T type nu) band N eta ->
        Rabs (P - KP) <= (3 * eta + / 10 ^ 32) * KP /\
        (/ 10 ^ 200 <= KP -> opaque (dB T type) rho x band ->
         resolved (dB T type) band N eta -> resolved (fun nu => rho / x nu * dB T type nu) band N eta ->
         Rabs (Q - KR) <= (3 * eta + / 10 ^ 32) * KR)).
Proof.
  intros absorption pc coef dist ddist a B dB Hp HC HS Hcont Hreg gR gT gY range HR HT HY Hrange dbg opc Hd band N.
  destruct (nu_nodes absorption pc dbg opc coef dist ddist a B dB gR gT gY range Hp HC HS HR HT HY Hrange Hd) as (m & Em & H).
  exists m. split; [exact Em|]. intros i j y type Hi Hj Hy Ht. cbv zeta. do 2 eexists. split; [exact (H i j y type Hi Hj Hy Ht)|].
  pose proof (pow10_pos (rg_node gR i)) as Pr. pose proof (pow10_pos (rg_node gT j)) as PT.
  set (rho := pow10 (rg_node gR i)) in *. set (T := pow10 (rg_node gT j)) in *. set (Ye := rg_node gY y) in *. pose proof p32 as P32.
  assert (Hl : fst (nu_range pc gT range) < snd (nu_range pc gT range)).
  { unfold nu_range. destruct range as [[r n]|]; [now apply (Hrange r n)|apply (auto_range_fin pc gT Hp HT)]. }
  assert (HN : (0 < N)%Z). { unfold N, nu_samples, nu_count. destruct absorption; [|lia]. destruct range as [[r n]|]; [now apply (Hrange r n)|lia]. }
  assert (CB : forall x, 0 < x -> continuous (B T type) x) by (intros; now apply Hcont).
  assert (CdB : forall x, 0 < x -> continuous (dB T type) x) by (intros; now apply Hcont).
  assert (PB : forall x, 0 < x -> 0 < B T type x) by (intros x Hx; apply (HS T type x PT Hx)).
  assert (PdB : forall x, 0 < x -> 0 < dB T type x) by (intros x Hx; apply (HS T type x PT Hx)).
  intros eta He C1 C2 R1 R2. split; intros; (apply abs_closer; [lra|]).
  - apply nu_planck_rate; auto.
  - apply (nu_rosseland_rate (B T type) (dB T type)); auto.
Qed.

(** Refining has no effect on neutrino scattering: the table is the same for every requested
    number of samples, and there is a coefficient whose average over the range is at least
    twice the stored mean at every node. *)
Lemma C57_neutrino_scattering_refuted_proof :
  exists (coef : ER -> ER -> ER -> RadiationType -> ER -> result ER) (dist ddist : ER -> RadiationType -> ER -> result ER)
    (a : R -> R -> R -> RadiationType -> R -> R) (B dB : R -> RadiationType -> R -> R) (r : R * R),
  nu_real_coefficient coef a /\ real_spectrum dist ddist B dB /\ regular_spectrum B dB /\
  (forall rho T Ye type, 0 < rho -> 0 < T -> regular (a rho T Ye type)) /\ fst r < snd r /\
  let band := (pow10 (fst r), pow10 (snd r)) in
  (forall T type, 0 < T -> bright (B T type) band) /\
  forall (pc : PhysConst R) (gR gT gY : rgrid) (dbg : bool) (opc : RuntimePC ER),
  positive_hkc pc -> rg_ok gR -> rg_ok gT -> rg_ok gY ->
  (dbg = true -> RuntimePC_eqb (RuntimePC_of (finpc pc)) opc = true) ->
  exists m, (forall N, (0 < N)%Z -> nu_build false pc dbg opc coef dist ddist gR gT gY (Some (r, N)) = Ok m) /\
    at_every_nu_node gR gT gY (fun rho T Ye type => exists P Q, nu_answers m rho T Ye type P Q /\
      0 < P /\ 2 * P <= Planck_average (B T type) rho (a rho T Ye type) band).
Proof.
  set (w := fun nu => 2 + cos (200 * PI * (ln nu / ln 10))).
  set (coef := fun (rho T Ye : ER) (t : RadiationType) (nu : ER) => match rho, nu with Fin x, Fin y => Ok (Fin (x * w y)) | _, _ => Ok rho end).
  set (dist := fun (T : ER) (t : RadiationType) (nu : ER) => match nu with Fin y => Ok (Fin (/ y)) | _ => Ok nu end).
  exists coef, dist, dist, (fun rho _ _ _ nu => rho * w nu), (fun _ _ nu => / nu), (fun _ _ nu => / nu), (0, 1).
  pose proof ln10_bounds as HL. pose proof tiny_pos as Tp.
  assert (Cw : forall nu, 0 < nu -> continuous w nu).
  { intros nu H. apply (ex_derive_continuous w). unfold w. auto_derive. repeat split; lra. }
  assert (Bw : forall nu, 1 <= w nu) by (intros nu; unfold w; pose proof (COS_bound (200 * PI * (ln nu / ln 10))); lra).
  assert (Ci : forall nu : R, 0 < nu -> continuous Rinv nu) by (intros; apply continuous_Rinv; lra).
  assert (A1 : nu_real_coefficient coef (fun rho _ _ _ nu => rho * w nu)) by (intros rho T Ye t nu _ _ _; reflexivity).
  assert (A2 : real_spectrum dist dist (fun _ _ nu => / nu) (fun _ _ nu => / nu)).
  { intros T t nu _ H. repeat split; apply Rinv_0_lt_compat; exact H. }
  assert (I0 : is_RInt (fun nu : R => / nu) (pow10 0) (pow10 1) (ln 10)).
  { replace (ln 10) with (minus (ln (pow10 1)) (ln (pow10 0))).
    2:{ unfold pow10, Rpower. rewrite !ln_exp. unfold minus, plus, opp; cbn. ring. }
    assert (P : forall x, Rmin (pow10 0) (pow10 1) <= x -> 0 < x).
    { intros x. pose proof (pow10_pos 0). pose proof (pow10_pos 1). unfold Rmin. destruct (Rle_dec _ _); lra. }
    apply (is_RInt_derive ln); intros x [Hx _]; apply P in Hx; [|now apply Ci]. auto_derive; [exact Hx|field; lra]. }
  assert (I1 : is_RInt (fun nu : R => w nu * / nu) (pow10 0) (pow10 1) (2 * ln 10)).
  { set (F := fun nu => 2 * ln nu + ln 10 / (200 * PI) * sin (200 * PI * (ln nu / ln 10))). pose proof PI_RGT_0 as Pi.
    replace (2 * ln 10) with (minus (F (pow10 1)) (F (pow10 0))).
    2:{ unfold F, pow10, Rpower. rewrite !ln_exp. unfold minus, plus, opp; cbn -[PI]. replace (200 * PI * (1 * ln 10 / ln 10)) with (0 + 2 * INR 100 * PI) by (rewrite INR_IZR_INZ; cbn -[PI]; field; lra).
        rewrite sin_period. replace (200 * PI * (0 * ln 10 / ln 10)) with 0 by (field; lra). rewrite sin_0. ring. }
    assert (P : forall x, Rmin (pow10 0) (pow10 1) <= x -> 0 < x).
    { intros x. pose proof (pow10_pos 0). pose proof (pow10_pos 1). unfold Rmin. destruct (Rle_dec _ _); lra. }
    apply (is_RInt_derive F); intros x [Hx _]; apply P in Hx.
    - unfold F. auto_derive; [repeat split; exact Hx|]. unfold w, Rdiv. field. repeat split; lra.
    - apply (continuous_mult w Rinv); [now apply Cw|now apply Ci]. }
  split; [exact A1|]. split; [exact A2|]. split; [intros T t nu _ H; split; apply Ci; exact H|].
  split. { intros rho T Ye t Hr _ nu H. split; [apply (continuous_scal_r rho w); now apply Cw|]. specialize (Bw nu). nra. }
  split; [cbn; lra|]. intros band. split.
  { intros T t _. unfold bright, total, band; cbn [fst snd]. rewrite (is_RInt_unique _ _ _ _ I0).
    apply Rle_trans with (/ 10 ^ 1); [apply Rinv_le_contravar; [lra|apply Rle_pow; [lra|lia]]|].
    assert (1 < ln 10); [|lra]. rewrite <- (ln_exp 1). apply ln_increasing; [apply exp_pos|]. pose proof exp_le_3. lra. }
  intros pc gR gT gY dbg opc Hp HR HT HY Hd.
  destruct (nu_nodes false pc dbg opc coef dist dist _ _ _ gR gT gY (Some ((0, 1), 1%Z)) Hp A1 A2 HR HT HY) as (m & Em & H).
  { intros r' N' Eq. injection Eq as <- <-. cbn. split; [lra|lia]. } { exact Hd. }
  exists m. split; [intros N _; exact Em|]. intros i j y t Hi Hj Hy Ht. specialize (H i j y t Hi Hj Hy Ht). cbv zeta in H.
  pose proof (pow10_pos (rg_node gR i)) as Pr. set (rho := pow10 (rg_node gR i)) in *. set (T := pow10 (rg_node gT j)) in *.
  do 2 eexists. split; [exact H|]. change (nu_range pc gT (Some (0, 1, 1%Z))) with (0, 1). change (nu_samples false (Some (0, 1, 1%Z))) with 100%Z.
  unfold nu_kappa_P, planck_mean_of, mass.
  set (D := average_sum (fun nu => / nu) (0, 1) 100 (fun _ => 1)).
  assert (PD : 0 < D) by (apply average_pos; [cbn; lra|lia|]; intros; now apply Rinv_0_lt_compat).
  assert (ED : average_sum (fun nu => / nu) (0, 1) 100 (fun nu => rho * w nu / rho) = D).
  { unfold D, average_sum. apply rsum_ext. intros n _. f_equal. unfold w, frequency, cell_width, pow10, Rpower. cbn [fst snd]. rewrite ln_exp.
    replace (200 * PI * ((0 + (INR n + / 2) * ((1 - 0) / 100)) * ln 10 / ln 10)) with (PI + 2 * INR n * PI) by (field; lra).
    rewrite cos_period, cos_PI. field. lra. }
  rewrite ED. assert (Q : 0 < D / (D + tiny) <= 1).
  { split; [apply Rdiv_lt_0_compat; lra|]. apply (Rmult_le_reg_r (D + tiny)); [lra|]. replace (D / (D + tiny) * (D + tiny)) with D by (field; lra). lra. }
  rewrite Rabs_pos_eq by lra. split; [lra|]. unfold Planck_average, total, band; cbn [fst snd].
  rewrite (is_RInt_unique _ _ _ _ I0). rewrite (is_RInt_unique (fun nu => rho * w nu / rho * / nu) _ _ (2 * ln 10)).
  - replace (2 * ln 10 / ln 10) with 2 by (field; lra). lra.
  - apply (is_RInt_ext (fun nu : R => w nu * / nu)); [|exact I1]. intros x _. f_equal. match goal with |- ?x = ?y => change (@eq R x y) end. field. lra.
Qed.

(** ** Every continuously differentiable integrand is resolved by enough cells *)
Lemma lipschitz_logs (f f' : R -> R) (lo hi : R) : 0 < lo <= hi ->
  (forall x, lo <= x <= hi -> is_derive f x (f' x) /\ continuous f' x) ->
  exists L, 0 <= L /\ forall mu nu, inside_band (lo, hi) mu -> inside_band (lo, hi) nu ->
    Rabs (f mu * mu - f nu * nu) <= L * Rabs (ln (mu / nu) / ln 10).
Proof.
  intros Hlo H. pose proof ln10_bounds as HL. set (G := fun x => (f' x * x + f x) * x).
  assert (C : forall x, lo <= x <= hi -> continuity_pt (fun x => Rabs (G x)) x).
  { intros x Hx. destruct (H x Hx) as (H1 & H2). apply continuity_pt_filterlim. apply (continuous_comp G Rabs); [|apply continuous_Rabs].
    unfold G. apply (continuous_mult (fun x => f' x * x + f x) (fun x => x)); [|apply continuous_id].
    apply (continuous_plus (fun x => f' x * x) f); [apply (continuous_mult f' (fun x => x)); [exact H2|apply continuous_id]|].
    apply (ex_derive_continuous f). eexists. exact H1. }
  destruct (continuity_ab_maj (fun x => Rabs (G x)) lo hi ltac:(lra) C) as (M & HM & _). set (L := Rabs (G M)) in *.
  exists (L * ln 10). split; [apply Rmult_le_pos; [apply Rabs_pos|lra]|].
  assert (K : forall mu nu, lo <= nu -> nu <= mu -> mu <= hi -> Rabs (f mu * mu - f nu * nu) <= L * ln (mu / nu)).
  { intros mu nu N1 N2 N3. set (F := fun y => f (exp y) * exp y).
    replace (f mu * mu - f nu * nu) with (F (ln mu) - F (ln nu)) by (unfold F; rewrite !exp_ln by lra; reflexivity).
    assert (Hln : ln nu <= ln mu). { destruct N2 as [N2|N2]; [left; apply ln_increasing; lra|right; now subst]. }
    assert (D : forall y, ln nu <= y <= ln mu -> is_derive F y (G (exp y))).
    { intros y Hy. assert (Hey : lo <= exp y <= hi).
      { split; [apply Rle_trans with nu; [lra|]; rewrite <- (exp_ln nu) by lra|apply Rle_trans with mu; [|lra]; rewrite <- (exp_ln mu) by lra].
        - destruct (proj1 Hy) as [E|E]; [left; now apply exp_increasing|right; now rewrite E].
        - destruct (proj2 Hy) as [E|E]; [left; now apply exp_increasing|right; now rewrite E]. }
      destruct (H _ Hey) as (H1 & _). unfold F, G.
      replace ((f' (exp y) * exp y + f (exp y)) * exp y) with (plus (mult (mult (exp y) (f' (exp y))) (exp y)) (mult (f (exp y)) (exp y))) by (unfold plus, mult; cbn; ring).
      apply (is_derive_mult (fun y => f (exp y)) exp); [|apply is_derive_Reals, derivable_pt_lim_exp|intros; apply Rmult_comm].
      apply (is_derive_comp f exp); [exact H1|apply is_derive_Reals, derivable_pt_lim_exp]. }
    destruct (MVT_gen F (ln nu) (ln mu) (fun y => G (exp y))) as (z & Hz & Ez).
    - rewrite Rmin_left, Rmax_right by lra. intros x Hx. apply D. lra.
    - rewrite Rmin_left, Rmax_right by lra. intros x Hx. apply continuity_pt_filterlim. apply (ex_derive_continuous F). eexists. apply D. exact Hx.
    - rewrite Rmin_left, Rmax_right in Hz by lra. rewrite Ez, Rabs_mult, (Rabs_pos_eq (ln mu - ln nu)) by lra. rewrite ln_div by lra.
      apply Rmult_le_compat_r; [lra|]. apply HM. split; [apply Rle_trans with nu; [lra|]; rewrite <- (exp_ln nu) by lra|apply Rle_trans with mu; [|lra]; rewrite <- (exp_ln mu) by lra].
      + destruct (proj1 Hz) as [E|E]; [left; now apply exp_increasing|right; now rewrite E].
      + destruct (proj2 Hz) as [E|E]; [left; now apply exp_increasing|right; now rewrite E]. }
  intros mu nu [M1 M2] [N1 N2]. cbn [fst snd] in *. 
  assert (EA : forall x, Rabs (x / ln 10) = Rabs x * / ln 10).
  { intros x. unfold Rdiv. rewrite Rabs_mult, (Rabs_pos_eq (/ ln 10)); [reflexivity|apply Rlt_le, Rinv_0_lt_compat; lra]. }
  rewrite EA.
  replace (L * ln 10 * (Rabs (ln (mu / nu)) * / ln 10)) with (L * Rabs (ln (mu / nu))) by (field; lra).
  destruct (Rle_dec nu mu) as [Q|Q].
  - apply Rle_trans with (1 := K mu nu N1 Q M2). apply Rmult_le_compat_l; [apply Rabs_pos|]. apply Rle_abs.
  - rewrite Rabs_minus_sym. apply Rle_trans with (1 := K nu mu M1 ltac:(lra) N2). apply Rmult_le_compat_l; [apply Rabs_pos|].
    rewrite !ln_div by lra. rewrite Rabs_minus_sym. apply Rle_abs.
Qed.
(** The hypothesis of the rates can be met for every integrand with a continuous derivative and
    every fraction. *)
Lemma C57_resolved_proof :
  forall (f f' : R -> R) (lo hi eta : R), 0 < lo <= hi -> 0 < eta -> 0 < total f (lo, hi) ->
  (forall x, lo <= x <= hi -> is_derive f x (f' x) /\ continuous f' x) ->
  exists N0, forall N, (N0 <= N)%Z -> resolved f (lo, hi) N eta.
Proof.
  intros f f' lo hi eta Hlo He Ht H. destruct (lipschitz_logs f f' lo hi Hlo H) as (L & L0 & L1). pose proof ln10_bounds as HL.
  set (A := L * decades (lo, hi) ^ 2 / 4). set (t := eta * (total f (lo, hi) / ln 10)).
  assert (Pt : 0 < t) by (apply Rmult_lt_0_compat; [exact He|apply Rdiv_lt_0_compat; lra]).
  assert (PA : 0 <= A) by (unfold A; apply Rmult_le_pos; [apply Rmult_le_pos; [exact L0|apply pow2_ge_0]|lra]).
  exists (Z.max 1 (up (A / t))). intros N HN. exists L. split; [exact L0|]. split; [exact L1|]. fold t.
  assert (HN1 : 1 <= IZR N) by (apply IZR_le; lia). assert (HN2 : A / t <= IZR N).
  { apply Rle_trans with (IZR (up (A / t))); [left; apply archimed|apply IZR_le; lia]. }
  replace (L * decades (lo, hi) ^ 2 / (4 * IZR N)) with (A / IZR N) by (unfold A; field; lra).
  apply (Rmult_le_reg_r (IZR N)); [lra|]. replace (A / IZR N * IZR N) with A by (field; lra).
  apply (Rmult_le_compat_r t) in HN2; [|lra]. replace (A / t * t) with A in HN2 by (field; lra). lra.
Qed.

(** ** Examples *)
Lemma unity_hkc : pc_h unityR = 1 /\ pc_kb unityR = 1 /\ pc_c unityR = 1.
Proof. repeat split; cbv -[IZR Rmult Rdiv Rplus]; field. Qed.
Lemma unity_band : group_band unityR [Fin 1; Fin 10] 1 0 = (1 + tiny, 10 + tiny).
Proof.
  destruct unity_hkc as (Eh & Ek & Ec). unfold group_band. cbn [edge nth_error Z.to_nat]. unfold window, thermal_lo, thermal_hi. rewrite Eh, Ek.
  destruct (Req_EM_T 1 0); [lra|]. destruct (Rlt_dec 1 _); [lra|]. destruct (Rlt_dec _ 10); [lra|]. destruct (Rlt_dec 1 10); [reflexivity|lra].
Qed.
Lemma resolved_ext f g lo hi N eta : lo <= hi -> (forall x, lo <= x <= hi -> f x = g x) -> resolved f (lo, hi) N eta -> resolved g (lo, hi) N eta.
Proof.
  intros Hl H (L & L0 & L1 & L2). exists L. split; [exact L0|]. split.
  - intros mu nu M1 M2. rewrite <- (H mu M1), <- (H nu M2). now apply L1.
  - replace (total g (lo, hi)) with (total f (lo, hi)); [exact L2|]. apply RInt_ext. cbn [fst snd]. rewrite Rmin_left, Rmax_right by lra. intros x Hx. apply H. lra.
Qed.
Lemma total_lower f lo hi k : 0 < lo < hi -> (forall x, lo <= x <= hi -> continuous f x /\ k <= f x) -> k * (hi - lo) <= total f (lo, hi).
Proof.
  intros Hl H. unfold total; cbn [fst snd]. replace (k * (hi - lo)) with (RInt (fun _ => k) lo hi).
  - apply RInt_le; [lra|apply ex_RInt_const| |intros x Hx; apply H; lra]. apply (ex_RInt_continuous f). rewrite Rmin_left, Rmax_right by lra. intros x Hx. now apply H.
  - rewrite RInt_const. unfold scal; cbn. unfold mult; cbn. ring.
Qed.
(** Unit constants, the group [1, 10], a coefficient growing with the frequency; at the node
    with density 1 and temperature 1 the averages are bright and opaque, and enough cells
    resolve the four integrands to 1/200. *)
Lemma C57_photon_example :
  let g := {| rg_lo := 0; rg_hi := 1; rg_n := 2 |} in let gb := [Fin 1; Fin 10] in
  let a := fun rho (_ : R) nu => rho * (1 + nu) in
  let B := Planck_B (pc_h unityR) (pc_kb unityR) (pc_c unityR) in
  let dB := fun nu => Derive (fun t => B t nu) 1 in
  let band := group_band unityR gb 1 0 in
  positive_hkc unityR /\ real_coefficient (fun rho _ nu => Ok (Omul rho (Oadd (Fin 1) nu))) a /\
  (forall rho T, 0 < rho -> 0 < T -> regular (a rho T)) /\ rg_ok g /\ partition (edge (fun x => x) gb) (Z.to_nat 1) /\
  pow10 (rg_node g 0) = 1 /\
  bright (B 1) band /\ 0 < total (fun nu => a 1 1 nu / 1 * B 1 nu) band /\ opaque dB 1 (a 1 1) band /\
  exists N, (2 <= N)%Z /\ resolved (B 1) band N (/ 200) /\ resolved (fun nu => a 1 1 nu / 1 * B 1 nu) band N (/ 200) /\
    resolved dB band N (/ 200) /\ resolved (fun nu => 1 / a 1 1 nu * dB nu) band N (/ 200).
Proof.
  cbv zeta. pose proof (positive_consts_hkc _ unity_pos) as Hu. pose proof tiny_pos as Tp. pose proof tiny_lt_1 as T1. destruct unity_hkc as (Eh & Ek & Ec).
  split; [exact Hu|]. split; [intros rho T nu _ _ _; reflexivity|]. split.
  { intros rho T Hr _ nu H. split; [|nra]. apply (continuous_scal_r rho (fun nu => 1 + nu)). apply (continuous_plus (fun _ => 1) (fun nu => nu)); [apply continuous_const|apply continuous_id]. }
  split; [split; cbn; [lra|lia]|]. split; [apply one_group_ok; lra|].
  split. { unfold rg_node; cbn [rg_lo]. rewrite Rmult_0_l, Rplus_0_l. unfold pow10. apply Rpower_O. lra. }
  rewrite unity_band. set (lo := 1 + tiny). set (hi := 10 + tiny). assert (Hlo : 1 < lo < 2) by (unfold lo; lra). assert (Hhi : 9 < hi < 11 /\ 9 <= hi - lo) by (unfold hi, lo; lra).
  set (B := Planck_B (pc_h unityR) (pc_kb unityR) (pc_c unityR)). set (dB := fun nu => Derive (fun t => B t nu) 1).
  set (f1 := fun x => 2 * x ^ 3 / (exp x - 1)). set (f3 := fun x => 2 * x ^ 4 * exp x / (exp x - 1) ^ 2).
  assert (X0 : forall x, lo <= x <= hi -> 1 < exp x < 177147).
  { intros x Hx. split; [pose proof (exp_ineq1 x ltac:(lra)); lra|].
    apply Rlt_le_trans with (exp 11); [apply exp_increasing; lra|].
    assert (Ee : forall n, exp (INR n) = exp 1 ^ n) by (induction n as [|n IH]; [exact exp_0|rewrite S_INR, exp_plus, IH; cbn [pow]; ring]).
    replace 11 with (INR 11) by (rewrite INR_IZR_INZ; reflexivity). rewrite Ee.
    apply Rle_trans with (3 ^ 11); [|lra]. apply pow_incr. pose proof (exp_pos 1). pose proof exp_le_3. lra. }
  assert (B1 : forall x, lo <= x <= hi -> f1 x = B 1 x).
  { intros x Hx. pose proof (X0 x Hx). unfold f1, B, Planck_B. rewrite Eh, Ek, Ec. replace (1 * x / (1 * 1)) with x by field. field. lra. }
  assert (B3 : forall x, lo <= x <= hi -> f3 x = dB x).
  { intros x Hx. pose proof (X0 x Hx). unfold f3, dB, B. rewrite (dB_slope unityR Hu 1 Rlt_0_1 x) by lra. unfold slope. rewrite Eh, Ek, Ec.
    replace (1 * x / (1 * 1)) with x by field. field. lra. }
  set (f1' := fun x => 6 * x ^ 2 / (exp x - 1) - 2 * x ^ 3 * exp x / (exp x - 1) ^ 2).
  set (f3' := fun x => 2 * (4 * x ^ 3 + x ^ 4) * exp x / (exp x - 1) ^ 2 - 4 * x ^ 4 * exp x ^ 2 / (exp x - 1) ^ 3).
  assert (D1 : forall x, lo <= x <= hi -> is_derive f1 x (f1' x) /\ continuous f1' x).
  { intros x Hx. pose proof (X0 x Hx). split.
    - unfold f1, f1'. auto_derive; [lra|]. field. lra.
    - apply (ex_derive_continuous f1'). unfold f1'. auto_derive. repeat split; try lra. rewrite Rmult_1_r. apply Rmult_integral_contrapositive_currified; lra. }
  assert (D3 : forall x, lo <= x <= hi -> is_derive f3 x (f3' x) /\ continuous f3' x).
  { intros x Hx. pose proof (X0 x Hx). assert ((exp x - 1) * (exp x - 1) <> 0) by (apply Rmult_integral_contrapositive_currified; lra). split.
    - unfold f3, f3'. auto_derive; [rewrite Rmult_1_r; assumption|]. field. lra.
    - apply (ex_derive_continuous f3'). unfold f3'. auto_derive. repeat split; rewrite ?Rmult_1_r; try assumption. apply Rmult_integral_contrapositive_currified; [lra|assumption]. }
  assert (D2 : forall x, lo <= x <= hi -> is_derive (fun x => (1 + x) * f1 x) x (f1 x + (1 + x) * f1' x) /\ continuous (fun x => f1 x + (1 + x) * f1' x) x).
  { intros x Hx. destruct (D1 x Hx) as (P1 & P2). split.
    - replace (f1 x + (1 + x) * f1' x) with (plus (mult 1 (f1 x)) (mult (1 + x) (f1' x))) by (unfold plus, mult; cbn; ring).
      apply (is_derive_mult (fun x => 1 + x) f1); [auto_derive; [trivial|ring]|exact P1|intros; apply Rmult_comm].
    - apply (continuous_plus f1 (fun x => (1 + x) * f1' x)); [apply (ex_derive_continuous f1); eexists; exact P1|].
      apply (continuous_mult (fun x => 1 + x) f1'); [|exact P2]. apply (continuous_plus (fun _ => 1) (fun x => x)); [apply continuous_const|apply continuous_id]. }
  assert (D4 : forall x, lo <= x <= hi -> is_derive (fun x => / (1 + x) * f3 x) x (- / (1 + x) ^ 2 * f3 x + / (1 + x) * f3' x) /\ continuous (fun x => - / (1 + x) ^ 2 * f3 x + / (1 + x) * f3' x) x).
  { intros x Hx. destruct (D3 x Hx) as (P1 & P2). split.
    - replace (- / (1 + x) ^ 2 * f3 x + / (1 + x) * f3' x) with (plus (mult (- / (1 + x) ^ 2) (f3 x)) (mult (/ (1 + x)) (f3' x))) by (unfold plus, mult; cbn; ring).
      apply (is_derive_mult (fun x => / (1 + x)) f3); [auto_derive; [lra|field; lra]|exact P1|intros; apply Rmult_comm].
    - apply (continuous_plus (fun x => - / (1 + x) ^ 2 * f3 x) (fun x => / (1 + x) * f3' x)).
      + apply (continuous_mult (fun x => - / (1 + x) ^ 2) f3); [|apply (ex_derive_continuous f3); eexists; exact P1].
        apply (ex_derive_continuous (fun x => - / (1 + x) ^ 2)). auto_derive. rewrite Rmult_1_r. apply Rmult_integral_contrapositive_currified; lra.
      + apply (continuous_mult (fun x => / (1 + x)) f3'); [|exact P2]. apply (ex_derive_continuous (fun x => / (1 + x))). auto_derive. lra. }
  assert (L1 : forall x, lo <= x <= hi -> / 10 ^ 6 <= f1 x).
  { intros x Hx. pose proof (X0 x Hx). assert (1 <= x ^ 3) by (apply pow_R1_Rle; lra). unfold f1.
    apply (Rmult_le_reg_r (exp x - 1)); [lra|]. replace (2 * x ^ 3 / (exp x - 1) * (exp x - 1)) with (2 * x ^ 3) by (field; lra). lra. }
  assert (L3 : forall x, lo <= x <= hi -> / 10 ^ 6 <= f3 x).
  { intros x Hx. pose proof (X0 x Hx) as E. assert (1 <= x ^ 4) by (apply pow_R1_Rle; lra). unfold f3.
    assert (Pq : 0 < (exp x - 1) ^ 2) by (apply pow_lt; lra). apply (Rmult_le_reg_r ((exp x - 1) ^ 2)); [exact Pq|].
    replace (2 * x ^ 4 * exp x / (exp x - 1) ^ 2 * (exp x - 1) ^ 2) with (2 * x ^ 4 * exp x) by (field; lra).
    apply Rle_trans with (2 * 1 * exp x); [|apply Rmult_le_compat_r; lra]. set (E0 := exp x) in *. nra. }
  assert (C1 : forall x, lo <= x <= hi -> continuous f1 x) by (intros x Hx; apply (ex_derive_continuous f1); eexists; apply (D1 x Hx)).
  assert (C3 : forall x, lo <= x <= hi -> continuous f3 x) by (intros x Hx; apply (ex_derive_continuous f3); eexists; apply (D3 x Hx)).
  assert (Tq : / 10 ^ 200 <= / 10 ^ 8) by (apply Rinv_le_contravar; [lra|apply Rle_pow; [lra|lia]]).
  assert (P200 : 0 < / 10 ^ 200) by (apply Rinv_0_lt_compat, pow_lt; lra).
  assert (G1 : / 10 ^ 200 <= total f1 (lo, hi)).
  { apply Rle_trans with (/ 10 ^ 6 * (hi - lo)); [lra|]. apply total_lower; [lra|]. intros x Hx. split; [now apply C1|now apply L1]. }
  assert (G2 : / 10 ^ 200 <= total (fun x => (1 + x) * f1 x) (lo, hi)).
  { apply Rle_trans with (/ 10 ^ 6 * (hi - lo)); [lra|]. apply total_lower; [lra|]. intros x Hx. split.
    - apply (ex_derive_continuous (fun x => (1 + x) * f1 x)). eexists. apply (D2 x Hx).
    - specialize (L1 x Hx). nra. }
  assert (G3 : / 10 ^ 200 <= total f3 (lo, hi)).
  { apply Rle_trans with (/ 10 ^ 6 * (hi - lo)); [lra|]. apply total_lower; [lra|]. intros x Hx. split; [now apply C3|now apply L3]. }
  assert (G4 : / 10 ^ 200 <= total (fun x => / (1 + x) * f3 x) (lo, hi)).
  { apply Rle_trans with (/ 10 ^ 8 * (hi - lo)); [nra|]. apply total_lower; [lra|]. intros x Hx. split.
    - apply (ex_derive_continuous (fun x => / (1 + x) * f3 x)). eexists. apply (D4 x Hx).
    - specialize (L3 x Hx). assert (/ 12 <= / (1 + x)) by (apply Rinv_le_contravar; lra). nra. }
  assert (Ext : forall f g, (forall x, lo <= x <= hi -> f x = g x) -> total g (lo, hi) = total f (lo, hi)).
  { intros f g H. symmetry. apply RInt_ext. cbn [fst snd]. rewrite Rmin_left, Rmax_right by lra. intros x Hx. apply H. lra. }
  assert (E2 : forall x, lo <= x <= hi -> (1 + x) * f1 x = 1 * (1 + x) / 1 * B 1 x) by (intros x Hx; rewrite <- (B1 x Hx); field).
  assert (E4 : forall x, lo <= x <= hi -> / (1 + x) * f3 x = 1 / (1 * (1 + x)) * dB x) by (intros x Hx; rewrite <- (B3 x Hx); field; lra).
  assert (T4 : total (fun nu => 1 / (1 * (1 + nu)) * dB nu) (lo, hi) = total (fun x => / (1 + x) * f3 x) (lo, hi)) by (apply Ext; exact E4).
  split. { unfold bright. rewrite (Ext f1) by exact B1. exact G1. }
  split. { rewrite (Ext (fun x => (1 + x) * f1 x)) by exact E2. lra. }
  split. { split; [rewrite (Ext f3) by exact B3; exact G3|]. split; [rewrite T4; exact G4|].
    intros nu [N1 N2]. cbn [fst snd] in N1, N2. lra. }
  destruct (C57_resolved_proof f1 f1' lo hi (/ 200) ltac:(lra) ltac:(lra) ltac:(lra) D1) as (N1 & R1).
  destruct (C57_resolved_proof _ _ lo hi (/ 200) ltac:(lra) ltac:(lra) (Rlt_le_trans _ _ _ P200 G2) D2) as (N2 & R2).
  destruct (C57_resolved_proof f3 f3' lo hi (/ 200) ltac:(lra) ltac:(lra) ltac:(lra) D3) as (N3 & R3).
  destruct (C57_resolved_proof _ _ lo hi (/ 200) ltac:(lra) ltac:(lra) (Rlt_le_trans _ _ _ P200 G4) D4) as (N4 & R4).
  set (N := Z.max 2 (Z.max (Z.max N1 N2) (Z.max N3 N4))). exists N. split; [lia|].
  split; [apply (resolved_ext f1); [lra|exact B1|apply R1; lia]|].
  split; [apply (resolved_ext (fun x => (1 + x) * f1 x)); [lra|exact E2|apply R2; lia]|].
  split; [apply (resolved_ext f3); [lra|exact B3|apply R3; lia]|].
  apply (resolved_ext (fun x => / (1 + x) * f3 x)); [lra|exact E4|apply R4; lia].
Qed.

(** A flat spectrum over one decade and a coefficient growing with the frequency: every
    hypothesis of the neutrino theorems holds at every density and temperature, and enough
    cells resolve the four integrands to 1/200. *)
Lemma C57_neutrino_example :
  let r := (0, 1) in let band := (pow10 (fst r), pow10 (snd r)) in
  let a := fun rho (_ _ : R) (_ : RadiationType) nu => rho * (1 + nu) in
  let B := fun (_ : R) (_ : RadiationType) (_ : R) => 1 in
  nu_real_coefficient (fun rho _ _ _ nu => Ok (Omul rho (Oadd (Fin 1) nu))) a /\
  real_spectrum (fun _ _ _ => Ok (Fin 1)) (fun _ _ _ => Ok (Fin 1)) B B /\ regular_spectrum B B /\
  (forall rho T Ye type, 0 < rho -> 0 < T -> regular (a rho T Ye type)) /\ band = (1, 10) /\
  forall rho T Ye type, / 10 <= rho -> 0 < T -> let x := a rho T Ye type in
    bright (B T type) band /\ 0 < total (fun nu => x nu / rho * B T type nu) band /\
    / 10 ^ 200 <= Planck_average (B T type) rho x band /\ opaque (B T type) rho x band /\
    exists N, (2 <= N)%Z /\ resolved (B T type) band N (/ 200) /\ resolved (fun nu => x nu / rho * B T type nu) band N (/ 200) /\
      resolved (fun nu => rho / x nu * B T type nu) band N (/ 200).
Proof.
  cbv zeta. cbn [fst snd].
  assert (P0 : pow10 0 = 1) by (unfold pow10; apply Rpower_O; lra). assert (P1 : pow10 1 = 10) by (unfold pow10; apply Rpower_1; lra). rewrite P0, P1.
  split; [intros rho T Ye t nu _ _ _; reflexivity|]. split; [intros T t nu _ _; repeat split; lra|].
  split; [intros T t nu _ _; split; apply continuous_const|]. split.
  { intros rho T Ye t Hr _ nu H. split; [|nra]. apply (continuous_scal_r rho (fun nu => 1 + nu)). apply (continuous_plus (fun _ => 1) (fun nu => nu)); [apply continuous_const|apply continuous_id]. }
  split; [reflexivity|]. intros rho T Ye t Hr HT.
  assert (Tq : / 10 ^ 200 <= / 10 ^ 8) by (apply Rinv_le_contravar; [lra|apply Rle_pow; [lra|lia]]).
  assert (P200 : 0 < / 10 ^ 200) by (apply Rinv_0_lt_compat, pow_lt; lra).
  assert (D1 : forall x, 1 <= x <= 10 -> is_derive (fun _ : R => 1) x 0 /\ continuous (fun _ : R => 0) x).
  { intros x Hx. split; [apply (is_derive_const 1)|apply continuous_const]. }
  assert (D2 : forall x, 1 <= x <= 10 -> is_derive (fun x : R => 1 + x) x 1 /\ continuous (fun _ : R => 1) x).
  { intros x Hx. split; [auto_derive; [trivial|ring]|apply continuous_const]. }
  assert (D4 : forall x, 1 <= x <= 10 -> is_derive (fun x : R => / (1 + x)) x (- / (1 + x) ^ 2) /\ continuous (fun x : R => - / (1 + x) ^ 2) x).
  { intros x Hx. split; [auto_derive; [lra|field; lra]|]. apply (ex_derive_continuous (fun x => - / (1 + x) ^ 2)). auto_derive.
    rewrite Rmult_1_r. apply Rmult_integral_contrapositive_currified; lra. }
  assert (CD : forall f f' : R -> R, (forall x, 1 <= x <= 10 -> is_derive f x (f' x) /\ continuous f' x) -> forall x, 1 <= x <= 10 -> continuous f x).
  { intros f f' H x Hx. apply (ex_derive_continuous f). eexists. apply (H x Hx). }
  assert (G1 : total (fun _ => 1) (1, 10) = 9) by (unfold total; cbn [fst snd]; rewrite RInt_const; unfold scal; cbn; unfold mult; cbn; ring).
  assert (G2 : 9 <= total (fun x => 1 + x) (1, 10)).
  { apply Rle_trans with (1 * (10 - 1)); [lra|]. apply total_lower; [lra|]. intros x Hx. split; [exact (CD _ _ D2 x Hx)|lra]. }
  assert (G4 : / 11 * (10 - 1) <= total (fun x => / (1 + x)) (1, 10)).
  { apply total_lower; [lra|]. intros x Hx. split; [exact (CD _ _ D4 x Hx)|apply Rinv_le_contravar; lra]. }
  assert (Ext : forall f g, (forall x, 1 <= x <= 10 -> f x = g x) -> total g (1, 10) = total f (1, 10)).
  { intros f g H. symmetry. apply RInt_ext. cbn [fst snd]. rewrite Rmin_left, Rmax_right by lra. intros x Hx. apply H. lra. }
  assert (E2 : forall x, 1 <= x <= 10 -> 1 + x = rho * (1 + x) / rho * 1) by (intros x Hx; field; lra).
  assert (E4 : forall x, 1 <= x <= 10 -> / (1 + x) = rho / (rho * (1 + x)) * 1) by (intros x Hx; field; lra).
  assert (T2 : total (fun nu => rho * (1 + nu) / rho * 1) (1, 10) = total (fun x => 1 + x) (1, 10)) by (apply Ext; exact E2).
  assert (T4 : total (fun nu => rho / (rho * (1 + nu)) * 1) (1, 10) = total (fun x => / (1 + x)) (1, 10)) by (apply Ext; exact E4).
  split; [unfold bright; rewrite G1; lra|]. split; [rewrite T2; lra|]. split.
  { unfold Planck_average. rewrite T2, G1. apply Rle_trans with 1; [lra|]. apply (Rmult_le_reg_r 9); [lra|]. unfold Rdiv. rewrite Rmult_assoc, Rinv_l by lra. lra. }
  split. { split; [rewrite G1; lra|]. split; [rewrite T4; lra|]. intros nu [N1 N2]. cbn [fst snd] in N1, N2. apply Rle_trans with (/ 10 * 2); [lra|]. apply Rmult_le_compat; lra. }
  destruct (C57_resolved_proof _ _ 1 10 (/ 200) ltac:(lra) ltac:(lra) ltac:(rewrite G1; lra) D1) as (N1 & R1).
  destruct (C57_resolved_proof _ _ 1 10 (/ 200) ltac:(lra) ltac:(lra) (Rlt_le_trans 0 9 _ ltac:(lra) G2) D2) as (N2 & R2).
  destruct (C57_resolved_proof _ _ 1 10 (/ 200) ltac:(lra) ltac:(lra) (Rlt_le_trans 0 (/ 11 * (10 - 1)) _ ltac:(lra) G4) D4) as (N4 & R4).
  exists (Z.max 2 (Z.max N1 (Z.max N2 N4))). split; [lia|]. split; [apply R1; lia|].
  split; [apply (resolved_ext (fun x => 1 + x)); [lra|exact E2|apply R2; lia]|apply (resolved_ext (fun x => / (1 + x))); [lra|exact E4|apply R4; lia]].
Qed.
