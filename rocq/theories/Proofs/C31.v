(** C31. Means of a frequency-independent opacity. *)
From Coq Require Import Reals ZArith List Lia Lra Bool.
From Verif Require Import Base.Outcome Base.Ops Inst.ER Inst.ERTac Model.Constants Model.Robust Model.RadTypes
  Model.PhotonApi Model.NeutrinoApi Model.GrayPhotons Model.OpacNeutrinos Model.ThermalNeutrinos Model.Spiner Model.MeanUtils Model.MeanPhotons Model.MeanNeutrinos Spec.Physics Spec.Opacities Spec.Tables
  Spec.Groups Spec.Means Spec.RuntimeConstants Inst.RConsts Proofs.BoseIntegral Proofs.InterpFacts Proofs.TableFacts Proofs.ModelFacts Proofs.PlanckFacts
  Proofs.MeanExact Proofs.MeanTotal Proofs.MeanNodes Proofs.C26 Proofs.C34.
Import ListNotations.
Open Scope R_scope.

(** ** Averages of a constant *)
Lemma average_const w l N c f : (forall nu, f nu = c) ->
  average_sum w l N f = c * average_sum w l N (fun _ => 1).
Proof.
  intros H. unfold average_sum. rewrite <- rsum_scal. apply rsum_ext. intros i _. rewrite H. ring.
Qed.

(** the guarded means of a constant coefficient: D is the sum of the weights *)
Definition guarded_planck (kappa D : R) : R := kappa * (D / (D + tiny)).
Definition guarded_rosseland (rho alpha D : R) : R :=
  if Rlt_dec tiny alpha then if Rlt_dec tiny D then if Rlt_dec tiny (rho / (alpha + tiny) * D) then
    D / (rho / (alpha + tiny) * D + tiny) else 0 else 0 else 0.

Lemma planck_const B rho al l N : 0 < average_sum B l N (fun _ => 1) ->
  planck_mean_of B rho (fun _ => al) l N = guarded_planck (al / rho) (average_sum B l N (fun _ => 1)).
Proof.
  intros H. unfold planck_mean_of, guarded_planck. rewrite (average_const _ _ _ (al / rho)) by reflexivity.
  unfold Rdiv. ring.
Qed.
Lemma rosseland_const dB rho al l N :
  rosseland_mean_of dB rho (fun _ => al) l N = guarded_rosseland rho al (average_sum dB l N (fun _ => 1)).
Proof.
  unfold rosseland_mean_of, guarded_rosseland. set (D := average_sum dB l N (fun _ => 1)). pose proof tiny_pos.
  destruct (Rlt_dec tiny al) as [Ha|Ha].
  - rewrite (average_const _ _ _ (rho / (al + tiny)) (inverse rho (fun _ => al))); [reflexivity|].
    intros nu. unfold inverse. now destruct (Rlt_dec tiny al).
  - rewrite (average_const _ _ _ 0 (inverse rho (fun _ => al))).
    + destruct (Rlt_dec tiny D); [|reflexivity]. destruct (Rlt_dec _ _); [lra|reflexivity].
    + intros nu. unfold inverse. now destruct (Rlt_dec tiny al).
Qed.

Lemma guarded_planck_nonneg k D : 0 <= k -> 0 < D -> 0 <= guarded_planck k D.
Proof. intros. unfold guarded_planck. pose proof tiny_pos. apply Rmult_le_pos; [assumption|]. apply Rlt_le. pos. Qed.
Lemma guarded_rosseland_nonneg rho al D : 0 < D -> 0 <= guarded_rosseland rho al D.
Proof.
  intros. unfold guarded_rosseland. pose proof tiny_pos. do 3 (destruct (Rlt_dec _ _); [|lra]).
  apply Rmult_le_pos; [lra|]. apply Rlt_le, Rinv_0_lt_compat. lra.
Qed.

(** the guarded means are within eps of the true ones *)
Lemma guarded_planck_close k D eps : 0 <= k -> 0 < D -> tiny <= eps * D ->
  (1 - eps) * k <= guarded_planck k D <= k.
Proof.
  intros Hk HD He. unfold guarded_planck. pose proof tiny_pos.
  assert (1 - eps <= D / (D + tiny) <= 1).
  { split; apply (Rmult_le_reg_r (D + tiny)); try lra; unfold Rdiv; rewrite Rmult_assoc, Rinv_l by lra; nra. }
  nra.
Qed.
Lemma guarded_rosseland_close rho al D eps : 0 < rho -> tiny < al -> tiny < D -> eps < 1 ->
  let k := (al + tiny) / rho in tiny * k <= eps * D ->
  (1 - eps) * k <= guarded_rosseland rho al D <= k.
Proof.
  intros Hr Ha HD H1 k He. pose proof tiny_pos.
  assert (Hk : 0 < k) by (unfold k; pos).
  assert (E : rho / (al + tiny) * D = D / k) by (unfold k; field; lra).
  assert (tiny < D / k).
  { apply (Rmult_lt_reg_r k); [exact Hk|]. unfold Rdiv. rewrite Rmult_assoc, Rinv_l by lra. nra. }
  unfold guarded_rosseland. rewrite E. do 3 (destruct (Rlt_dec _ _); [|lra]).
  assert (Q : D / (D / k + tiny) = k * (D / (D + tiny * k))) by (field; split; nra).
  rewrite Q. assert (0 < tiny * k) by (apply Rmult_lt_0_compat; lra).
  assert (1 - eps <= D / (D + tiny * k) <= 1).
  { split; apply (Rmult_le_reg_r (D + tiny * k)); try lra; unfold Rdiv; rewrite Rmult_assoc, Rinv_l by lra; nra. }
  nra.
Qed.

(** ** Photons *)
(** the sums of the Planck and of the Rosseland weights over the samples of group g *)
Definition planck_weight (pc : PhysConst R) (gb : list ER) (N : Z) (T : R) (g : Z) : R :=
  average_sum (weight_B (pc_h pc) (pc_kb pc) (pc_c pc) T) (group_logs pc gb T (Z.to_nat g)) N (fun _ => 1).
Definition rosseland_weight (pc : PhysConst R) (gb : list ER) (N : Z) (T : R) (g : Z) : R :=
  average_sum (weight_dB (pc_h pc) (pc_kb pc) (pc_c pc) T) (group_logs pc gb T (Z.to_nat g)) N (fun _ => 1).

(** the table of a gray coefficient [alpha rho T]: at every node and for every group *)
Definition at_every_node (gR gT : rgrid) (ng : Z) (P : R -> R -> Z -> Prop) : Prop :=
  forall i j g, (0 <= i < rg_n gR)%Z -> (0 <= j < rg_n gT)%Z -> (0 <= g < ng)%Z ->
  P (pow10 (rg_node gR i)) (pow10 (rg_node gT j)) g.

Lemma weights_pos pc gb ng N T g : positive_hkc pc -> partition (edge (fun x => x) gb) (Z.to_nat ng) ->
  (ng < Z.of_nat (length gb))%Z -> (2 <= N)%Z -> 0 < T -> (0 <= g < ng)%Z ->
  0 < planck_weight pc gb N T g /\ 0 < rosseland_weight pc gb N T g.
Proof.
  intros (Hh & Hk & Hc) HG HL HN HT Hg.
  destruct (edge_group gb ng HG HL (Z.to_nat g) ltac:(lia)) as (lo & E & GG & _ & _).
  assert (W : fst (group_logs pc gb T (Z.to_nat g)) < snd (group_logs pc gb T (Z.to_nat g))).
  { unfold group_logs. rewrite E. apply logs_incr. now apply window_pos. }
  split; apply average_pos; auto; try lia; intros nu Hn; [apply weight_B_pos|apply weight_dB_pos]; auto.
Qed.

(** Photons, absorption and scattering: the constructor succeeds and at every node, for every
    group, the Planck mean is kappa D/(D + tiny), D > 0 being the sum of the Planck weights,
    and the Rosseland mean D/(D rho/(alpha + tiny) + tiny), D being the sum of its weights;
    the latter is 0 if the coefficient, D or D rho/(alpha + tiny) is not above the guard. *)
Lemma C31_photon_proof :
  forall (pc : PhysConst R) (coef : ER -> ER -> ER -> result ER) (alpha : R -> R -> R),
  positive_hkc pc -> real_coefficient coef (fun rho T _ => alpha rho T) ->
  (forall rho T, 0 < rho -> 0 < T -> 0 <= alpha rho T) ->
  forall (gR gT : rgrid) (gb : list ER) (ng N : Z), rg_ok gR -> rg_ok gT ->
  partition (edge (fun x => x) gb) (Z.to_nat ng) -> (ng < Z.of_nat (length gb))%Z -> (2 <= N)%Z ->
  forall (dbg : bool) (opc : RuntimePC ER),
  (dbg = true -> RuntimePC_eqb (RuntimePC_of (finpc pc)) opc = true) ->
  exists m,
    MeanImpl (finpc pc) dbg opc coef (Fin (rg_lo gR)) (Fin (rg_hi gR)) (rg_n gR)
      (Fin (rg_lo gT)) (Fin (rg_hi gT)) (rg_n gT) gb ng N = Ok m /\
    at_every_node gR gT ng (fun rho T g =>
      0 < planck_weight pc gb N T g /\ 0 < rosseland_weight pc gb N T g /\
      answers m rho T g (guarded_planck (alpha rho T / rho) (planck_weight pc gb N T g))
                        (guarded_rosseland rho (alpha rho T) (rosseland_weight pc gb N T g))).
Proof.
  intros pc coef alpha Hp HC HA gR gT gb ng N HR HT HG HL HN dbg opc Hd.
  destruct (photon_nodes pc coef _ gR gT gb ng N dbg opc Hp HC HR HT HG HL HN Hd) as (m & E & _ & H).
  exists m. split; [exact E|]. intros i j g Hi Hj Hg. set (rho := pow10 (rg_node gR i)). set (T := pow10 (rg_node gT j)).
  assert (Hr : 0 < rho) by apply pow10_pos. assert (HTp : 0 < T) by apply pow10_pos.
  destruct (weights_pos pc gb ng N T g Hp HG HL HN HTp Hg) as (W1 & W2).
  split; [exact W1|]. split; [exact W2|].
  specialize (H i j g Hi Hj Hg). cbv zeta in H. fold rho T in H.
  unfold kappa_P, kappa_R in H. rewrite planck_const, rosseland_const in H by exact W1.
  fold (planck_weight pc gb N T g) in H. fold (rosseland_weight pc gb N T g) in H.
  rewrite !Rabs_pos_eq in H; [exact H| |].
  - now apply guarded_rosseland_nonneg.
  - apply guarded_planck_nonneg; [|exact W1]. specialize (HA rho T Hr HTp). apply Rmult_le_pos; [exact HA|]. apply Rlt_le. pos.
Qed.

(** ... hence both means equal the mass coefficient to the relative accuracy eps wherever the
    weights exceed the guard by that factor. *)
Lemma C31_photon_close_proof :
  forall (pc : PhysConst R) (coef : ER -> ER -> ER -> result ER) (alpha : R -> R -> R),
  positive_hkc pc -> real_coefficient coef (fun rho T _ => alpha rho T) ->
  (forall rho T, 0 < rho -> 0 < T -> 0 <= alpha rho T) ->
  forall (gR gT : rgrid) (gb : list ER) (ng N : Z), rg_ok gR -> rg_ok gT ->
  partition (edge (fun x => x) gb) (Z.to_nat ng) -> (ng < Z.of_nat (length gb))%Z -> (2 <= N)%Z ->
  forall (dbg : bool) (opc : RuntimePC ER),
  (dbg = true -> RuntimePC_eqb (RuntimePC_of (finpc pc)) opc = true) ->
  exists m,
    MeanImpl (finpc pc) dbg opc coef (Fin (rg_lo gR)) (Fin (rg_hi gR)) (rg_n gR)
      (Fin (rg_lo gT)) (Fin (rg_hi gT)) (rg_n gT) gb ng N = Ok m /\
    at_every_node gR gT ng (fun rho T g => exists P Q, answers m rho T g P Q /\
      (forall eps, tiny <= eps * planck_weight pc gb N T g ->
         (1 - eps) * (alpha rho T / rho) <= P <= alpha rho T / rho) /\
      (let k := (alpha rho T + tiny) / rho in
       forall eps, eps < 1 -> tiny < alpha rho T -> tiny < rosseland_weight pc gb N T g ->
         tiny * k <= eps * rosseland_weight pc gb N T g -> (1 - eps) * k <= Q <= k)).
Proof.
  intros pc coef alpha Hp HC HA gR gT gb ng N HR HT HG HL HN dbg opc Hd.
  destruct (C31_photon_proof pc coef alpha Hp HC HA gR gT gb ng N HR HT HG HL HN dbg opc Hd) as (m & E & H).
  exists m. split; [exact E|]. intros i j g Hi Hj Hg. destruct (H i j g Hi Hj Hg) as (W1 & W2 & A).
  pose proof (pow10_pos (rg_node gR i)) as Hr. pose proof (pow10_pos (rg_node gT j)) as HTp.
  set (rho := pow10 (rg_node gR i)) in *. set (T := pow10 (rg_node gT j)) in *.
  do 2 eexists. split; [exact A|]. split.
  - intros eps He. apply guarded_planck_close; auto. specialize (HA rho T Hr HTp). apply Rmult_le_pos; [exact HA|]. apply Rlt_le. pos.
  - intros k eps H1 Ha HD He. now apply guarded_rosseland_close.
Qed.

(** ** Neutrinos *)
(** the Rosseland mean is computed if the Planck mean is above the guard *)
Definition nu_guarded_rosseland (rho alpha DP DR : R) : R :=
  if Rlt_dec tiny (guarded_planck (alpha / rho) DP) then
    if Rlt_dec tiny alpha then if Rlt_dec tiny (rho / (alpha + tiny) * DR) then
      DR / (rho / (alpha + tiny) * DR + tiny) else 0 else 0 else 0.
Lemma nu_rosseland_const B dB rho al l N : 0 < average_sum B l N (fun _ => 1) ->
  nu_rosseland_mean_of B dB rho (fun _ => al) l N =
  nu_guarded_rosseland rho al (average_sum B l N (fun _ => 1)) (average_sum dB l N (fun _ => 1)).
Proof.
  intros H. unfold nu_rosseland_mean_of, nu_guarded_rosseland. rewrite planck_const by exact H. pose proof tiny_pos.
  destruct (Rlt_dec tiny (guarded_planck _ _)); [|reflexivity].
  destruct (Rlt_dec tiny al) as [Ha|Ha].
  - rewrite (average_const _ _ _ (rho / (al + tiny)) (inverse rho (fun _ => al))).
    + rewrite (average_const _ _ _ 1 (counted (fun _ => al))); [now rewrite Rmult_1_l|].
      intros nu. unfold counted. now destruct (Rlt_dec tiny al).
    + intros nu. unfold inverse. now destruct (Rlt_dec tiny al).
  - rewrite (average_const _ _ _ 0 (inverse rho (fun _ => al))).
    + destruct (Rlt_dec _ _); [lra|reflexivity].
    + intros nu. unfold inverse. now destruct (Rlt_dec tiny al).
Qed.

(** the sums of the weights over the samples *)
Definition nu_planck_weight (pc : PhysConst R) (n : Z) (l : R * R) (N : Z) (T : R) (type : RadiationType) : R :=
  average_sum (FD_spectrum pc n T type) l N (fun _ => 1).
Definition nu_rosseland_weight (pc : PhysConst R) (n : Z) (l : R * R) (N : Z) (T : R) (type : RadiationType) : R :=
  average_sum (FD_slope pc n T type) l N (fun _ => 1).

Definition at_every_nu_node (gR gT gY : rgrid) (P : R -> R -> R -> RadiationType -> Prop) : Prop :=
  forall i j y type, (0 <= i < rg_n gR)%Z -> (0 <= j < rg_n gT)%Z -> (0 <= y < rg_n gY)%Z -> species type ->
  P (pow10 (rg_node gR i)) (pow10 (rg_node gT j)) (rg_node gY y) type.

(** Neutrinos, absorption and scattering, with the Fermi-Dirac spectrum of n species, with and
    without an explicit frequency range: the constructor succeeds and at every node, for every
    species, the means are those of the guarded formulas; both are within eps of the mass
    coefficient wherever the weights exceed the guard by that factor. *)
Lemma C31_neutrino_proof :
  forall (absorption : bool) (pc : PhysConst R) (n : Z)
    (coef : ER -> ER -> ER -> RadiationType -> ER -> result ER) (alpha : R -> R -> R -> RadiationType -> R),
  positive_hkc pc -> (0 < n)%Z -> nu_real_coefficient coef (fun rho T Ye type _ => alpha rho T Ye type) ->
  (forall rho T Ye type, 0 < rho -> 0 < T -> 0 <= alpha rho T Ye type) ->
  forall (gR gT gY : rgrid) (range : option (R * R * Z)), rg_ok gR -> rg_ok gT -> rg_ok gY ->
  (forall r N, range = Some (r, N) -> fst r < snd r /\ (0 < N)%Z) ->
  forall (dbg : bool) (opc : RuntimePC ER),
  (dbg = true -> RuntimePC_eqb (RuntimePC_of (finpc pc)) opc = true) ->
  let l := nu_range pc gT range in let N := nu_samples absorption range in
  exists m,
    nu_build absorption pc dbg opc coef (fun T type nu => Ok (fd_nu n (finpc pc) T type nu))
      (fun T type nu => Ok (fd_dT n (finpc pc) T type nu)) gR gT gY range = Ok m /\
    at_every_nu_node gR gT gY (fun rho T Ye type =>
      let DP := nu_planck_weight pc n l N T type in let DR := nu_rosseland_weight pc n l N T type in
      let a := alpha rho T Ye type in let k := (a + tiny) / rho in
      let P := guarded_planck (a / rho) DP in let Q := nu_guarded_rosseland rho a DP DR in
      0 < DP /\ 0 < DR /\ nu_answers m rho T Ye type P Q /\
      (forall eps, tiny <= eps * DP -> (1 - eps) * (a / rho) <= P <= a / rho) /\
      (forall eps, eps < 1 -> tiny < a -> tiny < P -> tiny * k <= eps * DR -> (1 - eps) * k <= Q <= k)).
Proof.
  intros absorption pc n coef alpha Hp Hn HC HA gR gT gY range HR HT HY Hr dbg opc Hd l N.
  pose proof (FD_real_spectrum pc n Hp Hn) as HB.
  destruct (nu_nodes absorption pc dbg opc coef _ _ _ _ _ gR gT gY range Hp HC HB HR HT HY Hr Hd) as (m & E & H).
  exists m. split; [exact E|]. intros i j y type Hi Hj Hy Ht.
  pose proof (pow10_pos (rg_node gR i)) as Hrho. pose proof (pow10_pos (rg_node gT j)) as HTp. pose proof tiny_pos as Tp.
  specialize (H i j y type Hi Hj Hy Ht). cbv zeta in H. fold l N in H.
  set (rho := pow10 (rg_node gR i)) in *. set (T := pow10 (rg_node gT j)) in *. set (Ye := rg_node gY y) in *.
  assert (Hl : fst l < snd l).
  { unfold l, nu_range. destruct range as [[r n']|]; [now apply (Hr r n')|]. now apply (auto_range_fin pc gT). }
  assert (HN : (0 < N)%Z). { unfold N, nu_samples, nu_count. destruct absorption; [|lia]. destruct range as [[r n']|]; [now apply (Hr r n')|lia]. }
  intros DP DR a k P Q.
  assert (W1 : 0 < DP). { apply average_pos; auto. intros nu Hnu. now apply HB. }
  assert (W2 : 0 < DR). { apply average_pos; auto. intros nu Hnu. now apply HB. }
  assert (A0 : 0 <= a) by (now apply HA).
  assert (AR : 0 <= a / rho) by (apply Rmult_le_pos; [exact A0|apply Rlt_le; pos]).
  split; [exact W1|]. split; [exact W2|].
  unfold nu_kappa_P, nu_kappa_R in H. rewrite planck_const, nu_rosseland_const in H by exact W1.
  change (average_sum (FD_spectrum pc n T type) l N (fun _ => 1)) with DP in H.
  change (average_sum (FD_slope pc n T type) l N (fun _ => 1)) with DR in H. fold a in H. fold P Q in H.
  split; [|split].
  - rewrite !Rabs_pos_eq in H; [exact H| |].
    + unfold Q, nu_guarded_rosseland. do 3 (destruct (Rlt_dec _ _); [|lra]).
      apply Rmult_le_pos; [lra|]. apply Rlt_le, Rinv_0_lt_compat. lra.
    + now apply guarded_planck_nonneg.
  - intros eps He. now apply guarded_planck_close.
  - intros eps H1 Ha HP He. unfold Q, nu_guarded_rosseland. fold P.
    assert (Hk : 0 < k) by (unfold k; pos).
    assert (Ek : rho / (a + tiny) * DR = DR / k) by (unfold k; field; lra).
    assert (tiny < DR / k).
    { apply (Rmult_lt_reg_r k); [exact Hk|]. unfold Rdiv. rewrite Rmult_assoc, Rinv_l by lra. nra. }
    rewrite Ek. do 3 (destruct (Rlt_dec _ _); [|lra]).
    assert (Qe : DR / (DR / k + tiny) = k * (DR / (DR + tiny * k))) by (field; split; nra).
    rewrite Qe. assert (0 < tiny * k) by (apply Rmult_lt_0_compat; lra).
    assert (1 - eps <= DR / (DR + tiny * k) <= 1).
    { split; apply (Rmult_le_reg_r (DR + tiny * k)); try lra; unfold Rdiv; rewrite Rmult_assoc, Rinv_l by lra; nra. }
    nra.
Qed.

(** ** Where the claim fails: groups in the far Wien tail *)
Lemma exp_900_lower : 10 ^ 374 < exp 900.
Proof.
  apply Rlt_trans with (exp 880); [|apply exp_increasing; lra].
  replace 880 with (INR 11 * 80) by (replace (INR 11) with 11 by (rewrite INR_IZR_INZ; reflexivity); lra). rewrite <- exp_pow.
  apply Rlt_le_trans with ((2 * 10 ^ 34) ^ 11).
  - rewrite !pow_IZR, <- mult_IZR, pow_IZR. apply IZR_lt. vm_compute. reflexivity.
  - apply pow_incr. pose proof exp_80_lower. split; [|lra]. pose proof (pow_lt 10 34). lra.
Qed.
Lemma tiny_lower : / 10 ^ 321 < tiny.
Proof.
  unfold tiny, R_num_min. change (powerRZ 2 (-1022)) with (/ 2 ^ 1022).
  apply Rlt_trans with (/ 2 ^ 1022); [|pose proof (Rinv_0_lt_compat (2 ^ 1022) (pow_lt 2 1022 ltac:(lra))); lra].
  apply Rinv_lt_contravar. { apply Rmult_lt_0_compat; apply pow_lt; lra. }
  rewrite !pow_IZR. apply IZR_lt. vm_compute. reflexivity.
Qed.

Section Tail.
  Context (pc : PhysConst R) (Hp : positive_hkc pc) (T lo hi : R) (HT : 0 < T).
  Let u := pc_kb pc * T / pc_h pc.
  Hypotheses (Hu : 1 <= u) (Hlo : 900 * u <= lo) (Hlt : lo < hi) (Hhi : hi <= 1000 * u).
  Let A := 2 * pc_h pc * (1001 * u) ^ 4 / pc_c pc ^ 2.
  Context (N : Z) (HN : (0 < N)%Z).
  Let l := logs (window (pc_h pc) (pc_kb pc) T lo (Fin hi)).

  Lemma tail_window : window (pc_h pc) (pc_kb pc) T lo (Fin hi) = (lo, hi).
  Proof.
    destruct Hp as (Hh & Hk & Hc). unfold window.
    assert (E1 : thermal_lo (pc_h pc) (pc_kb pc) T = u / 1000) by (unfold thermal_lo, u; field; lra).
    assert (E2 : thermal_hi (pc_h pc) (pc_kb pc) T = 1000 * u) by (unfold thermal_hi, u; field; lra).
    rewrite E1, E2. destruct (Req_EM_T lo 0); [lra|]. destruct (Rlt_dec lo _); [lra|]. destruct (Rlt_dec _ hi); [lra|].
    destruct (Rlt_dec lo hi); [reflexivity|lra].
  Qed.

  Lemma tail_frequency i : (i < Z.to_nat N)%nat -> 900 * u < frequency l N i <= 1001 * u.
  Proof.
    intros Hi. pose proof tiny_pos. pose proof tiny_lt_1.
    assert (Hl : fst l < snd l). { unfold l. rewrite tail_window. apply logs_incr. cbn. lra. }
    pose proof (frequency_bounds l N Hl HN i Hi) as B. unfold l in B at 1 4. rewrite tail_window in B. unfold logs in B. cbn [fst snd] in B.
    rewrite !pow10_log10 in B by lra. lra.
  Qed.
  Lemma tail_width : 0 < cell_width l N /\ IZR N * cell_width l N <= 1.
  Proof.
    pose proof tiny_pos as Tp. assert (Nz : 0 < IZR N) by (now apply IZR_lt).
    assert (Hl : fst l < snd l). { unfold l. rewrite tail_window. apply logs_incr. cbn. lra. }
    split; [now apply cell_width_pos|].
    replace (IZR N * cell_width l N) with (snd l - fst l) by (unfold cell_width; field; lra).
    unfold l. rewrite tail_window. unfold logs. cbn [fst snd].
    assert (log10 (hi + tiny) <= log10 (10 * (lo + tiny))) by (apply log10_le; lra).
    assert (E : log10 (10 * (lo + tiny)) = 1 + log10 (lo + tiny)).
    { unfold log10. rewrite ln_mult by lra. field. pose proof ln10_pos. lra. }
    lra.
  Qed.

  (** a sum of terms below K is below K *)
  Lemma tail_sum weight K : 0 <= K -> (forall nu, 900 * u < nu <= 1001 * u -> weight nu * nu <= K) ->
    average_sum weight l N (fun _ => 1) <= K.
  Proof.
    intros HK H. destruct tail_width as (W1 & W2). unfold average_sum.
    apply Rle_trans with (rsum (Z.to_nat N) (fun _ => K * cell_width l N)).
    - apply rsum_le. intros i Hi. unfold quad. pose proof (H _ (tail_frequency i Hi)) as Q.
      rewrite Rmult_1_l, <- Rmult_assoc. apply Rmult_le_compat_r; lra.
    - assert (E : forall n x, rsum n (fun _ => x) = INR n * x).
      { induction n as [|n IH]; intros x; [cbn; ring|]. rewrite S_INR. cbn [rsum]. rewrite IH. ring. }
      rewrite E, INR_IZR_INZ, Z2Nat.id by lia. nra.
  Qed.

  Lemma tail_exponent nu : 900 * u < nu <= 1001 * u ->
    900 < pc_h pc * nu / (pc_kb pc * T) <= 1001 /\ exp (- (pc_h pc * nu / (pc_kb pc * T))) <= / 10 ^ 374.
  Proof.
    destruct Hp as (Hh & Hk & Hc). intros Hn.
    assert (E : pc_h pc * nu / (pc_kb pc * T) = nu / u) by (unfold u; field; lra). rewrite E.
    assert (B : 900 < nu / u <= 1001).
    { split; [apply (Rmult_lt_reg_r u)|apply (Rmult_le_reg_r u)]; try lra; unfold Rdiv; rewrite Rmult_assoc, Rinv_l by lra; lra. }
    split; [exact B|]. rewrite exp_Ropp. apply Rlt_le, Rinv_lt_contravar.
    - apply Rmult_lt_0_compat; [apply pow_lt; lra|apply exp_pos].
    - apply Rlt_trans with (exp 900); [apply exp_900_lower|]. apply exp_increasing. lra.
  Qed.

  Lemma tail_weights : A <= 10 ^ 50 -> 1001 * A <= 10 ^ 50 * T ->
    average_sum (weight_B (pc_h pc) (pc_kb pc) (pc_c pc) T) l N (fun _ => 1) <= / 10 ^ 324 /\
    average_sum (weight_dB (pc_h pc) (pc_kb pc) (pc_c pc) T) l N (fun _ => 1) <= / 10 ^ 324.
  Proof.
    intros A1 A2. destruct Hp as (Hh & Hk & Hc).
    assert (P50 : 0 < 10 ^ 50) by (apply pow_lt; lra). assert (P374 : 0 < / 10 ^ 374) by (apply Rinv_0_lt_compat, pow_lt; lra).
    assert (E324 : / 10 ^ 324 = 10 ^ 50 * / 10 ^ 374).
    { replace 374%nat with (50 + 324)%nat by reflexivity. rewrite pow_add. field. }
    assert (P324 : 0 <= / 10 ^ 324) by (apply Rlt_le, Rinv_0_lt_compat, pow_lt; lra).
    assert (P4 : forall nu, 900 * u < nu <= 1001 * u -> 0 < nu ^ 4 <= (1001 * u) ^ 4).
    { intros nu Hn. split; [apply pow_lt; lra|]. apply pow_incr. lra. }
    assert (Hq : 0 < 2 * pc_h pc / pc_c pc ^ 2) by pos.
    split; apply tail_sum; try exact P324; intros nu Hn; destruct (tail_exponent nu Hn) as (X & Y); specialize (P4 nu Hn).
    - unfold weight_B. destruct (Rlt_dec _ 80); [lra|]. rewrite E324.
      set (e := exp _) in *. assert (0 < e) by apply exp_pos.
      replace (2 * pc_h pc * nu ^ 3 / pc_c pc ^ 2 * e * nu) with (2 * pc_h pc / pc_c pc ^ 2 * nu ^ 4 * e) by (field; lra).
      apply Rmult_le_compat; try lra.
      + apply Rmult_le_pos; lra.
      + apply Rle_trans with A; [|exact A1]. unfold A.
        replace (2 * pc_h pc * (1001 * u) ^ 4 / pc_c pc ^ 2) with (2 * pc_h pc / pc_c pc ^ 2 * (1001 * u) ^ 4) by (field; lra).
        apply Rmult_le_compat_l; lra.
    - unfold weight_dB. destruct (Rlt_dec _ 80); [lra|]. rewrite E324.
      set (x := pc_h pc * nu / (pc_kb pc * T)) in *. set (e := exp _) in *. assert (0 < e) by apply exp_pos.
      replace (2 * pc_h pc ^ 2 * nu ^ 4 / (T ^ 2 * pc_c pc ^ 2 * pc_kb pc) * e * nu)
        with (2 * pc_h pc / pc_c pc ^ 2 * nu ^ 4 * x / T * e) by (unfold x; field; lra).
      assert (S1 : 2 * pc_h pc / pc_c pc ^ 2 * nu ^ 4 <= A).
      { unfold A. replace (2 * pc_h pc * (1001 * u) ^ 4 / pc_c pc ^ 2) with (2 * pc_h pc / pc_c pc ^ 2 * (1001 * u) ^ 4) by (field; lra).
        apply Rmult_le_compat_l; lra. }
      assert (S0 : 0 <= 2 * pc_h pc / pc_c pc ^ 2 * nu ^ 4) by (apply Rmult_le_pos; lra).
      assert (S2 : 0 <= 2 * pc_h pc / pc_c pc ^ 2 * nu ^ 4 * x <= A * 1001).
      { split; [apply Rmult_le_pos; lra|]. apply Rmult_le_compat; lra. }
      set (z := 2 * pc_h pc / pc_c pc ^ 2 * nu ^ 4 * x) in *.
      assert (S3 : 0 <= z / T <= 10 ^ 50).
      { split; [apply Rmult_le_pos; [lra|apply Rlt_le; pos]|].
        apply (Rmult_le_reg_r T); [exact HT|]. unfold Rdiv. rewrite Rmult_assoc, Rinv_l by lra. lra. }
      apply Rmult_le_compat; lra.
  Qed.
End Tail.

(** A group that lies between 900 kT/h and 1000 kT/h at the temperature of a node: the sums of
    the weights are below the guard, the Planck mean is less than a thousandth of the
    coefficient and the Rosseland mean is 0, whatever the coefficient. *)
Lemma C31_tail_refuted_proof :
  forall (pc : PhysConst R) (coef : ER -> ER -> ER -> result ER) (alpha : R -> R -> R),
  positive_hkc pc -> real_coefficient coef (fun rho T _ => alpha rho T) ->
  (forall rho T, 0 < rho -> 0 < T -> 0 <= alpha rho T) ->
  forall (gR gT : rgrid) (gb : list ER) (ng N : Z), rg_ok gR -> rg_ok gT ->
  partition (edge (fun x => x) gb) (Z.to_nat ng) -> (ng < Z.of_nat (length gb))%Z -> (2 <= N)%Z ->
  forall (dbg : bool) (opc : RuntimePC ER),
  (dbg = true -> RuntimePC_eqb (RuntimePC_of (finpc pc)) opc = true) ->
  exists m,
    MeanImpl (finpc pc) dbg opc coef (Fin (rg_lo gR)) (Fin (rg_hi gR)) (rg_n gR)
      (Fin (rg_lo gT)) (Fin (rg_hi gT)) (rg_n gT) gb ng N = Ok m /\
    at_every_node gR gT ng (fun rho T g =>
      forall lo hi, edge (fun x => x) gb (Z.to_nat g) = Fin lo -> edge (fun x => x) gb (S (Z.to_nat g)) = Fin hi ->
      let u := pc_kb pc * T / pc_h pc in
      1 <= u -> 900 * u <= lo -> lo < hi -> hi <= 1000 * u ->
      let A := 2 * pc_h pc * (1001 * u) ^ 4 / pc_c pc ^ 2 in A <= 10 ^ 50 -> 1001 * A <= 10 ^ 50 * T ->
      exists P, answers m rho T g P 0 /\ P <= / 1000 * (alpha rho T / rho)).
Proof.
  intros pc coef alpha Hp HC HA gR gT gb ng N HR HT HG HL HN dbg opc Hd.
  destruct (C31_photon_proof pc coef alpha Hp HC HA gR gT gb ng N HR HT HG HL HN dbg opc Hd) as (m & E & H).
  exists m. split; [exact E|]. intros i j g Hi Hj Hg. specialize (H i j g Hi Hj Hg). cbv beta in H. destruct H as (W1 & W2 & A).
  pose proof (pow10_pos (rg_node gR i)) as Hr. pose proof (pow10_pos (rg_node gT j)) as HTp.
  set (rho := pow10 (rg_node gR i)) in *. set (T := pow10 (rg_node gT j)) in *.
  intros lo hi E1 E2 u Hu Hlo Hlt Hhi AA A1 A2.
  destruct (tail_weights pc Hp T lo hi HTp Hu Hlo Hlt Hhi N ltac:(lia) A1 A2) as (B1 & B2).
  assert (L : group_logs pc gb T (Z.to_nat g) = logs (window (pc_h pc) (pc_kb pc) T lo (Fin hi))).
  { unfold group_logs. now rewrite E1, E2. }
  rewrite <- L in B1, B2. fold (planck_weight pc gb N T g) in B1. fold (rosseland_weight pc gb N T g) in B2.
  pose proof tiny_pos as Tp. pose proof tiny_lower as TL.
  assert (Q : / 10 ^ 324 = / 1000 * / 10 ^ 321).
  { replace 324%nat with (3 + 321)%nat by reflexivity. rewrite pow_add. field. }
  assert (Rz : guarded_rosseland rho (alpha rho T) (rosseland_weight pc gb N T g) = 0).
  { unfold guarded_rosseland. destruct (Rlt_dec tiny (alpha rho T)); [|reflexivity]. destruct (Rlt_dec tiny _); [lra|reflexivity]. }
  rewrite Rz in A. eexists. split; [exact A|]. unfold guarded_planck. set (D := planck_weight pc gb N T g) in *.
  rewrite (Rmult_comm (/ 1000)). apply Rmult_le_compat_l.
  - apply Rmult_le_pos; [now apply HA|]. apply Rlt_le. pos.
  - apply (Rmult_le_reg_r (D + tiny)); [lra|]. unfold Rdiv. rewrite Rmult_assoc, Rinv_l by lra. lra.
Qed.

(** A gray photon opacity, and its constants in CGS *)
Lemma gray_coefficient pc kappa : real_coefficient (ph_Absorption (GrayOpacity (finpc pc) (Fin kappa))) (fun rho _ _ => rho * kappa).
Proof. intros rho T nu _ _ _. reflexivity. Qed.
(** bounds on the CGS values of h, k and c *)
Lemma cgs_rough : pc_h cgsR < / 10 ^ 20 /\ pc_kb cgsR < 1 /\ 10 ^ 9 < pc_c cgsR.
Proof.
  assert (E1 : pc_h cgsR = 662606957 * powerRZ 10 (-42) * (1000 * 100 / (1 * 1) * 100) * 1) by reflexivity.
  assert (E2 : pc_kb cgsR = 1380648800 * powerRZ 10 (-32) * (1000 * 100 / (1 * 1) * 100) / 1) by reflexivity.
  assert (E3 : pc_c cgsR = 299792458 * powerRZ 10 0 * 100 / 1) by reflexivity.
  rewrite E1, E2, E3. change (powerRZ 10 (-42)) with (/ 10 ^ 42). change (powerRZ 10 (-32)) with (/ 10 ^ 32). cbn [powerRZ].
  lra.
Qed.

Definition whole_spectrum : list ER := [Fin 0; PInf].
Lemma whole_spectrum_ok : partition (edge (fun x => x) whole_spectrum) (Z.to_nat 1).
Proof.
  split; [cbn; lia|]. intros g Hg. assert (g = O) as -> by (cbn in Hg; lia).
  exists 0. split; [reflexivity|]. split; [lra|]. right. split; reflexivity.
Qed.
Lemma one_group_ok lo hi : 0 <= lo < hi -> partition (edge (fun x => x) [Fin lo; Fin hi]) (Z.to_nat 1).
Proof.
  intros H. split; [cbn; lia|]. intros g Hg. assert (g = O) as -> by (cbn in Hg; lia).
  exists lo. split; [reflexivity|]. split; [lra|]. left. exists hi. split; [reflexivity|lra].
Qed.

(** The gray opacity of 1 cm^2/g in CGS, one group from 0 to infinity, 10^-6 to 10^3 g/cm^3,
    10^2 to 10^8 K, 100 samples. *)
Lemma C31_photon_example :
  let gR := {| rg_lo := -6; rg_hi := 3; rg_n := 10 |} in let gT := {| rg_lo := 2; rg_hi := 8; rg_n := 7 |} in
  positive_hkc cgsR /\
  real_coefficient (ph_Absorption (GrayOpacity PhysicalConstantsCGS (Fin 1))) (fun rho _ _ => rho * 1) /\
  (forall rho T : R, 0 < rho -> 0 < T -> 0 <= rho * 1) /\
  rg_ok gR /\ rg_ok gT /\ partition (edge (fun x => x) whole_spectrum) (Z.to_nat 1) /\
  (1 < Z.of_nat (length whole_spectrum))%Z /\ (2 <= 100)%Z /\
  RuntimePC_eqb (RuntimePC_of (finpc cgsR)) (ph_RuntimePC (GrayOpacity PhysicalConstantsCGS (Fin 1))) = true.
Proof.
  cbv zeta. split; [apply cgs_hkc|]. split. { rewrite cgs_fin. apply gray_coefficient. }
  split; [intros; lra|]. split; [split; cbn; [lra|lia]|]. split; [split; cbn; [lra|lia]|].
  split; [apply whole_spectrum_ok|]. split; [cbn; lia|]. split; [lia|].
  cbn [ph_RuntimePC GrayOpacity]. rewrite cgs_fin. apply C26_reflexive_symmetric_proof.
  unfold rpc_fields. repeat (apply Forall_cons; [eexists; reflexivity|]). apply Forall_nil.
Qed.

(** Unit constants, T = 1, the group [1, 10]: the guard is more than 10^290 times smaller than
    the weights. *)
Lemma C31_photon_close_example :
  let gb := [Fin 1; Fin 10] in forall N, (2 <= N)%Z -> let eps := / 10 ^ 290 in
  positive_hkc unityR /\ partition (edge (fun x => x) gb) (Z.to_nat 1) /\
  tiny <= eps * planck_weight unityR gb N 1 0 /\
  (let alpha := 1 in let rho := 1 in eps < 1 /\ tiny < alpha /\ tiny < rosseland_weight unityR gb N 1 0 /\
   tiny * ((alpha + tiny) / rho) <= eps * rosseland_weight unityR gb N 1 0).
Proof.
  cbv zeta. intros N HN. pose proof (positive_consts_hkc _ unity_pos) as Hu.
  split; [exact Hu|]. split; [apply one_group_ok; lra|].
  pose proof tiny_pos as Tp. pose proof tiny_lt_1 as T1. pose proof tiny_small as Ts.
  assert (E : pc_h unityR = 1 /\ pc_kb unityR = 1 /\ pc_c unityR = 1).
  { repeat split; cbv -[IZR Rmult Rdiv Rplus]; field. } destruct E as (Eh & Ek & Ec).
  assert (W : group_logs unityR [Fin 1; Fin 10] 1 (Z.to_nat 0) = logs (1, 10)).
  { unfold group_logs. f_equal. cbn [edge nth_error Z.to_nat]. unfold window, thermal_lo, thermal_hi. rewrite Eh, Ek.
    destruct (Req_EM_T 1 0); [lra|]. destruct (Rlt_dec 1 _); [lra|]. destruct (Rlt_dec _ 10); [lra|].
    destruct (Rlt_dec 1 10); [reflexivity|lra]. }
  assert (Hl : fst (logs (1, 10)) < snd (logs (1, 10))) by (apply logs_incr; cbn; lra).
  assert (Nz : 0 < IZR N) by (apply IZR_lt; lia).
  assert (K : forall w, (forall nu, 1 < nu < 11 -> / 10 ^ 6 <= w nu) ->
     / 10 ^ 7 <= average_sum w (logs (1, 10)) N (fun _ => 1)).
  { intros w Hw. set (l := logs (1, 10)) in *. pose proof (cell_width_pos l N Hl ltac:(lia)) as Cw.
    assert (Ew : IZR N * cell_width l N = snd l - fst l) by (unfold cell_width; field; lra).
    assert (Dl : / 10 <= snd l - fst l).
    { unfold l, logs. cbn [fst snd]. assert (log10 (9 / 2 * (1 + tiny)) < log10 (10 + tiny)) by (apply log10_incr; lra).
      assert (log10 (9 / 2 * (1 + tiny)) = log10 (9 / 2) + log10 (1 + tiny)).
      { unfold log10. rewrite ln_mult by lra. field. pose proof ln10_pos. lra. }
      assert (/ 10 <= log10 (9 / 2)); [|lra].
      assert (L1 : log10 10 = 1) by (unfold log10; field; pose proof ln10_pos; lra).
      assert (L2 : log10 10 <= log10 ((9 / 2) ^ 10)) by (apply log10_le; lra).
      assert (L3 : log10 ((9 / 2) ^ 10) = 10 * log10 (9 / 2)).
      { unfold log10. rewrite ln_pow by lra. replace (INR 10) with 10 by (rewrite INR_IZR_INZ; reflexivity). field. pose proof ln10_pos. lra. }
      lra. }
    unfold average_sum. apply Rle_trans with (rsum (Z.to_nat N) (fun _ => / 10 ^ 6 * cell_width l N)).
    - assert (Er : forall n x, rsum n (fun _ => x) = INR n * x).
      { induction n as [|n IH]; intros x; [cbn; ring|]. rewrite S_INR. cbn [rsum]. rewrite IH. ring. }
      rewrite Er, INR_IZR_INZ, Z2Nat.id by lia.
      replace (IZR N * (/ 10 ^ 6 * cell_width l N)) with (/ 10 ^ 6 * (IZR N * cell_width l N)) by ring. rewrite Ew. lra.
    - apply rsum_le. intros i Hi. pose proof (frequency_bounds l N Hl ltac:(lia) i Hi) as B.
      unfold l in B at 1 4. unfold logs in B. cbn [fst snd] in B. rewrite !pow10_log10 in B by lra.
      unfold quad. assert (Q : / 10 ^ 6 <= w (frequency l N i)) by (apply Hw; lra).
      rewrite Rmult_1_l, <- Rmult_assoc. apply Rmult_le_compat_r; [lra|]. nra. }
  assert (X : forall x, x < 11 -> exp x < 177147).
  { intros x Hx. apply Rlt_le_trans with (exp 11); [now apply exp_increasing|].
    replace 11 with (INR 11 * 1) by (replace (INR 11) with 11 by (rewrite INR_IZR_INZ; reflexivity); lra). rewrite <- exp_pow.
    apply Rle_trans with (3 ^ 11); [|lra]. apply pow_incr. pose proof (exp_pos 1). pose proof exp_le_3. lra. }
  assert (D1 : / 10 ^ 7 <= planck_weight unityR [Fin 1; Fin 10] N 1 0).
  { unfold planck_weight. rewrite W. apply K. intros nu Hn. unfold weight_B. rewrite Eh, Ek, Ec.
    destruct (Rlt_dec _ 80); [|lra]. unfold Planck_B. replace (1 * nu / (1 * 1)) with nu by field.
    specialize (X nu ltac:(lra)). pose proof (exp_ineq1_le nu). assert (1 <= nu ^ 3) by (apply pow_R1_Rle; lra).
    apply (Rmult_le_reg_r (exp nu - 1)); [lra|].
    replace (2 * 1 * nu ^ 3 / 1 ^ 2 / (exp nu - 1) * (exp nu - 1)) with (2 * nu ^ 3) by (field; lra). lra. }
  assert (D2 : / 10 ^ 7 <= rosseland_weight unityR [Fin 1; Fin 10] N 1 0).
  { unfold rosseland_weight. rewrite W. apply K. intros nu Hn. destruct Hu as (Hh & Hk & Hc). unfold weight_dB.
    assert (Ex : pc_h unityR * nu / (pc_kb unityR * 1) = nu) by (rewrite Eh, Ek; field).
    rewrite Ex. destruct (Rlt_dec _ 80); [|lra]. rewrite Derive_Planck_eq by lra. rewrite Ex, Eh, Ek, Ec.
    specialize (X nu ltac:(lra)). pose proof (exp_ineq1_le nu). assert (1 <= nu ^ 4) by (apply pow_R1_Rle; lra).
    assert (Q : / exp nu <= exp nu / (exp nu - 1) ^ 2).
    { apply (Rmult_le_reg_r (exp nu * (exp nu - 1) ^ 2)). { apply Rmult_lt_0_compat; [lra|]. apply pow_lt. lra. }
      field_simplify; try lra; nra. }
    assert (Q2 : / 177147 <= / exp nu) by (apply Rinv_le_contravar; lra).
    replace (2 * 1 ^ 2 * nu ^ 4 / (1 ^ 2 * 1 ^ 2 * 1)) with (2 * nu ^ 4) by field.
    apply Rle_trans with (1 * / 177147); [lra|]. apply Rmult_le_compat; lra. }
  assert (P290 : 0 < / 10 ^ 290) by (apply Rinv_0_lt_compat, pow_lt; lra).
  assert (E1 : / 10 ^ 306 = / 10 ^ 290 * / 10 ^ 7 * / 10 ^ 9).
  { replace 306%nat with (290 + 16)%nat by reflexivity. rewrite pow_add. field. }
  assert (E2 : / 10 ^ 290 < 1). { rewrite <- Rinv_1. apply Rinv_lt_contravar; [|apply Rlt_pow_R1; [lra|lia]]. rewrite Rmult_1_l. apply pow_lt. lra. }
  set (e := / 10 ^ 290) in *.
  assert (E3 : tiny * 2 <= e * / 10 ^ 7).
  { assert (tiny <= e * / 10 ^ 7 * / 10 ^ 9) by lra. assert (0 < e * / 10 ^ 7) by (apply Rmult_lt_0_compat; lra). lra. }
  assert (E4 : e * / 10 ^ 7 <= e * planck_weight unityR [Fin 1; Fin 10] N 1 0) by (apply Rmult_le_compat_l; lra).
  assert (E5 : e * / 10 ^ 7 <= e * rosseland_weight unityR [Fin 1; Fin 10] N 1 0) by (apply Rmult_le_compat_l; lra).
  split; [lra|]. split; [exact E2|]. split; [lra|]. split.
  - assert (e * / 10 ^ 7 < / 10 ^ 7) by nra. lra.
  - assert (tiny * ((1 + tiny) / 1) <= tiny * 2) by (apply Rmult_le_compat_l; lra). lra.
Qed.

(** One group [9 10^17, 10^18] at 48000 K, CGS. *)
Lemma C31_tail_refuted_example :
  let T := 10 ^ 15 * pc_h cgsR / pc_kb cgsR in let u := pc_kb cgsR * T / pc_h cgsR in
  let A := 2 * pc_h cgsR * (1001 * u) ^ 4 / pc_c cgsR ^ 2 in
  let gb := [Fin (900 * 10 ^ 15); Fin (1000 * 10 ^ 15)] in
  let gT := {| rg_lo := log10 T; rg_hi := log10 T + 1; rg_n := 2 |} in
  rg_ok gT /\ pow10 (rg_node gT 0) = T /\ partition (edge (fun x => x) gb) (Z.to_nat 1) /\
  1 <= u /\ 900 * u <= 900 * 10 ^ 15 /\ 1000 * 10 ^ 15 <= 1000 * u /\ A <= 10 ^ 50 /\ 1001 * A <= 10 ^ 50 * T.
Proof.
  destruct cgs_hkc as (Hh & Hk & Hc). destruct cgs_rough as (R1 & R2 & R3). cbv zeta.
  set (h := pc_h cgsR) in *. set (k := pc_kb cgsR) in *. set (c := pc_c cgsR) in *.
  assert (HT : 0 < 10 ^ 15 * h / k) by pos.
  split; [split; cbn; [lra|lia]|]. split.
  { unfold rg_node. cbn [rg_lo]. rewrite Rmult_0_l, Rplus_0_l. now apply pow10_log10. }
  split; [apply one_group_ok; lra|].
  replace (k * (10 ^ 15 * h / k) / h) with (10 ^ 15) by (field; lra).
  assert (C2 : 10 ^ 18 <= c ^ 2). { replace (10 ^ 18) with ((10 ^ 9) ^ 2) by ring. apply pow_incr. lra. }
  assert (AB : 2 * h * (1001 * 10 ^ 15) ^ 4 / c ^ 2 <= h * 10 ^ 56).
  { apply (Rmult_le_reg_r (c ^ 2)); [lra|]. unfold Rdiv. rewrite Rmult_assoc, Rinv_l by lra.
    apply Rle_trans with (h * 10 ^ 56 * 10 ^ 18); [|apply Rmult_le_compat_l; [|lra]; apply Rmult_le_pos; lra]. nra. }
  split; [lra|]. split; [lra|]. split; [lra|]. split; [lra|].
  apply Rle_trans with (1001 * (h * 10 ^ 56)); [lra|].
  replace (10 ^ 50 * (10 ^ 15 * h / k)) with (h * 10 ^ 65 * / k) by (field; lra).
  assert (1 <= / k) by (rewrite <- Rinv_1; apply Rinv_le_contravar; lra).
  assert (0 < h * 10 ^ 65) by lra. nra.
Qed.

(** The gray neutrino opacity, three species, automatic and explicit range. *)
Lemma C31_neutrino_example :
  let g := {| rg_lo := 0; rg_hi := 2; rg_n := 3 |} in
  positive_hkc cgsR /\
  nu_real_coefficient (nu_Absorption (NuGrayOpacity 3 PhysicalConstantsCGS (Fin 1))) (fun rho _ _ _ _ => rho * 1) /\
  rg_ok g /\ species NU_ELECTRON /\ species NU_ELECTRON_ANTI /\ species NU_HEAVY /\
  (forall r N, Some ((12, 20), 50%Z) = Some (r, N) -> fst r < snd r /\ (0 < N)%Z).
Proof.
  cbv zeta. split; [apply cgs_hkc|]. split; [intros rho T Ye type nu _ _ _; reflexivity|].
  split; [split; cbn; [lra|lia]|]. unfold species. repeat (split; [cbn; lia|]). intros r N E. injection E as <- <-. cbn. split; [lra|lia].
Qed.
