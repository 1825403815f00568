(** Frequency integrals of the thermal spectra. *)
From Coq Require Import Reals ZArith Lra Lia Factorial.
From Coquelicot Require Import Coquelicot.
From Verif Require Import Base.Ops Inst.ER Inst.ERTac Model.Constants Model.RadTypes
  Model.ThermalPhotons Model.ThermalNeutrinos Spec.Physics Spec.Integral
  Proofs.BoseIntegral Proofs.Zeta Proofs.ZetaNum Proofs.PlanckFacts.
Open Scope R_scope.

Lemma bose_scaled s z k : 0 < k -> is_series (fun n => / INR (S n) ^ S (S s)) z ->
  int_0_inf (fun nu => nu ^ S s / (exp (k * nu) - 1)) (INR (fact (S s)) * z / k ^ S (S s)).
Proof.
  intros Hk Hz.
  pose proof (int_0_inf_scal _ (/ k ^ S s) _ (int_0_inf_comp _ k _ Hk (bose_integral s z Hz))) as H.
  replace (INR (fact (S s)) * z / k ^ S (S s)) with
    (/ k ^ S s * (INR (fact (S s)) * z / k)).
  - eapply int_0_inf_ext; [|exact H]. intros x Hx. cbn beta.
    pose proof (expm1_pos (k * x) ltac:(nra)). rewrite Rpow_mult_distr.
    assert (k ^ S s <> 0) by (apply pow_nonzero; lra). field; repeat split; first [assumption|lra].
  - rewrite <- (tech_pow_Rmult k (S s)).
    assert (k ^ S s <> 0) by (apply pow_nonzero; lra).
    set (K := k ^ S s) in *. field; repeat split; first [assumption|lra].
Qed.

Lemma fermi_scaled s z k : 0 < k -> is_series (fun n => / INR (S n) ^ S (S s)) z ->
  int_0_inf (fun nu => nu ^ S s / (exp (k * nu) + 1))
    ((1 - / 2 ^ S s) * (INR (fact (S s)) * z) / k ^ S (S s)).
Proof.
  intros Hk Hz.
  pose proof (int_0_inf_scal _ (/ k ^ S s) _ (int_0_inf_comp _ k _ Hk (fermi_integral s z Hz))) as H.
  replace ((1 - / 2 ^ S s) * (INR (fact (S s)) * z) / k ^ S (S s)) with
    (/ k ^ S s * ((1 - / 2 ^ S s) * (INR (fact (S s)) * z) / k)).
  - eapply int_0_inf_ext; [|exact H]. intros x Hx. cbn beta.
    pose proof (exp_pos (k * x)). rewrite Rpow_mult_distr.
    assert (k ^ S s <> 0) by (apply pow_nonzero; lra). field; repeat split; first [assumption|lra].
  - rewrite <- (tech_pow_Rmult k (S s)).
    assert (k ^ S s <> 0) by (apply pow_nonzero; lra).
    set (K := k ^ S s) in *. set (w := (1 - / 2 ^ S s) * (INR (fact (S s)) * z)).
    field; repeat split; first [assumption|lra].
Qed.

Lemma int_0_inf_eq f l l' : l = l' -> int_0_inf f l -> int_0_inf f l'.
Proof. intros ->. trivial. Qed.

(** exponential integral *)
Lemma gamma_scaled a s : 0 < a ->
  int_0_inf (fun x => x ^ s * exp (- (a * x))) (INR (fact s) / a ^ S s).
Proof.
  intros Ha. eapply int_0_inf_ext; [|apply (gamma_integral a s Ha)].
  intros x _. cbn beta. do 2 f_equal. ring.
Qed.

(** limits are unique *)
Lemma int_0_inf_unique f l m : int_0_inf f l -> int_0_inf f m -> l = m.
Proof.
  intros H1 H2.
  pose proof (@is_RInt_gen_unique R_CompleteNormedModule (at_right 0) (Rbar_locally p_infty)
    (Proper_StrongProper _ (at_right_proper_filter 0))
    (Proper_StrongProper _ (Rbar_locally_filter p_infty)) f) as U.
  rewrite <- (U l H1). exact (U m H2).
Qed.

Section Facts.
  Context (pc : PhysConst R).
  Hypotheses (Hh : 0 < pc_h pc) (Hk : 0 < pc_kb pc) (Hc : 0 < pc_c pc).
  Local Notation h := (pc_h pc).
  Local Notation k := (pc_kb pc).
  Local Notation c := (pc_c pc).

  Lemma Planck_integral T : 0 < T ->
    int_0_inf (fun nu => 4 * PI * Planck_B h k c T nu) (4 * sigma_SB h k c * T ^ 4).
  Proof.
    intros HT. assert (Hq : 0 < h / (k * T)) by pos.
    pose proof (int_0_inf_scal _ (8 * PI * h / c ^ 2) _ (bose_scaled 2 _ _ Hq zeta4)) as H.
    eapply int_0_inf_eq; [|eapply int_0_inf_ext; [|exact H]].
    - unfold sigma_SB. simpl. field. repeat split; nz.
    - intros x Hx. cbn beta. unfold Planck_B.
      replace (h / (k * T) * x) with (h * x / (k * T)) by (field; split; nz).
      pose proof (x_pos pc Hh Hk T x HT Hx). pose proof (expm1_pos _ H0).
      field. repeat split; nz.
  Qed.

  Lemma Planck_number_integral T z : 0 < T -> is_series (fun n => / INR (S n) ^ 3) z ->
    int_0_inf (fun nu => 4 * PI * Planck_B h k c T nu / (h * nu))
      (16 * PI * k ^ 3 * T ^ 3 * z / (c ^ 2 * h ^ 3)).
  Proof.
    intros HT Hz. assert (Hq : 0 < h / (k * T)) by pos.
    pose proof (int_0_inf_scal _ (8 * PI / c ^ 2) _ (bose_scaled 1 _ _ Hq Hz)) as H.
    eapply int_0_inf_eq; [|eapply int_0_inf_ext; [|exact H]].
    - simpl. field. repeat split; nz.
    - intros x Hx. cbn beta. unfold Planck_B.
      replace (h / (k * T) * x) with (h * x / (k * T)) by (field; split; nz).
      pose proof (x_pos pc Hh Hk T x HT Hx). pose proof (expm1_pos _ H0).
      field. repeat split; nz.
  Qed.

  Lemma FD_integral n T : 0 < T ->
    int_0_inf (fun nu => 4 * PI * FermiDirac_B n h k c T nu)
      (7 / 8 * n * (4 * sigma_SB h k c * T ^ 4)).
  Proof.
    intros HT. assert (Hq : 0 < h / (k * T)) by pos.
    pose proof (int_0_inf_scal _ (8 * n * PI * h / c ^ 2) _ (fermi_scaled 2 _ _ Hq zeta4)) as H.
    eapply int_0_inf_eq; [|eapply int_0_inf_ext; [|exact H]].
    - unfold sigma_SB. simpl. field. repeat split; nz.
    - intros x Hx. cbn beta. unfold FermiDirac_B.
      replace (h / (k * T) * x) with (h * x / (k * T)) by (field; split; nz).
      pose proof (exp_pos (h * x / (k * T))).
      field. repeat split; nz.
  Qed.

  Lemma FD_number_integral n T z : 0 < T -> is_series (fun n => / INR (S n) ^ 3) z ->
    int_0_inf (fun nu => 4 * PI * FermiDirac_B n h k c T nu / (h * nu))
      (12 * n * PI * k ^ 3 * T ^ 3 * z / (c ^ 2 * h ^ 3)).
  Proof.
    intros HT Hz. assert (Hq : 0 < h / (k * T)) by pos.
    pose proof (int_0_inf_scal _ (8 * n * PI / c ^ 2) _ (fermi_scaled 1 _ _ Hq Hz)) as H.
    eapply int_0_inf_eq; [|eapply int_0_inf_ext; [|exact H]].
    - simpl. field. repeat split; nz.
    - intros x Hx. cbn beta. unfold FermiDirac_B.
      replace (h / (k * T) * x) with (h * x / (k * T)) by (field; split; nz).
      pose proof (exp_pos (h * x / (k * T))).
      field. repeat split; nz.
  Qed.

  Lemma planck_T_fin T :
    planck_T (finpc pc) (Fin T) = Fin (4 * sigma_SB h k c * T ^ 4).
  Proof.
    unfold planck_T, sigma_SB. er. f_equal. field. repeat split; nz.
  Qed.

  Lemma fd_T_fin ns ty T :
    fd_T ns (finpc pc) (Fin T) ty = Fin (7 / 8 * IZR ns * (4 * sigma_SB h k c * T ^ 4)).
  Proof.
    unfold fd_T, sigma_SB. er. f_equal. field. repeat split; nz.
  Qed.

  Lemma planck_number_T_fin T :
    planck_number_T (finpc pc) (Fin T) =
    Fin (16 * PI * k ^ 3 * T ^ 3 * (120206 / 100000) / (c ^ 2 * h ^ 3)).
  Proof.
    unfold planck_number_T. er. f_equal. simpl. field. repeat split; nz.
  Qed.

  Lemma fd_number_T_fin ns ty T :
    fd_number_T ns (finpc pc) (Fin T) ty =
    Fin (12 * IZR ns * PI * k ^ 3 * T ^ 3 * (120206 / 100000) / (c ^ 2 * h ^ 3)).
  Proof.
    unfold fd_number_T. er. f_equal. simpl. field. repeat split; nz.
  Qed.

  (** relative error of the literal 1.20206 *)
  Lemma zeta3_rel z A : 0 <= A -> 12020569031595935 / 10 ^ 16 <= z ->
    z <= 12020569031595955 / 10 ^ 16 ->
    Rabs (A * (120206 / 100000) - A * z) <= 3 / 10 ^ 6 * (A * z).
  Proof.
    intros HA H1 H2.
    replace (A * (120206 / 100000) - A * z) with (A * (120206 / 100000 - z)) by ring.
    rewrite Rabs_mult, (Rabs_pos_eq A), (Rabs_pos_eq (120206 / 100000 - z)) by lra.
    replace (3 / 10 ^ 6 * (A * z)) with (A * (3 / 10 ^ 6 * z)) by ring.
    apply Rmult_le_compat_l; lra.
  Qed.
End Facts.

(** Integrand supported on an interval *)
Lemma int_0_inf_band (f g : R -> R) a b l : 0 <= a -> a <= b -> 
  (forall x, a < x < b -> g x = f x) -> (forall x, x < a -> g x = 0) ->
  (forall x, b < x -> g x = 0) ->
  is_RInt f a b l -> int_0_inf g l.
Proof.
  intros Ha Hab Hin Hlo Hhi Hf P HP.
  assert (Hg : is_RInt g a b l).
  { apply is_RInt_ext with f; [|exact Hf]. rewrite Rmin_left, Rmax_right by lra.
    intros x Hx. symmetry. apply Hin. exact Hx. }
  destruct (Req_dec a 0) as [->|Ha0].
  - (* lower end 0: the mass of (0, x) vanishes with x *)
    destruct (Req_dec b 0) as [->|Hb0].
    + assert (Hl : l = 0).
      { pose proof (is_RInt_unique _ _ _ _ Hf) as E. rewrite RInt_point in E. symmetry; exact E. }
      subst l. apply Filter_prod with (Q := fun x => 0 < x) (R := fun y => 0 < y).
      * exists (mkposreal 1 Rlt_0_1). intros y _ Hy. exact Hy.
      * exists 0. intros; assumption.
      * intros x y Hx Hy. exists 0. split; [|apply locally_singleton; exact HP].
        apply is_RInt_ext with (fun _ => 0); [|apply is_RInt_zero].
        intros t Ht. symmetry. apply Hhi. cbn in Ht. revert Ht. 
        unfold Rmin. destruct (Rle_dec x y); lra.
    + assert (Hex : ex_RInt g 0 b) by (eexists; exact Hg).
      (* continuity of the integral in its lower bound *)
      assert (Hloc : exists d : posreal, forall x, 0 <= x < d -> exists y, is_RInt g x b y /\ P y).
      { pose proof (fun x Hx => ex_RInt_Chasles_2 g 0 x b Hx Hex) as H2.
        destruct (ex_RInt_ub g 0 b Hex) as [M1 HM1]. 
        destruct HP as [eps HP].
        set (M := Rabs M1 + 1).
        assert (HM : 0 < M) by (unfold M; pose proof (Rabs_pos M1); lra).
        assert (Hd : 0 < Rmin b (eps / (2 * M))).
        { apply Rmin_glb_lt; [lra|]. apply Rdiv_lt_0_compat; [apply cond_pos|lra]. }
        exists (mkposreal _ Hd). cbn. intros x Hx.
        pose proof (Rmin_l b (eps / (2 * M))). pose proof (Rmin_r b (eps / (2 * M))).
        destruct (ex_RInt_Chasles_1 g 0 x b ltac:(lra) Hex) as [u Hu].
        destruct (H2 x ltac:(lra)) as [v Hv].
        exists v. split; [exact Hv|]. apply HP.
        pose proof (is_RInt_unique _ _ _ _ (is_RInt_Chasles _ _ _ _ _ _ Hu Hv)) as E1.
        pose proof (is_RInt_unique _ _ _ _ Hg) as E2. rewrite E1 in E2.
        assert (E3 : l = u + v) by (rewrite <- E2; reflexivity).
        change (Rabs (v - l) < eps). rewrite E3.
        replace (v - (u + v)) with (- u) by ring. rewrite Rabs_Ropp.
        assert (Hub : Rabs u <= (x - 0) * M).
        { apply (norm_RInt_le_const (V := R_NormedModule) g 0 x u); [lra| |exact Hu].
          intros t Ht. change (Rabs (g t) <= M).
          rewrite Rmin_left, Rmax_right in * by lra.
          specialize (HM1 t ltac:(lra)).
          change (Rabs (g t) <= M1) in HM1. unfold M. pose proof (Rle_abs M1). lra. }
        apply Rle_lt_trans with ((x - 0) * M); [exact Hub|].
        apply Rle_lt_trans with (eps / (2 * M) * M).
        { apply Rmult_le_compat_r; lra. }
        replace (eps / (2 * M) * M) with (eps / 2) by (field; lra).
        pose proof (cond_pos eps). lra. }
      destruct Hloc as [d Hd].
      apply Filter_prod with (Q := fun x => 0 < x < d) (R := fun y => b < y).
      * exists d. intros y Hy H0. split; [exact H0|].
        change (Rabs (y - 0) < d) in Hy. rewrite Rminus_0_r, Rabs_pos_eq in Hy by lra. exact Hy.
      * exists b. intros; assumption.
      * intros x y Hx Hy. destruct (Hd x ltac:(lra)) as [v [Hv HPv]].
        exists v. split; [|exact HPv]. cbn [fst snd].
        replace v with (plus v 0) by (unfold plus; cbn; ring).
        eapply (is_RInt_Chasles (V := R_NormedModule)); [exact Hv|].
        apply is_RInt_ext with (fun _ => 0); [|apply is_RInt_zero].
        rewrite Rmin_left by lra. intros t Ht. symmetry. apply Hhi. lra.
  - apply Filter_prod with (Q := fun x => 0 < x < a) (R := fun y => b < y).
    + assert (Hpa : 0 < a) by lra. exists (mkposreal a Hpa). intros y Hy H0. split; [exact H0|].
      change (Rabs (y - 0) < a) in Hy. rewrite Rminus_0_r, Rabs_pos_eq in Hy by lra. exact Hy.
    + exists b. intros; assumption.
    + intros x y Hx Hy. exists l. split; [|apply locally_singleton; exact HP]. cbn [fst snd].
      replace l with (plus (plus 0 l) 0) by (unfold plus; cbn; ring).
      eapply (is_RInt_Chasles (V := R_NormedModule)); [eapply (is_RInt_Chasles (V := R_NormedModule));
        [|exact Hg]|].
      * apply is_RInt_ext with (fun _ => 0); [|apply is_RInt_zero].
        rewrite Rmax_right by lra. intros t Ht. symmetry. apply Hlo. lra.
      * apply is_RInt_ext with (fun _ => 0); [|apply is_RInt_zero].
        rewrite Rmin_left by lra. intros t Ht. symmetry. apply Hhi. lra.
Qed.

(** exp(-k x)/x is not integrable at 0 *)
Lemma exp_over_x_diverges A k : 0 < A -> 0 < k ->
  ~ exists l, int_0_inf (fun x => A * exp (- (k * x)) / x) l.
Proof.
  intros HA Hk [l Hl].
  assert (HP : locally l (fun y => Rabs (y - l) < 1)).
  { exists (mkposreal 1 Rlt_0_1). intros y Hy. exact Hy. }
  specialize (Hl _ HP). destruct Hl as [Q S [d HQ] [M HS] H].
  set (a := Rmin (d / 2) (/ k)).
  assert (Ha : 0 < a).
  { apply Rmin_glb_lt; [pose proof (cond_pos d); lra|apply Rinv_0_lt_compat; lra]. }
  set (a' := a * exp (- (3 / (A * exp (-1))))).
  assert (Hlt : 0 < a' < a).
  { unfold a'. split; [pos|]. rewrite <- (Rmult_1_r a) at 2. apply Rmult_lt_compat_l; [exact Ha|].
    apply exp_neg_lt_1. pose proof (exp_pos (-1)). pos. }
  assert (HQa : forall x, 0 < x <= a -> Q x).
  { intros x Hx. apply HQ; [|lra]. change (Rabs (x - 0) < d).
    rewrite Rminus_0_r, Rabs_pos_eq by lra.
    pose proof (Rmin_l (d / 2) (/ k)). fold a in H0. pose proof (cond_pos d). lra. }
  set (b := Rmax M 0 + 1).
  assert (Hb : S b) by (apply HS; unfold b; pose proof (Rmax_l M 0); lra).
  destruct (H a b (HQa a ltac:(lra)) Hb) as [u [Hu Hu1]].
  destruct (H a' b (HQa a' ltac:(lra)) Hb) as [v [Hv Hv1]].
  cbn [fst snd] in *.
  set (f := fun x => A * exp (- (k * x)) / x) in *.
  assert (Hd : is_RInt f a' a (v - u)).
  { apply (is_RInt_Chasles (V := R_NormedModule) f a' b a v (opp u)); [exact Hv|].
    apply (is_RInt_swap (V := R_NormedModule)). exact Hu. }
  set (B := A * exp (-1)) in *.
  assert (HB : 0 < B) by (unfold B; pose proof (exp_pos (-1)); pos).
  assert (Hg : is_RInt (fun x => B / x) a' a (B * ln a - B * ln a')).
  { apply (is_RInt_derive (fun x => B * ln x)).
    - intros x Hx. rewrite Rmin_left, Rmax_right in Hx by lra.
      auto_derive; [lra|]. Req. field. lra.
    - intros x Hx. rewrite Rmin_left, Rmax_right in Hx by lra.
      apply (ex_derive_continuous (fun x => B / x)). auto_derive. lra. }
  assert (Hle : B * ln a - B * ln a' <= v - u).
  { apply (is_RInt_le (fun x => B / x) f a' a); [lra|exact Hg|exact Hd|].
    intros x Hx. unfold f, Rdiv. apply Rmult_le_compat_r; [apply Rlt_le, Rinv_0_lt_compat; lra|].
    unfold B. apply Rmult_le_compat_l; [lra|].
    assert (k * x <= 1).
    { apply Rle_trans with (k * / k); [|right; field; lra]. apply Rmult_le_compat_l; [lra|].
      pose proof (Rmin_r (d / 2) (/ k)). fold a in H0. lra. }
    destruct (Req_dec (k * x) 1) as [E|E]; [rewrite E; right; reflexivity|].
    left. apply exp_increasing. lra. }
  assert (E : B * ln a - B * ln a' = 3).
  { unfold a'. rewrite ln_mult by (try apply exp_pos; lra). rewrite ln_exp. field. lra. }
  rewrite E in Hle.
  apply Rabs_def2 in Hu1. apply Rabs_def2 in Hv1. lra.
Qed.
