(** C20. The unit-conversion wrapper and the temperature derivative of the spectrum. *)
From Coq Require Import Reals ZArith Lra Lia.
From Coquelicot Require Import Coquelicot.
From Verif Require Import Base.Outcome Base.Ops Inst.ER Inst.ERTac Inst.RConsts Model.Constants Model.RadTypes
  Model.PhotonApi Model.GrayPhotons Model.PowerLawPhotons Model.EPBremsPhotons Model.NeutrinoApi
  Model.OpacNeutrinos Model.NonCGSPhotons Model.NonCGSNeutrinos Spec.Physics Spec.Integral
  Spec.Units Spec.Opacities Proofs.PlanckFacts Proofs.UnitFacts.
Open Scope R_scope.

(** ** The shape of dB/dT *)
Definition gB (x : R) : R := exp x / ((exp x - 1) / x) ^ 2.
Definition gF (x : R) : R := / (exp x + 2 + exp (- x)).

Lemma Planck_dT_value h k c T nu : 0 < h -> 0 < k -> 0 < c -> 0 < T -> 0 < nu ->
  is_derive (fun t => Planck_B h k c t nu) T
    (2 * k * nu ^ 2 / c ^ 2 * gB (h * nu / (k * T))).
Proof.
  intros Hh Hk Hc HT Hn.
  assert (Hx : 0 < h * nu / (k * T)) by pos. pose proof (expm1_pos _ Hx) as He.
  unfold Planck_B, gB. auto_derive.
  - repeat split; nz.
  - change (h * nu * / (k * T)) with (h * nu / (k * T)).
    set (E := exp (h * nu / (k * T))) in *. field. repeat split; try nz; lra.
Qed.

Lemma FD_dT_value n h k c T nu : 0 < h -> 0 < k -> 0 < c -> 0 < T -> 0 < nu ->
  is_derive (fun t => FermiDirac_B n h k c t nu) T
    (n * (2 * h ^ 2 * nu ^ 4 / (c ^ 2 * k * T ^ 2)) * gF (h * nu / (k * T))).
Proof.
  intros Hh Hk Hc HT Hn.
  pose proof (exp_pos (h * nu / (k * T))) as He.
  unfold FermiDirac_B, gF. auto_derive.
  - repeat split; nz.
  - rewrite exp_Ropp.
    change (h * nu * / (k * T)) with (h * nu / (k * T)).
    set (E := exp (h * nu / (k * T))) in *. field. repeat split; try nz.
Qed.

Lemma strict_incr_0 (f df : R -> R) :
  (forall x, 0 <= x -> is_derive f x (df x)) -> (forall x, 0 < x -> 0 < df x) ->
  forall x y, 0 <= x -> x < y -> f x < f y.
Proof.
  intros Hd Hp x y Hx Hxy.
  destruct (MVT_cor2 f df x y Hxy) as [c [E Hc]].
  - intros z Hz. apply is_derive_Reals, Hd. lra.
  - assert (0 < df c * (y - x)) by (apply Rmult_lt_0_compat; [apply Hp|]; lra). lra.
Qed.

Lemma cosh_incr x y : 0 <= x -> x < y -> exp x + exp (- x) < exp y + exp (- y).
Proof.
  apply (strict_incr_0 (fun z => exp z + exp (- z)) (fun z => exp z - exp (- z))).
  - intros z _. auto_derive; [auto|ring].
  - intros z Hz. assert (exp (- z) < exp z) by (apply exp_increasing; lra). lra.
Qed.

Lemma gF_decr x y : 0 <= x -> x < y -> gF y < gF x.
Proof.
  intros Hx Hxy. unfold gF. pose proof (cosh_incr x y Hx Hxy).
  pose proof (exp_pos x); pose proof (exp_pos (- x)); pose proof (exp_pos y); pose proof (exp_pos (- y)).
  apply Rinv_lt_contravar; [pos|lra].
Qed.

Lemma ycosh_gt_sinh y : 0 < y -> 0 < y * (exp y + exp (- y)) - (exp y - exp (- y)).
Proof.
  intros Hy.
  assert (E : (fun z => z * (exp z + exp (- z)) - (exp z - exp (- z))) 0 = 0).
  { cbn. rewrite Ropp_0, exp_0. ring. }
  rewrite <- E.
  apply (strict_incr_0 (fun z => z * (exp z + exp (- z)) - (exp z - exp (- z)))
           (fun z => z * (exp z - exp (- z)))); [| |lra|lra].
  - intros z _. auto_derive; [auto|ring].
  - intros z Hz. assert (exp (- z) < exp z) by (apply exp_increasing; lra). pos.
Qed.

(** gB x = (y / sinh y)^2 with y = x/2 *)
Lemma gB_sinh x : 0 < x -> gB x = / ((exp (x / 2) - exp (- (x / 2))) / x) ^ 2.
Proof.
  intros Hx. unfold gB. replace x with (x / 2 + x / 2) at 1 2 by field.
  rewrite exp_plus, exp_Ropp.
  assert (H1 : 1 < exp (x / 2)) by (apply one_lt_exp; lra).
  set (e := exp (x / 2)) in *. field. repeat split; nra.
Qed.

Lemma gB_decr x y : 0 < x -> x < y -> gB y < gB x.
Proof.
  intros Hx Hxy. rewrite !gB_sinh by lra.
  assert (P : forall z, 0 < z -> 0 < (exp (z / 2) - exp (- (z / 2))) / z).
  { intros z Hz. assert (exp (- (z / 2)) < exp (z / 2)) by (apply exp_increasing; lra). pos. }
  pose proof (P x Hx). pose proof (P y ltac:(lra)).
  apply Rinv_lt_contravar; [pos|].
  assert ((exp (x / 2) - exp (- (x / 2))) / x < (exp (y / 2) - exp (- (y / 2))) / y); [|nra].
  apply (incr_function (fun z => (exp (z / 2) - exp (- (z / 2))) / z) 0 p_infty
    (fun z => ((z / 2) * (exp (z / 2) + exp (- (z / 2))) - (exp (z / 2) - exp (- (z / 2)))) / z ^ 2)); cbn; auto.
  - intros z Hz _. auto_derive; [lra|].
    change (z * / 2) with (z / 2). field. lra.
  - intros z Hz _. apply Rdiv_lt_0_compat; [apply ycosh_gt_sinh; lra|pos].
Qed.

Lemma lim_right_unique (f g : R -> R) a b :
  filterlim f (at_right 0) (locally a) -> filterlim g (at_right 0) (locally b) ->
  (forall x, 0 < x -> f x = g x) -> a = b.
Proof.
  intros Hf Hg E.
  apply (filterlim_locally_unique (F := at_right 0) f); [exact Hf|].
  apply (filterlim_ext_loc g); [|exact Hg].
  exists (mkposreal 1 Rlt_0_1). intros y _ Hy. symmetry. now apply E.
Qed.

Lemma right_of_lim (f : R -> R) l : is_lim f 0 l -> filterlim f (at_right 0) (Rbar_locally l).
Proof.
  intros H P HP. destruct (H P HP) as [d Hd]. exists d. intros y Hy Hy0.
  apply Hd; [exact Hy|lra].
Qed.

Lemma gB_lim : filterlim gB (at_right 0) (locally 1).
Proof.
  apply (right_of_lim gB 1). unfold gB.
  replace (Finite 1) with (Rbar_div 1 1) by (cbn; f_equal; field).
  apply is_lim_div; try (cbn; auto; fail).
  - replace (Finite 1) with (Finite (exp 0)) by (now rewrite exp_0). apply is_lim_continuity.
    apply derivable_continuous_pt, derivable_pt_exp.
  - apply (is_lim_ext (fun x => (exp x - 1) / x * ((exp x - 1) / x))); [intros; ring|].
    replace (Finite 1) with (Rbar_mult 1 1) by (cbn; f_equal; ring).
    apply is_lim_mult; try apply is_lim_div_expm1_0. exact I.
  - cbn. intros E. injection E. lra.
Qed.

Lemma scale_right a : 0 < a -> filterlim (fun x => x / a) (at_right 0) (at_right 0).
Proof.
  intros Ha P [d Hd]. assert (Hda : 0 < d * a) by (apply Rmult_lt_0_compat; [apply cond_pos|lra]).
  exists (mkposreal _ Hda).
  change (forall y : R, Rabs (y - 0) < d * a -> 0 < y -> P (y / a)). intros y Hy Hy0. apply Hd.
  - change (Rabs (y / a - 0) < d).
    rewrite Rminus_0_r in *. rewrite (Rabs_pos_eq (y / a)) by (apply Rlt_le; pos).
    rewrite Rabs_pos_eq in Hy by lra.
    apply (Rmult_lt_reg_r a); [lra|]. replace (y / a * a) with y by (field; lra). exact Hy.
  - pos.
Qed.

Lemma gF_lim : filterlim gF (at_right 0) (locally (/ 4)).
Proof.
  apply (right_of_lim gF (/ 4)).
  assert (E : gF 0 = / 4) by (unfold gF; rewrite Ropp_0, exp_0; f_equal; ring).
  rewrite <- E. apply is_lim_continuity. apply derivable_continuous_pt.
  apply ex_derive_Reals_0. unfold gF. auto_derive.
  rewrite Ropp_0, exp_0. lra.
Qed.

Lemma gB_scaling t a : 0 < t -> 0 < a ->
  (forall x, 0 < x -> gB x = gB (x / a) / t ^ 2) -> t = 1 /\ a = 1.
Proof.
  intros Ht Ha E.
  assert (L : 1 = 1 / t ^ 2).
  { apply (lim_right_unique gB (fun x => gB (x / a) / t ^ 2)); [apply gB_lim| |exact E].
    apply (filterlim_comp _ _ _ (fun x => gB (x / a)) (fun y => y / t ^ 2) _ (locally 1)).
    - apply (filterlim_comp _ _ _ (fun x => x / a) gB _ (at_right 0)).
      + now apply scale_right. + apply gB_lim.
    - apply (continuous_scal_l (fun y => y) (/ t ^ 2) 1). apply continuous_id. }
  assert (T1 : t = 1).
  { assert (t ^ 2 = 1); [|nra]. apply (Rmult_eq_reg_r (/ t ^ 2)); [|nz].
    rewrite Rinv_r by nz. lra. }
  split; [exact T1|]. subst t.
  destruct (Rtotal_order a 1) as [H|[H|H]]; [exfalso|exact H|exfalso].
  - pose proof (E 1 Rlt_0_1) as E1.
    assert (H1 : 1 < 1 / a).
    { apply (Rmult_lt_reg_r a); [lra|]. replace (1 / a * a) with 1 by (field; lra). lra. }
    pose proof (gB_decr 1 (1 / a) Rlt_0_1 H1). lra.
  - pose proof (E 1 Rlt_0_1) as E1.
    assert (H1 : 1 / a < 1).
    { apply (Rmult_lt_reg_r a); [lra|]. replace (1 / a * a) with 1 by (field; lra). lra. }
    pose proof (gB_decr (1 / a) 1 ltac:(pos) H1). lra.
Qed.

Lemma gF_scaling K a : 0 < K -> 0 < a ->
  (forall x, 0 < x -> gF x = gF (x / a) * K) -> K = 1 /\ a = 1.
Proof.
  intros HK Ha E.
  assert (L : / 4 = / 4 * K).
  { apply (lim_right_unique gF (fun x => gF (x / a) * K)); [apply gF_lim| |exact E].
    apply (filterlim_comp _ _ _ (fun x => gF (x / a)) (fun y => y * K) _ (locally (/ 4))).
    - apply (filterlim_comp _ _ _ (fun x => x / a) gF _ (at_right 0)).
      + now apply scale_right. + apply gF_lim.
    - apply (continuous_scal_l (fun y => y) K (/ 4)). apply continuous_id. }
  assert (K = 1) as -> by lra. split; [reflexivity|].
  destruct (Rtotal_order a 1) as [H|[H|H]]; [exfalso|exact H|exfalso].
  - pose proof (E 1 Rlt_0_1) as E1.
    assert (H1 : 1 < 1 / a).
    { apply (Rmult_lt_reg_r a); [lra|]. replace (1 / a * a) with 1 by (field; lra). lra. }
    pose proof (gF_decr 1 (1 / a) ltac:(lra) H1). lra.
  - pose proof (E 1 Rlt_0_1) as E1.
    assert (H1 : 1 / a < 1).
    { apply (Rmult_lt_reg_r a); [lra|]. replace (1 / a * a) with 1 by (field; lra). lra. }
    assert (0 < 1 / a) by pos.
    pose proof (gF_decr (1 / a) 1 ltac:(lra) H1). lra.
Qed.

Lemma is_derive_eq (f : R -> R) x a b : is_derive f x a -> is_derive f x b -> a = b.
Proof. intros H1 H2. apply is_derive_unique in H1. apply is_derive_unique in H2. congruence. Qed.

(** ** The wrapper *)
Lemma wrapper_spectrum pc o s nu : positive_hkc pc -> photon_opacity (finpc pc) o ->
  positive_system s -> 0 < nu ->
  forall T, 0 < T ->
  returns (ph_ThermalDistributionOfTNu (NonCGSUnits (finpc pc) o (sys_units s)) (Fin T) (Fin nu))
    (Planck_B (pc_h pc) (pc_kb pc) (pc_c pc) (T * us_temp s) (nu * (1 / us_time s)) *
     (us_time s * us_time s / us_mass s)).
Proof.
  intros (Hh & Hk & Hc) Ho (A & B & C & D) Hn T HT.
  unfold returns, NonCGSUnits, sys_units, mk_units;
    cbn [ph_ThermalDistributionOfTNu un_temp un_freq un_inv_intensity].
  er. assert (E : ph_ThermalDistributionOfTNu o (Fin (T * us_temp s)) (Fin (nu * (1 / us_time s))) =
    Ok (ThermalPhotons.planck_nu (finpc pc) (Fin (T * us_temp s)) (Fin (nu * (1 / us_time s)))))
    by (destruct Ho as [[kap ->]|[[p ->]| ->]]; reflexivity).
  rewrite E, (planck_nu_fin pc Hh Hk Hc) by pos. reflexivity.
Qed.

Lemma wrapper_dT pc o s nu T : positive_hkc pc -> photon_opacity (finpc pc) o ->
  positive_system s -> 0 < nu -> 0 < T ->
  returns (ph_DThermalDistributionOfTNuDT (NonCGSUnits (finpc pc) o (sys_units s)) (Fin T) (Fin nu))
    (2 * pc_kb pc * nu ^ 2 / pc_c pc ^ 2 * gB (pc_h pc * nu / (pc_kb pc * T)) *
     (us_time s * us_time s / us_mass s) * us_temp s).
Proof.
  intros (Hh & Hk & Hc) Ho (A & B & C & D) Hn HT.
  unfold returns, NonCGSUnits, sys_units, mk_units;
    cbn [ph_DThermalDistributionOfTNuDT un_temp un_freq un_inv_intensity].
  destruct (planck_dT_fin pc Hh Hk Hc T nu HT Hn) as [d [E Hd]].
  assert (E' : ph_DThermalDistributionOfTNuDT o (Fin T) (Fin nu) = Ok (Fin d))
    by (rewrite <- E; destruct Ho as [[kap ->]|[[p ->]| ->]]; reflexivity).
  rewrite E'. cbn [bind]. er.
  apply is_derive_unique in Hd.
  rewrite (is_derive_unique _ _ _ (Planck_dT_value _ _ _ _ _ Hh Hk Hc HT Hn)) in Hd.
  rewrite <- Hd. reflexivity.
Qed.

Lemma wrapper_true_dT pc s nu T : positive_hkc pc -> positive_system s -> 0 < nu -> 0 < T ->
  is_derive (fun T => Planck_B (pc_h pc) (pc_kb pc) (pc_c pc) (T * us_temp s) (nu * (1 / us_time s)) *
     (us_time s * us_time s / us_mass s)) T
   (us_temp s * (2 * pc_kb pc * (nu * (1 / us_time s)) ^ 2 / pc_c pc ^ 2 *
      gB (pc_h pc * (nu * (1 / us_time s)) / (pc_kb pc * (T * us_temp s)))) *
     (us_time s * us_time s / us_mass s)).
Proof.
  intros (Hh & Hk & Hc) (A & B & C & D) Hn HT.
  apply (is_derive_ext (fun T => scal (us_time s * us_time s / us_mass s)
    (Planck_B (pc_h pc) (pc_kb pc) (pc_c pc) (T * us_temp s) (nu * (1 / us_time s))))).
  { intros x. apply Rmult_comm. }
  match goal with |- is_derive _ _ (?a * ?b) => replace (a * b) with (scal b a) by apply Rmult_comm end.
  apply is_derive_scal.
  apply (is_derive_comp (fun y => Planck_B (pc_h pc) (pc_kb pc) (pc_c pc) y (nu * (1 / us_time s)))
           (fun T => T * us_temp s)).
  - apply Planck_dT_value; pos.
  - auto_derive; [auto|ring].
Qed.

(** For every photon opacity and every unit system: the wrapper's derivative call
    returns the derivative of the wrapper's spectrum call at all temperatures and
    frequencies if and only if the time and temperature units are both 1. *)
Lemma C20_photons_iff_proof :
  forall pc o s, positive_hkc pc -> photon_opacity (finpc pc) o -> positive_system s ->
  let w := NonCGSUnits (finpc pc) o (mk_units (Fin (us_time s)) (Fin (us_mass s))
                                              (Fin (us_length s)) (Fin (us_temp s))) in
  (forall nu, 0 < nu ->
   forall B, (forall T, 0 < T ->
     returns (ph_ThermalDistributionOfTNu w (Fin T) (Fin nu)) (B T)) ->
   forall T, 0 < T ->
     exists d, returns (ph_DThermalDistributionOfTNuDT w (Fin T) (Fin nu)) d /\
               is_derive B T d)
  <-> us_time s = 1 /\ us_temp s = 1.
Proof.
  intros pc o s Hp Ho Hs w. change (mk_units _ _ _ _) with (sys_units s) in w.
  pose proof Hp as (Hh & Hk & Hc). pose proof Hs as (A & B & C & D). split.
  - intros H.
    destruct (gB_scaling (us_time s) (us_time s * us_temp s) A ltac:(pos)) as [T1 T2].
    2:{ split; [exact T1|]. rewrite T1 in T2. lra. }
    intros x Hx. set (T := pc_h pc / (pc_kb pc * x)).
    assert (HT : 0 < T) by (unfold T; pos).
    destruct (H 1 Rlt_0_1 _ (wrapper_spectrum pc o s 1 Hp Ho Hs Rlt_0_1) T HT) as [d [E Hd]].
    pose proof (wrapper_dT pc o s 1 T Hp Ho Hs Rlt_0_1 HT) as E'.
    unfold returns in E, E'. unfold w in E. rewrite E in E'. injection E' as E'.
    pose proof (is_derive_eq _ _ _ _ Hd (wrapper_true_dT pc s 1 T Hp Hs Rlt_0_1 HT)) as Hd'.
    rewrite Hd' in E'.
    replace (pc_h pc * (1 * (1 / us_time s)) / (pc_kb pc * (T * us_temp s)))
      with (x / (us_time s * us_temp s)) in E' by (unfold T; field; repeat split; nz).
    replace (pc_h pc * 1 / (pc_kb pc * T)) with x in E' by (unfold T; field; repeat split; nz).
    set (q := us_temp s * (2 * pc_kb pc / pc_c pc ^ 2) * (us_time s * us_time s / us_mass s)).
    assert (Hq : q <> 0) by (unfold q; nz).
    apply (Rmult_eq_reg_l q); [|exact Hq].
    symmetry. etransitivity; [|etransitivity; [exact E'|]]; unfold q; field; repeat split; nz.
  - intros [T1 T2] nu Hn B0 HB T HT.
    eexists. split; [apply (wrapper_dT pc o s nu T Hp Ho Hs Hn HT)|].
    rewrite T1, T2.
    apply (is_derive_ext_loc (fun T => Planck_B (pc_h pc) (pc_kb pc) (pc_c pc) (T * us_temp s) (nu * (1 / us_time s)) *
     (us_time s * us_time s / us_mass s))).
    + exists (mkposreal T HT). intros t Ht.
      assert (Ht0 : 0 < t) by (change (Rabs (t - T) < T) in Ht; apply Rabs_def2 in Ht; lra).
      pose proof (HB t Ht0) as E1. pose proof (wrapper_spectrum pc o s nu Hp Ho Hs Hn t Ht0) as E2.
      unfold returns in *. unfold w in E1. rewrite E1 in E2. injection E2 as E2. symmetry; exact E2.
    + pose proof (wrapper_true_dT pc s nu T Hp Hs Hn HT) as Hd. rewrite T1, T2 in Hd |- *.
      replace (nu * (1 / 1)) with nu in * by field. replace (pc_kb pc * (T * 1)) with (pc_kb pc * T) in Hd by ring.
      match goal with |- is_derive _ _ ?v => match type of Hd with is_derive _ _ ?v' =>
        replace v with v' by ring end end. exact Hd.
Qed.

(** so it fails, for instance, with all units 1 except a temperature unit of 2 *)
Lemma C20_photons_refuted_proof :
  ~ (forall pc o s, positive_hkc pc -> photon_opacity (finpc pc) o -> positive_system s ->
     let w := NonCGSUnits (finpc pc) o (mk_units (Fin (us_time s)) (Fin (us_mass s))
                                                 (Fin (us_length s)) (Fin (us_temp s))) in
     forall nu, 0 < nu ->
     forall B, (forall T, 0 < T ->
       returns (ph_ThermalDistributionOfTNu w (Fin T) (Fin nu)) (B T)) ->
     forall T, 0 < T ->
       exists d, returns (ph_DThermalDistributionOfTNuDT w (Fin T) (Fin nu)) d /\
                 is_derive B T d).
Proof.
  intros H.
  pose (s := {| us_time := 1; us_mass := 1; us_length := 1; us_temp := 2 |}).
  assert (Hs : positive_system s) by (unfold positive_system; cbn; lra).
  pose proof (H cgsR (GrayOpacity (finpc cgsR) (Fin 1)) s cgs_hkc
    (or_introl (ex_intro _ _ eq_refl)) Hs) as H1.
  apply (C20_photons_iff_proof cgsR _ s cgs_hkc (or_introl (ex_intro _ _ eq_refl)) Hs) in H1.
  destruct H1 as [_ H1]. cbn in H1. lra.
Qed.

(** ** Neutrinos *)
Lemma nu_wrapper_spectrum ns pc o s nu type : positive_hkc pc -> neutrino_opacity ns (finpc pc) o ->
  positive_system s -> 0 < nu ->
  forall T, 0 < T ->
  returns (nu_ThermalDistributionOfTNu (NuNonCGSUnits (finpc pc) o (sys_units s)) (Fin T) type (Fin nu))
    (FermiDirac_B (IZR ns) (pc_h pc) (pc_kb pc) (pc_c pc) (T * us_temp s) (nu * (1 / us_time s)) *
     (us_time s * us_time s / us_mass s)).
Proof.
  intros (Hh & Hk & Hc) Ho (A & B & C & D) Hn T HT.
  unfold returns, NuNonCGSUnits, sys_units, mk_units;
    cbn [nu_ThermalDistributionOfTNu un_temp un_freq un_inv_intensity].
  er. assert (E : nu_ThermalDistributionOfTNu o (Fin (T * us_temp s)) type (Fin (nu * (1 / us_time s))) =
    Ok (ThermalNeutrinos.fd_nu ns (finpc pc) (Fin (T * us_temp s)) type (Fin (nu * (1 / us_time s)))))
    by (destruct Ho as [[kap ->]|[->|[C0 [n1 [n2 ->]]]]]; reflexivity).
  rewrite E, (fd_nu_fin pc Hk Hc) by pos. reflexivity.
Qed.

Lemma nu_wrapper_dT ns pc o s nu type T : positive_hkc pc -> neutrino_opacity ns (finpc pc) o ->
  positive_system s -> 0 < nu -> 0 < T ->
  returns (nu_DThermalDistributionOfTNuDT (NuNonCGSUnits (finpc pc) o (sys_units s)) (Fin T) type (Fin nu))
    (IZR ns * (2 * pc_h pc ^ 2 * nu ^ 4 / (pc_c pc ^ 2 * pc_kb pc * T ^ 2)) *
     gF (pc_h pc * nu / (pc_kb pc * T)) *
     (us_time s * us_time s / us_mass s) * us_temp s).
Proof.
  intros (Hh & Hk & Hc) Ho (A & B & C & D) Hn HT.
  unfold returns, NuNonCGSUnits, sys_units, mk_units;
    cbn [nu_DThermalDistributionOfTNuDT un_temp un_freq un_inv_intensity].
  destruct (fd_dT_fin pc Hk Hc ns type T nu HT) as [d [E Hd]].
  assert (E' : nu_DThermalDistributionOfTNuDT o (Fin T) type (Fin nu) = Ok (Fin d))
    by (rewrite <- E; destruct Ho as [[kap ->]|[->|[C0 [n1 [n2 ->]]]]]; reflexivity).
  rewrite E'. cbn [bind]. er.
  rewrite (is_derive_eq _ _ _ _ Hd (FD_dT_value (IZR ns) _ _ _ _ _ Hh Hk Hc HT Hn)).
  reflexivity.
Qed.

Lemma nu_wrapper_true_dT ns pc s nu T : positive_hkc pc -> positive_system s -> 0 < nu -> 0 < T ->
  is_derive (fun T => FermiDirac_B ns (pc_h pc) (pc_kb pc) (pc_c pc) (T * us_temp s) (nu * (1 / us_time s)) *
     (us_time s * us_time s / us_mass s)) T
   (us_temp s * (ns * (2 * pc_h pc ^ 2 * (nu * (1 / us_time s)) ^ 4 / (pc_c pc ^ 2 * pc_kb pc * (T * us_temp s) ^ 2)) *
      gF (pc_h pc * (nu * (1 / us_time s)) / (pc_kb pc * (T * us_temp s)))) *
     (us_time s * us_time s / us_mass s)).
Proof.
  intros (Hh & Hk & Hc) (A & B & C & D) Hn HT.
  apply (is_derive_ext (fun T => scal (us_time s * us_time s / us_mass s)
    (FermiDirac_B ns (pc_h pc) (pc_kb pc) (pc_c pc) (T * us_temp s) (nu * (1 / us_time s))))).
  { intros x. apply Rmult_comm. }
  match goal with |- is_derive _ _ (?a * ?b) => replace (a * b) with (scal b a) by apply Rmult_comm end.
  apply is_derive_scal.
  apply (is_derive_comp (fun y => FermiDirac_B ns (pc_h pc) (pc_kb pc) (pc_c pc) y (nu * (1 / us_time s)))
           (fun T => T * us_temp s)).
  - apply FD_dT_value; pos.
  - auto_derive; [auto|ring].
Qed.

(** The same for every neutrino opacity, any positive number of species. *)
Lemma C20_neutrinos_iff_proof :
  forall ns pc o s type, (0 < ns)%Z -> positive_hkc pc -> neutrino_opacity ns (finpc pc) o ->
  positive_system s ->
  let w := NuNonCGSUnits (finpc pc) o (mk_units (Fin (us_time s)) (Fin (us_mass s))
                                                (Fin (us_length s)) (Fin (us_temp s))) in
  (forall nu, 0 < nu ->
   forall B, (forall T, 0 < T ->
     returns (nu_ThermalDistributionOfTNu w (Fin T) type (Fin nu)) (B T)) ->
   forall T, 0 < T ->
     exists d, returns (nu_DThermalDistributionOfTNuDT w (Fin T) type (Fin nu)) d /\
               is_derive B T d)
  <-> us_time s = 1 /\ us_temp s = 1.
Proof.
  intros ns pc o s type Hns Hp Ho Hs w. change (mk_units _ _ _ _) with (sys_units s) in w.
  pose proof Hp as (Hh & Hk & Hc). pose proof Hs as (A & B & C & D).
  apply (IZR_lt 0) in Hns. split.
  - intros H. set (a := us_time s * us_temp s).
    assert (Ha : 0 < a) by (unfold a; pos).
    destruct (gF_scaling (/ (us_time s ^ 2 * a ^ 2)) a ltac:(pos) Ha) as [T1 T2].
    2:{ assert (T3 : us_time s ^ 2 = 1).
        { rewrite T2 in T1. apply (f_equal Rinv) in T1. rewrite Rinv_inv, Rinv_1 in T1. lra. }
        assert (us_time s = 1) by nra. split; [assumption|]. unfold a in T2. rewrite H0 in T2. lra. }
    intros x Hx. set (T := pc_h pc / (pc_kb pc * x)).
    assert (HT : 0 < T) by (unfold T; pos).
    destruct (H 1 Rlt_0_1 _ (nu_wrapper_spectrum ns pc o s 1 type Hp Ho Hs Rlt_0_1) T HT) as [d [E Hd]].
    pose proof (nu_wrapper_dT ns pc o s 1 type T Hp Ho Hs Rlt_0_1 HT) as E'.
    unfold returns in E, E'. unfold w in E. rewrite E in E'. injection E' as E'.
    pose proof (is_derive_eq _ _ _ _ Hd (nu_wrapper_true_dT (IZR ns) pc s 1 T Hp Hs Rlt_0_1 HT)) as Hd'.
    rewrite Hd' in E'.
    replace (pc_h pc * (1 * (1 / us_time s)) / (pc_kb pc * (T * us_temp s)))
      with (x / a) in E' by (unfold T, a; field; repeat split; nz).
    replace (pc_h pc * 1 / (pc_kb pc * T)) with x in E' by (unfold T; field; repeat split; nz).
    set (q := IZR ns * us_temp s * (2 * pc_h pc ^ 2 / (pc_c pc ^ 2 * pc_kb pc * T ^ 2)) *
              (us_time s * us_time s / us_mass s)).
    assert (Hq : q <> 0) by (unfold q; nz).
    apply (Rmult_eq_reg_l q); [|exact Hq].
    symmetry. etransitivity; [|etransitivity; [exact E'|]]; unfold q, a; field; repeat split; nz.
  - intros [T1 T2] nu Hn B0 HB T HT.
    eexists. split; [apply (nu_wrapper_dT ns pc o s nu type T Hp Ho Hs Hn HT)|].
    rewrite T1, T2.
    apply (is_derive_ext_loc (fun T => FermiDirac_B (IZR ns) (pc_h pc) (pc_kb pc) (pc_c pc) (T * us_temp s) (nu * (1 / us_time s)) *
     (us_time s * us_time s / us_mass s))).
    + exists (mkposreal T HT). intros t Ht.
      assert (Ht0 : 0 < t) by (change (Rabs (t - T) < T) in Ht; apply Rabs_def2 in Ht; lra).
      pose proof (HB t Ht0) as E1. pose proof (nu_wrapper_spectrum ns pc o s nu type Hp Ho Hs Hn t Ht0) as E2.
      unfold returns in *. unfold w in E1. rewrite E1 in E2. injection E2 as E2. symmetry; exact E2.
    + pose proof (nu_wrapper_true_dT (IZR ns) pc s nu T Hp Hs Hn HT) as Hd. rewrite T1, T2 in Hd |- *.
      replace (nu * (1 / 1)) with nu in * by field. replace (pc_kb pc * (T * 1)) with (pc_kb pc * T) in Hd by ring.
      match goal with |- is_derive _ _ ?v => match type of Hd with is_derive _ _ ?v' =>
        replace v with v' by (field; repeat split; nz) end end. exact Hd.
Qed.

Lemma C20_neutrinos_refuted_proof :
  ~ (forall ns pc o s type, (0 < ns)%Z -> positive_hkc pc -> neutrino_opacity ns (finpc pc) o ->
     positive_system s ->
     let w := NuNonCGSUnits (finpc pc) o (mk_units (Fin (us_time s)) (Fin (us_mass s))
                                                   (Fin (us_length s)) (Fin (us_temp s))) in
     forall nu, 0 < nu ->
     forall B, (forall T, 0 < T ->
       returns (nu_ThermalDistributionOfTNu w (Fin T) type (Fin nu)) (B T)) ->
     forall T, 0 < T ->
       exists d, returns (nu_DThermalDistributionOfTNuDT w (Fin T) type (Fin nu)) d /\
                 is_derive B T d).
Proof.
  intros H.
  pose (s := {| us_time := 1; us_mass := 1; us_length := 1; us_temp := 2 |}).
  assert (Hs : positive_system s) by (unfold positive_system; cbn; lra).
  assert (H3 : (0 < 3)%Z) by lia.
  pose proof (H 3%Z cgsR (NuGrayOpacity 3 (finpc cgsR) (Fin 1)) s NU_ELECTRON H3 cgs_hkc
    (or_introl (ex_intro _ _ eq_refl)) Hs) as H1.
  apply (C20_neutrinos_iff_proof 3 cgsR _ s NU_ELECTRON H3 cgs_hkc (or_introl (ex_intro _ _ eq_refl)) Hs) in H1.
  destruct H1 as [_ H1]. cbn in H1. lra.
Qed.

(** The library's CGS constants, a gray opacity, and two unit systems: one on each
    side of the equivalence. *)
Lemma C20_example :
  positive_hkc cgsR /\ photon_opacity (finpc cgsR) (GrayOpacity (finpc cgsR) (Fin 1)) /\
  positive_system {| us_time := 1; us_mass := 5; us_length := 7; us_temp := 1 |} /\
  positive_system {| us_time := 1; us_mass := 5; us_length := 7; us_temp := 11604 |}.
Proof.
  split; [exact cgs_hkc|]. split; [left; eauto|]. unfold positive_system; cbn; lra.
Qed.
