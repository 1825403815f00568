(** C10. Isotropic models: angle-averaged absorption equals absorption; the tophat
    model is the exception. *)
From Coq Require Import Reals ZArith Lra Lia.
From Verif Require Import Base.Outcome Base.Ops Inst.ER Inst.ERTac Inst.RConsts
  Model.Constants Model.Robust Model.RadTypes Model.PhotonApi Model.ThermalPhotons
  Model.GrayPhotons Model.PowerLawPhotons Model.EPBremsPhotons Model.NeutrinoApi
  Model.ThermalNeutrinos Model.OpacNeutrinos Spec.Physics Spec.Integral
  Spec.Opacities Proofs.PlanckFacts Proofs.ModelFacts.
Open Scope R_scope.

(** Gray and PowerLaw photons, Gray and BRT neutrinos: any arithmetic, any state,
    scalar and array calls. *)
Lemma C10_angle_average_photons_proof :
  forall (T : Type) (O : Ops T) (pc : PhysConst T) (o : PhotonOpac T),
  (exists kappa, o = GrayOpacity pc kappa) \/ (exists p, o = PowerLawOpacity pc p) ->
  forall rho temp,
  (forall nu, ph_AngleAvgAbsorption o rho temp nu = ph_Absorption o rho temp nu) /\
  (forall nu_bins coeffs n m,
    ph_AngleAvgAbsorption_v o rho temp nu_bins coeffs n m =
    ph_Absorption_v o rho temp nu_bins coeffs n m).
Proof. intros T O pc o [[kap ->]|[p ->]] rho temp; split; reflexivity. Qed.

Lemma C10_angle_average_neutrinos_proof :
  forall (T : Type) (O : Ops T) (ns : Z) (pc : PhysConst T) (o : NuOpac T),
  (exists kappa, o = NuGrayOpacity ns pc kappa) \/ o = BRTOpacity ns pc ->
  forall rho temp Ye type,
  (forall nu, nu_AngleAvgAbsorption o rho temp Ye type nu = nu_Absorption o rho temp Ye type nu) /\
  (forall nu_bins coeffs n m,
    nu_AngleAvgAbsorption_v o rho temp Ye type nu_bins coeffs n m =
    nu_Absorption_v o rho temp Ye type nu_bins coeffs n m).
Proof. intros T O ns pc o [[kap ->]| ->] rho temp Ye ty; split; reflexivity. Qed.

Lemma four_pi_cancel (x : ER) : Odiv (Omul (Omul (OofZ 4) Opi) x) (Omul (OofZ 4) Opi) = x.
Proof.
  pose proof PI_RGT_0. assert (H4 : 0 < 4 * PI) by lra.
  destruct x as [r| | |]; er.
  - f_equal. field. lra.
  - cbn. unfold inf_of_sign. destruct (Rlt_dec 0 (4 * PI)); [|lra]. cbn.
    destruct (Rlt_dec (4 * PI) 0); [lra|reflexivity].
  - cbn. unfold inf_of_sign. destruct (Rlt_dec 0 (- (4 * PI))); [lra|].
    destruct (Rlt_dec (- (4 * PI)) 0); [|lra]. cbn.
    destruct (Rlt_dec (4 * PI) 0); [lra|reflexivity].
  - reflexivity.
Qed.

(** Bremsstrahlung averages over angle by dividing the angle-integrated
    emissivity by 4 pi: equal in exact arithmetic at every state, NaN and
    infinities included. *)
Lemma C10_angle_average_brems_proof :
  forall (pc : PhysConst ER) rho temp nu,
  let o := EPBremsstrahlungOpacity pc in
  ph_AngleAvgAbsorption o rho temp nu = ph_Absorption o rho temp nu.
Proof.
  intros pc rho temp nu o. unfold o. cbn [ph_AngleAvgAbsorption ph_Absorption EPBremsstrahlungOpacity].
  unfold ep_alpha_avg, ep_alpha, kirchhoff_avg, kirchhoff, ep_Jnu.
  rewrite four_pi_cancel. reflexivity.
Qed.

(** The tophat model violates the property: at every state strictly inside the
    band whose emissivity is above the clamp, AbsorptionCoefficient is 4 pi times
    smaller than AngleAveragedAbsorptionCoefficient, and Kirchhoff's law holds for
    the latter (up to the guards) but not for the former. *)
Lemma C10_tophat_angle_average_refuted_proof :
  forall pc ns C n1 n2, positive_hkc pc -> (0 < ns)%Z ->
  forall rho T Ye nu, 0 < T -> 0 < n1 -> n1 < nu -> nu < n2 ->
  10 * powerRZ 2 (-1022) <= C * (2 * Ye) ->
  let o := TophatEmissivity ns (finpc pc) (Fin C) (Fin n1) (Fin n2) in
  exists a avg,
  returns (nu_Absorption o (Fin rho) (Fin T) (Fin Ye) NU_ELECTRON (Fin nu)) a /\
  returns (nu_AngleAvgAbsorption o (Fin rho) (Fin T) (Fin Ye) NU_ELECTRON (Fin nu)) avg /\
  avg = 4 * PI * a /\ a <> avg.
Proof.
  intros pc ns C n1 n2 (Hh & Hk & Hc) Hns rho T Ye nu HT Hn1 Ha Hb HC o.
  change (powerRZ 2 (-1022)) with R_num_min in HC.
  assert (Hn : 0 < IZR ns) by (apply (IZR_lt 0); lia).
  assert (Hnu : 0 < nu) by lra.
  pose proof (FD_pos pc Hh Hc (IZR ns) T nu Hn HT Hnu) as HB. 
  pose proof R_SMALL_pos as Hs. pose proof PI_RGT_0 as HPI.
  set (B := FermiDirac_B (IZR ns) (pc_h pc) (pc_kb pc) (pc_c pc) T nu) in *.
  assert (Hj : tophat_jnu (Fin C) (Fin n1) (Fin n2) (Fin rho) (Fin T) (Fin Ye) NU_ELECTRON (Fin nu)
               = Fin (C * (2 * Ye))).
  { unfold tophat_jnu, Ogtb. rewrite !fin_ltb, !Rltb_true by assumption. cbn [andb].
    unfold tophat_YeF, RadType_eqb. er. reflexivity. }
  assert (H4 : 10 * R_num_min <= 4 * PI * (C * (2 * Ye))).
  { assert (1 <= 4 * PI) by (pose proof PI4_gt_90; destruct (Rle_dec 1 (4 * PI)); [assumption|];
      assert (PI < 1) by lra; exfalso;
      assert (PI ^ 4 <= 1 ^ 4) by (apply pow_incr; lra); lra).
    nra. }
  assert (HM : 0 < Rmax B (10 * R_num_min)).
  { apply Rlt_le_trans with B; [assumption|apply Rmax_l]. }
  set (M := Rmax B (10 * R_num_min)) in *.
  exists (C * (2 * Ye) / (M + 10 * R_num_min) / (4 * PI)), (C * (2 * Ye) / (M + 10 * R_num_min)).
  unfold returns, o. cbn [nu_Absorption nu_AngleAvgAbsorption TophatEmissivity nu_opacity].
  unfold tophat_alpha, tophat_alpha_avg, fd_kirchhoff, fd_kirchhoff_avg, tophat_Jnu.
  rewrite fd_nu_fin, Hj, fd_EPS_fin, !omax_fin by assumption. fold B. fold M.
  split; [|split; [|split]].
  - rewrite Rmax_left by lra. rewrite ratio_pos by lra. er. reflexivity.
  - er. rewrite omax_fin, Rmax_left by lra. rewrite fin_div by lra. rewrite ratio_pos by lra.
    do 2 f_equal. field. lra.
  - field. lra.
  - assert (0 < C * (2 * Ye) / (M + 10 * R_num_min)) by (apply Rdiv_lt_0_compat; lra).
    set (q := C * (2 * Ye) / (M + 10 * R_num_min)) in *. clearbody q.
    intros E. assert (E' : q = 4 * PI * q).
    { rewrite <- E at 2. field. lra. }
    assert (PI = / 4) by (apply Rmult_eq_reg_l with (4 * q); [|lra]; lra).
    pose proof PI4_gt_90 as P4. rewrite H0 in P4. lra.
Qed.

Lemma C10_example :
  positive_hkc cgsR /\ (0 < 3)%Z /\ 10 * powerRZ 2 (-1022) <= 1 * (2 * (1 / 2)).
Proof.
  split; [exact cgs_hkc|]. split; [lia|].
  assert (powerRZ 2 (-1022) <= / 16).
  { change (/ 16) with (/ (IZR 16)). replace (/ 16) with (powerRZ 2 (-4)) by (simpl; field).
    apply Rlt_le. rewrite !powerRZ_Rpower by lra. apply Rpower_lt; lra. }
  lra.
Qed.
