(** Exact values of the absorption models at finite states. *)
From Coq Require Import Reals ZArith Lra Lia Bool.
From Coquelicot Require Import Coquelicot.
From Verif Require Import Base.Outcome Base.Ops Inst.ER Inst.ERTac Inst.RConsts
  Model.Constants Model.Robust Model.RadTypes Model.PhotonApi Model.ThermalPhotons
  Model.GrayPhotons Model.PowerLawPhotons Model.EPBremsPhotons Model.NeutrinoApi
  Model.ThermalNeutrinos Model.OpacNeutrinos Spec.Physics Spec.Integral Spec.Opacities
  Proofs.PlanckFacts Proofs.BoseIntegral Proofs.Zeta Proofs.ZetaNum Proofs.ThermalIntegrals.
Open Scope R_scope.

(** power-law parameters injected from the reals *)
Definition pl_map {A B} (f : A -> B) (p : PowerLawParams A) : PowerLawParams B := {|
  pl_kappa0 := f (pl_kappa0 p); pl_rho_exp := f (pl_rho_exp p);
  pl_temp_exp := f (pl_temp_exp p); pl_rho_ref := f (pl_rho_ref p);
  pl_rho_off := f (pl_rho_off p); pl_temp_ref := f (pl_temp_ref p);
  pl_temp_off := f (pl_temp_off p); pl_nu_exp := f (pl_nu_exp p);
  pl_nu_ref := f (pl_nu_ref p); pl_nu_off := f (pl_nu_off p);
  pl_do_stim_emit := pl_do_stim_emit p |}.
Definition finpl : PowerLawParams R -> PowerLawParams ER := pl_map Fin.

Lemma SMALL_fin : SMALL = Fin (10 * R_num_min).
Proof. reflexivity. Qed.
Lemma R_SMALL_pos : 0 < 10 * R_num_min.
Proof. pose proof R_num_min_pos. lra. Qed.
Lemma fd_EPS_fin : fd_EPS = Fin (10 * R_num_min).
Proof. reflexivity. Qed.

Lemma sgn_fin b : OofZ (sgn (Fin b)) = Fin (if Rlt_dec b 0 then -1 else 1).
Proof.
  unfold sgn. rewrite !fin_ofZ, fin_leb, fin_ltb. unfold Rleb, Rltb.
  destruct (Rlt_dec b 0), (Rle_dec 0 b); try lra; reflexivity.
Qed.

Lemma ratio_pos a b : 0 <= b -> ratio (Fin a) (Fin b) = Fin (a / (b + 10 * R_num_min)).
Proof.
  intros Hb. unfold ratio. rewrite sgn_fin, SMALL_fin. pose proof R_SMALL_pos.
  destruct (Rlt_dec b 0); [lra|]. er. f_equal. field. lra.
Qed.

Lemma omax_fin a b : Omax (Fin a) (Fin b) = Fin (Rmax a b).
Proof.
  unfold Omax. rewrite fin_ltb. unfold Rltb, Rmax.
  destruct (Rlt_dec a b), (Rle_dec a b); try reflexivity; try lra.
  f_equal. lra.
Qed.
Lemma omin_fin a b : Omin (Fin a) (Fin b) = Fin (Rmin a b).
Proof.
  unfold Omin. rewrite fin_ltb. unfold Rltb, Rmin.
  destruct (Rlt_dec b a), (Rle_dec a b); try reflexivity; try lra.
Qed.

Section Photon.
  Context (pc : PhysConst R) (Hh : 0 < pc_h pc) (Hk : 0 < pc_kb pc) (Hc : 0 < pc_c pc).
  Local Notation h := (pc_h pc).
  Local Notation k := (pc_kb pc).
  Local Notation c := (pc_c pc).

  Definition pl_prefactor (p : PowerLawParams R) (rho T : R) : R :=
    pl_kappa0 p * Rpower ((rho + pl_rho_off p) / pl_rho_ref p) (pl_rho_exp p) *
    Rpower ((T + pl_temp_off p) / pl_temp_ref p) (pl_temp_exp p).
  Definition pl_kappa (p : PowerLawParams R) (rho T nu : R) : R :=
    pl_prefactor p rho T * Rpower ((nu + pl_nu_off p) / pl_nu_ref p) (pl_nu_exp p) *
    (if pl_do_stim_emit p then 1 - exp (- (h * nu / (k * T))) else 1).

  Definition pl_refs (p : PowerLawParams R) : Prop :=
    0 < pl_rho_ref p /\ 0 < pl_temp_ref p /\ 0 < pl_nu_ref p.

  Lemma powerlaw_prefactor_fin p rho T : pl_refs p ->
    0 < rho + pl_rho_off p -> 0 < T + pl_temp_off p ->
    powerlaw_prefactor (finpl p) (Fin rho) (Fin T) = Fin (pl_prefactor p rho T).
  Proof.
    intros (H1 & H2 & H3) Hr Ht. unfold powerlaw_prefactor, pl_prefactor. unfold finpl, pl_map.
    cbn [pl_kappa0 pl_rho_exp pl_temp_exp pl_rho_ref pl_rho_off pl_temp_ref pl_temp_off].
    er; try reflexivity.
  Qed.

  Lemma powerlaw_scale_fin p rho T nu : pl_refs p -> 0 < T ->
    0 < rho + pl_rho_off p -> 0 < T + pl_temp_off p -> 0 < nu + pl_nu_off p ->
    powerlaw_scale (finpc pc) (finpl p) (Fin rho) (Fin T) (Fin nu) = Fin (pl_kappa p rho T nu).
  Proof.
    intros Hp HT Hr Ht Hn. unfold powerlaw_scale. rewrite powerlaw_prefactor_fin by assumption.
    destruct Hp as (H1 & H2 & H3). unfold pl_kappa. unfold finpl, pl_map.
    cbn [pl_nu_exp pl_nu_ref pl_nu_off pl_do_stim_emit].
    destruct (pl_do_stim_emit p); er; f_equal. f_equal. ring.
  Qed.

  Lemma gray_jnu_fin kap rho T nu : 0 < T -> 0 < nu ->
    gray_jnu (finpc pc) (Fin kap) (Fin rho) (Fin T) (Fin nu) =
    Fin (rho * kap * Planck_B h k c T nu).
  Proof. intros. unfold gray_jnu. rewrite planck_nu_fin by assumption. er; try reflexivity. Qed.

  Lemma powerlaw_jnu_fin p rho T nu : pl_refs p -> 0 < T -> 0 < nu ->
    0 < rho + pl_rho_off p -> 0 < T + pl_temp_off p -> 0 < nu + pl_nu_off p ->
    powerlaw_jnu (finpc pc) (finpl p) (Fin rho) (Fin T) (Fin nu) =
    Fin (rho * pl_kappa p rho T nu * Planck_B h k c T nu).
  Proof.
    intros. unfold powerlaw_jnu. rewrite planck_nu_fin by assumption.
    rewrite powerlaw_scale_fin by assumption. er; try reflexivity.
  Qed.
End Photon.

Section EP.
  Context (pc : PhysConst R) (Hp : positive_consts pc).
  Local Notation h := (pc_h pc).
  Local Notation k := (pc_kb pc).
  Local Notation c := (pc_c pc).
  Local Notation me := (pc_me pc).

  Lemma pc_all : 0 < h /\ 0 < k /\ 0 < c /\ 0 < me /\ 0 < pc_mp pc /\ 0 < pc_qe pc /\
    0 < pc_nu_sigma0 pc.
  Proof. unfold positive_consts in Hp. tauto. Qed.

  Lemma ep_mmw_fin : ep_mmw (finpc pc) = Fin ((pc_mp pc + me) / 2).
  Proof. unfold ep_mmw. er; try reflexivity. Qed.

  Lemma ep_prefac_fin : ep_prefac (finpc pc) =
    Fin (8 * pc_qe pc ^ 6 / (3 * (me * c * c) ^ 2) * sqrt (2 * PI / 3)).
  Proof. destruct pc_all as (? & ? & ? & ? & ? & ? & ?). unfold ep_prefac. er; try reflexivity. Qed.

  (** frequency-independent factor of the emissivity *)
  Definition ep_A (rho T : R) : R :=
    8 * pc_qe pc ^ 6 / (3 * (me * c * c) ^ 2) * sqrt (2 * PI / 3) /
    sqrt (k * T / (me * c * c)) * (rho / ((pc_mp pc + me) / 2) / 2) *
    (rho / ((pc_mp pc + me) / 2) / 2) * (12 / 10).

  Lemma ep_A_pos rho T : 0 < rho -> 0 < T -> 0 < ep_A rho T.
  Proof. intros. destruct pc_all as (? & ? & ? & ? & ? & ? & ?). unfold ep_A. pos. Qed.

  Lemma ep_A_nonneg rho T : 0 < T -> 0 <= ep_A rho T.
  Proof.
    intros. destruct pc_all as (? & ? & ? & ? & ? & ? & ?). unfold ep_A.
    rewrite (Rmult_assoc (_ / sqrt (k * T / _))).
    apply Rmult_le_pos; [|lra]. apply Rmult_le_pos; [apply Rlt_le; pos|apply Rle_0_sqr].
  Qed.

  Lemma ep_jnu_fin rho T nu : 0 < T ->
    ep_jnu (finpc pc) (Fin rho) (Fin T) (Fin nu) =
    Fin (ep_A rho T * exp (- (h * nu / (k * T)))).
  Proof.
    intros HT. destruct pc_all as (? & ? & ? & ? & ? & ? & ?).
    unfold ep_jnu. rewrite ep_mmw_fin, ep_prefac_fin. unfold ep_gff. er. f_equal.
    unfold ep_A. simpl powerRZ. field. repeat split; nz.
  Qed.

  Lemma ep_Jnu_fin rho T nu : 0 < T ->
    ep_Jnu (finpc pc) (Fin rho) (Fin T) (Fin nu) =
    Fin (4 * PI * (ep_A rho T * exp (- (h * nu / (k * T))))).
  Proof. intros. unfold ep_Jnu. rewrite ep_jnu_fin by assumption. er; try reflexivity. Qed.

  Lemma ep_J_fin rho T : 0 < T ->
    ep_J (finpc pc) (Fin rho) (Fin T) = Fin (4 * PI * k * T / h * ep_A rho T).
  Proof.
    intros HT. destruct pc_all as (? & ? & ? & ? & ? & ? & ?).
    unfold ep_J. rewrite ep_mmw_fin, ep_prefac_fin. unfold ep_gff. er. f_equal.
    unfold ep_A. simpl powerRZ. field. repeat split; nz.
  Qed.

  Lemma ep_alpha_fin rho T nu : 0 < T -> 0 < nu ->
    ep_alpha (finpc pc) (Fin rho) (Fin T) (Fin nu) =
    Fin (ep_A rho T * exp (- (h * nu / (k * T))) / (Planck_B h k c T nu + 10 * R_num_min)).
  Proof.
    intros HT Hn. destruct pc_all as (? & ? & ? & ? & ? & ? & ?).
    unfold ep_alpha, kirchhoff. rewrite ep_jnu_fin, planck_nu_fin by assumption.
    apply ratio_pos. apply Rlt_le, Planck_B_pos; assumption.
  Qed.
End EP.

Section Nu.
  Context (ns : Z) (pc : PhysConst R).
  Context (Hh : 0 < pc_h pc) (Hk : 0 < pc_kb pc) (Hc : 0 < pc_c pc).
  Local Notation h := (pc_h pc).
  Local Notation k := (pc_kb pc).
  Local Notation c := (pc_c pc).

  Lemma nugray_jnu_fin kap rho T Ye ty nu : 0 < T ->
    nugray_jnu ns (finpc pc) (Fin kap) (Fin rho) (Fin T) Ye ty (Fin nu) =
    Fin (rho * kap * FermiDirac_B (IZR ns) h k c T nu).
  Proof. intros. unfold nugray_jnu. rewrite fd_nu_fin by assumption. er; try reflexivity. Qed.
End Nu.

Section BRT.
  Context (ns : Z) (pc : PhysConst R) (Hp : positive_consts pc).
  Local Notation h := (pc_h pc).
  Local Notation k := (pc_kb pc).
  Local Notation c := (pc_c pc).
  Local Notation me := (pc_me pc).

  Definition D_np : R := 2072126995 / 10 ^ 15.

  Lemma D_np_pos : 0 < D_np.
  Proof. unfold D_np. pos. Qed.
  Lemma brt_Deltanp_fin : brt_Deltanp = Fin D_np.
  Proof.
    unfold brt_Deltanp. rewrite fin_dec. reflexivity.
  Qed.

  Definition brt_sig (nu : R) : R :=
    pc_nu_sigma0 pc * ((1 + 3 * pc_gA pc * pc_gA pc) / 4) *
    ((h * nu + D_np) / (me * c * c)) ^ 2.

  Lemma brt_sigmac_fin nu :
    brt_sigmac (finpc pc) NU_ELECTRON (Fin nu) = Fin (brt_sig nu).
  Proof.
    destruct (pc_all pc Hp) as (? & ? & ? & ? & ? & ? & ?).
    unfold brt_sigmac, RadType_eqb, negb. rewrite brt_Deltanp_fin. er; try reflexivity.
  Qed.

  Lemma brt_jnu_fin rho T Ye nu : 0 < T ->
    brt_jnu ns (finpc pc) (Fin rho) (Fin T) Ye NU_ELECTRON (Fin nu) =
    Fin (rho / pc_mp pc * brt_sig nu * FermiDirac_B (IZR ns) h k c T nu).
  Proof.
    intros HT. destruct (pc_all pc Hp) as (? & ? & ? & ? & ? & ? & ?).
    unfold brt_jnu, brt_mu. rewrite fd_nu_fin, brt_sigmac_fin by assumption. er; try reflexivity.
  Qed.

  (** the closed forms, with the literals for zeta(5) and zeta(3) left as parameters *)
  Definition brt_total (z5 rho T : R) : R :=
    4 * PI * ((1 + 3 * pc_gA pc * pc_gA pc) * (k * T) ^ 4 * rho * pc_nu_sigma0 pc *
    (310 * (k * T) ^ 2 * PI ^ 6 + 147 * PI ^ 4 * D_np * D_np + 113400 * k * T * D_np * z5) /
    (5040 * c ^ 6 * h ^ 3 * me ^ 2 * pc_mp pc)).
  Definition brt_number (z3 z5 rho T : R) : R :=
    4 * PI * ((1 + 3 * pc_gA pc * pc_gA pc) * (k * T) ^ 3 * rho * pc_nu_sigma0 pc *
    (7 * k * PI ^ 4 * T * D_np + 90 * D_np ^ 2 * z3 + 1350 * (k * T) ^ 2 * z5) /
    (120 * c ^ 6 * h ^ 3 * me ^ 2 * pc_mp pc)).

  Definition z5_lit : R := 10369277551433699263 / 10 ^ 19.
  Definition z3_lit : R := 12020569031595942853 / 10 ^ 19.
  Lemma brt_zeta5_fin : brt_zeta5 = Fin z5_lit.
  Proof. unfold brt_zeta5. rewrite fin_dec. reflexivity. Qed.
  Lemma brt_zeta3_fin : brt_zeta3 = Fin z3_lit.
  Proof. unfold brt_zeta3. rewrite fin_dec. reflexivity. Qed.

  Lemma brt_J_fin rho T Ye :
    brt_J (finpc pc) (Fin rho) (Fin T) Ye NU_ELECTRON = Fin (brt_total z5_lit rho T).
  Proof.
    destruct (pc_all pc Hp) as (? & ? & ? & ? & ? & ? & ?).
    unfold brt_J, brt_alphac, brt_mu, RadType_eqb, negb. rewrite brt_Deltanp_fin, brt_zeta5_fin.
    cbv zeta. er; try reflexivity.
  Qed.

  Lemma brt_JN_fin rho T Ye ty :
    brt_JN (finpc pc) (Fin rho) (Fin T) Ye ty = Fin (brt_number z3_lit z5_lit rho T).
  Proof.
    destruct (pc_all pc Hp) as (? & ? & ? & ? & ? & ? & ?).
    unfold brt_JN, brt_nalphac, brt_mu. rewrite brt_Deltanp_fin, brt_zeta5_fin, brt_zeta3_fin.
    cbv zeta. er; try reflexivity.
  Qed.

  Lemma brt_integral z5 rho T : 0 < T -> is_series (fun n => / INR (S n) ^ 5) z5 ->
    int_0_inf (fun nu => 4 * PI * (rho / pc_mp pc * brt_sig nu *
                                   FermiDirac_B (IZR ns) h k c T nu))
      (IZR ns * brt_total z5 rho T).
  Proof.
    intros HT Hz. destruct (pc_all pc Hp) as (? & ? & ? & ? & ? & ? & ?).
    assert (Hq : 0 < h / (k * T)) by pos.
    set (P := 4 * PI * (rho / pc_mp pc) * (pc_nu_sigma0 pc * ((1 + 3 * pc_gA pc * pc_gA pc) / 4) /
      (me * c * c) ^ 2) * IZR ns * (2 * h / c ^ 2)).
    pose proof (int_0_inf_scal _ (P * h ^ 2) _ (fermi_scaled 4 _ _ Hq zeta6)) as I5.
    pose proof (int_0_inf_scal _ (P * (2 * h * D_np)) _ (fermi_scaled 3 _ _ Hq Hz)) as I4.
    pose proof (int_0_inf_scal _ (P * D_np ^ 2) _ (fermi_scaled 2 _ _ Hq zeta4)) as I3.
    pose proof (int_0_inf_plus _ _ _ _ (int_0_inf_plus _ _ _ _ I5 I4) I3) as I.
    eapply int_0_inf_eq; [|eapply int_0_inf_ext; [|exact I]].
    - unfold brt_total, P. simpl. field. repeat split; nz.
    - intros x Hx. cbn beta. unfold FermiDirac_B, brt_sig, P.
      replace (h / (k * T) * x) with (h * x / (k * T)) by (field; split; nz).
      pose proof (exp_pos (h * x / (k * T))). field. repeat split; nz.
  Qed.

  Lemma brt_number_integral z3 z5 rho T : 0 < T ->
    is_series (fun n => / INR (S n) ^ 3) z3 -> is_series (fun n => / INR (S n) ^ 5) z5 ->
    int_0_inf (fun nu => 4 * PI * (rho / pc_mp pc * brt_sig nu *
                                   FermiDirac_B (IZR ns) h k c T nu) / (h * nu))
      (IZR ns * brt_number z3 z5 rho T).
  Proof.
    intros HT Hz3 Hz. destruct (pc_all pc Hp) as (? & ? & ? & ? & ? & ? & ?).
    assert (Hq : 0 < h / (k * T)) by pos.
    set (P := 4 * PI * (rho / pc_mp pc) * (pc_nu_sigma0 pc * ((1 + 3 * pc_gA pc * pc_gA pc) / 4) /
      (me * c * c) ^ 2) * IZR ns * (2 / c ^ 2)).
    pose proof (int_0_inf_scal _ (P * h ^ 2) _ (fermi_scaled 3 _ _ Hq Hz)) as I5.
    pose proof (int_0_inf_scal _ (P * (2 * h * D_np)) _ (fermi_scaled 2 _ _ Hq zeta4)) as I4.
    pose proof (int_0_inf_scal _ (P * D_np ^ 2) _ (fermi_scaled 1 _ _ Hq Hz3)) as I3.
    pose proof (int_0_inf_plus _ _ _ _ (int_0_inf_plus _ _ _ _ I5 I4) I3) as I.
    eapply int_0_inf_eq; [|eapply int_0_inf_ext; [|exact I]].
    - unfold brt_number, P. simpl. field. repeat split; nz.
    - intros x Hx. cbn beta. unfold FermiDirac_B, brt_sig, P.
      replace (h / (k * T) * x) with (h * x / (k * T)) by (field; split; nz).
      pose proof (exp_pos (h * x / (k * T))). field. repeat split; nz.
  Qed.
End BRT.

(** zeta(4) > 1, hence pi^4 > 90 *)
Lemma PI4_gt_90 : 90 < PI ^ 4.
Proof.
  pose proof zeta4 as Z.
  assert (H : 1 + / 16 <= PI ^ 4 / 90).
  { change (is_lim_seq (sum_n (fun n => / INR (S n) ^ 4)) (Finite (PI ^ 4 / 90))) in Z.
    apply is_lim_seq_spec in Z. unfold is_lim_seq' in Z.
    apply Rnot_lt_le. intros Hlt.
    assert (He : 0 < 1 + / 16 - PI ^ 4 / 90) by lra.
    destruct (Z (mkposreal _ He)) as [N HN]. specialize (HN (N + 1)%nat ltac:(lia)).
    cbn [pos] in HN.
    assert (Hge : forall m, 1 + / 16 <= sum_n (fun n => / INR (S n) ^ 4) (S m)).
    { induction m as [|m IH].
      - rewrite sum_Sn, sum_O. cbn. lra.
      - rewrite sum_Sn. change plus with Rplus.
        pose proof (pow_lt (INR (S (S (S m)))) 4 (lt_0_INR _ (Nat.lt_0_succ _))).
        assert (0 < / INR (S (S (S m))) ^ 4) by (apply Rinv_0_lt_compat; assumption).
        lra. }
    replace (N + 1)%nat with (S N) in HN by lia. specialize (Hge N).
    unfold Rabs in HN. destruct (Rcase_abs _) in HN; lra. }
  lra.
Qed.
