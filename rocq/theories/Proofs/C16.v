(** C16. Tophat emissivity totals are the band integrals of the spectral emissivity. *)
From Coq Require Import Reals ZArith Lra.
From Coquelicot Require Import Coquelicot.
From Verif Require Import Base.Outcome Base.Ops Inst.ER Inst.ERTac Inst.RConsts
  Model.Constants Model.RadTypes Model.NeutrinoApi Model.OpacNeutrinos Spec.Physics
  Spec.Integral Spec.Opacities Proofs.BoseIntegral Proofs.ThermalIntegrals Proofs.ModelFacts.
Open Scope R_scope.

Lemma tophat_YeF_fin t Ye : tophat_YeF t (Fin Ye) = Fin (Ye_weight t Ye).
Proof. destruct t; unfold tophat_YeF, RadType_eqb, Ye_weight; er; reflexivity. Qed.

Lemma tophat_jnu_fin C a b rho T Ye t nu :
  tophat_jnu (Fin C) (Fin a) (Fin b) rho T (Fin Ye) t (Fin nu) =
  Fin (if Rlt_dec a nu then if Rlt_dec nu b then C * Ye_weight t Ye else 0 else 0).
Proof.
  unfold tophat_jnu, Ogtb. rewrite !fin_ltb. unfold Rltb. rewrite tophat_YeF_fin.
  destruct (Rlt_dec a nu), (Rlt_dec nu b); cbn [andb]; er; reflexivity.
Qed.

(** The spectral emissivity is C times the species weight strictly inside the
    band, zero outside, at every frequency. *)
Lemma C16_spectrum_proof :
  forall ns pc C numin numax rho T Ye type nu,
  let o := TophatEmissivity ns pc (Fin C) (Fin numin) (Fin numax) in
  returns (nu_EmissivityPerNu o rho T (Fin Ye) type (Fin nu))
    (if Rlt_dec numin nu then if Rlt_dec nu numax then 4 * PI * (C * Ye_weight type Ye) else 0
     else 0).
Proof.
  intros ns pc C a b rho T Ye t nu o. unfold returns, o.
  cbn [nu_EmissivityPerNu TophatEmissivity nu_opacity]. unfold tophat_Jnu.
  rewrite tophat_jnu_fin. er. do 2 f_equal.
  destruct (Rlt_dec a nu), (Rlt_dec nu b); ring.
Qed.

Lemma C16_total_proof :
  forall ns pc C numin numax, 0 <= numin -> numin <= numax ->
  forall rho T Ye type,
  let o := TophatEmissivity ns pc (Fin C) (Fin numin) (Fin numax) in
  exists j v,
    spectrum (nu_EmissivityPerNu o rho T (Fin Ye) type) j /\
    returns (nu_Emissivity o rho T (Fin Ye) type) v /\ int_0_inf j v.
Proof.
  intros ns pc C a b Ha Hab rho T Ye t o.
  exists (fun nu => if Rlt_dec a nu then if Rlt_dec nu b then 4 * PI * (C * Ye_weight t Ye) else 0
     else 0), (4 * PI * (C * (b - a)) * Ye_weight t Ye).
  split; [|split].
  - intros nu Hn. apply C16_spectrum_proof.
  - unfold returns, o. cbn [nu_Emissivity TophatEmissivity nu_opacity]. unfold tophat_J.
    rewrite tophat_YeF_fin. er. reflexivity.
  - apply (int_0_inf_band (fun _ => 4 * PI * (C * Ye_weight t Ye)) _ a b); auto.
    + intros x [H1 H2]. destruct (Rlt_dec a x); [|lra]. destruct (Rlt_dec x b); [reflexivity|lra].
    + intros x H1. destruct (Rlt_dec a x); [lra|reflexivity].
    + intros x H1. destruct (Rlt_dec a x); [|reflexivity]. destruct (Rlt_dec x b); [lra|reflexivity].
    + replace (4 * PI * (C * (b - a)) * Ye_weight t Ye) with
        (scal (b - a) (4 * PI * (C * Ye_weight t Ye)))
        by (unfold scal; simpl; unfold mult; simpl; ring).
      apply (@is_RInt_const R_NormedModule).
Qed.

Lemma is_RInt_inv_id K a b : 0 < a -> a <= b ->
  is_RInt (fun x => K / x) a b (K * ln (b / a)).
Proof.
  intros Ha Hab.
  replace (K * ln (b / a)) with (minus (K * ln b) (K * ln a)).
  2:{ unfold minus, plus, opp; simpl. unfold Rdiv.
      rewrite ln_mult, ln_Rinv by (try apply Rinv_0_lt_compat; lra). ring. }
  apply (is_RInt_derive (fun x => K * ln x) (fun x => K / x)).
  - intros x Hx. rewrite Rmin_left, Rmax_right in Hx by lra. auto_derive; [lra|]. field. lra.
  - intros x Hx. rewrite Rmin_left, Rmax_right in Hx by lra.
    apply (continuous_mult (fun _ => K) (fun x => / x)); [apply continuous_const|].
    apply (ex_derive_continuous (V := R_NormedModule)). auto_derive. lra.
Qed.

Lemma C16_number_proof :
  forall ns pc C numin numax, positive_hkc pc -> 0 < numin -> numin <= numax ->
  forall rho T Ye type, 0 < rho ->
  let o := TophatEmissivity ns (finpc pc) (Fin C) (Fin numin) (Fin numax) in
  exists j v,
    spectrum (nu_EmissivityPerNu o (Fin rho) T (Fin Ye) type) j /\
    returns (nu_NumberEmissivity o (Fin rho) T (Fin Ye) type) v /\
    int_0_inf (fun nu => j nu / (pc_h pc * nu)) v.
Proof.
  intros ns pc C a b (Hh & _ & _) Ha Hab rho T Ye t Hr o.
  exists (fun nu => if Rlt_dec a nu then if Rlt_dec nu b then 4 * PI * (C * Ye_weight t Ye) else 0
     else 0), (4 * PI * (C * Ye_weight t Ye) / pc_h pc * ln (b / a)).
  split; [|split].
  - intros nu Hn. apply C16_spectrum_proof.
  - unfold returns, o. cbn [nu_NumberEmissivity TophatEmissivity nu_opacity]. unfold tophat_JN.
    rewrite tophat_YeF_fin. assert (0 < b) by lra. er. do 2 f_equal. field. split; nz.
  - apply (int_0_inf_band (fun x => 4 * PI * (C * Ye_weight t Ye) / pc_h pc / x) _ a b); auto; try lra.
    + intros x [H1 H2]. destruct (Rlt_dec a x); [|lra]. destruct (Rlt_dec x b); [|lra]. 
      field. split; lra.
    + intros x H1. destruct (Rlt_dec a x); [lra|]. unfold Rdiv. ring.
    + intros x H1. destruct (Rlt_dec a x); [|unfold Rdiv; ring].
      destruct (Rlt_dec x b); [lra|unfold Rdiv; ring].
    + apply is_RInt_inv_id; assumption.
Qed.

(** NU_HEAVY (and any species other than the two electron ones) emits nothing. *)
Lemma C16_heavy_emits_nothing_proof :
  forall ns pc C numin numax, positive_hkc pc -> 0 < numin -> 0 < numax ->
  forall rho T Ye nu, 0 < rho ->
  let o := TophatEmissivity ns (finpc pc) (Fin C) (Fin numin) (Fin numax) in
  returns (nu_EmissivityPerNuOmega o (Fin rho) T (Fin Ye) NU_HEAVY (Fin nu)) 0 /\
  returns (nu_EmissivityPerNu o (Fin rho) T (Fin Ye) NU_HEAVY (Fin nu)) 0 /\
  returns (nu_Emissivity o (Fin rho) T (Fin Ye) NU_HEAVY) 0 /\
  returns (nu_NumberEmissivity o (Fin rho) T (Fin Ye) NU_HEAVY) 0.
Proof.
  intros ns pc C a b (Hh & _ & _) Ha Hb rho T Ye nu Hr o. unfold returns, o.
  cbn [nu_EmissivityPerNuOmega nu_EmissivityPerNu nu_Emissivity nu_NumberEmissivity
       TophatEmissivity nu_opacity].
  unfold tophat_Jnu, tophat_J, tophat_JN. rewrite tophat_jnu_fin, tophat_YeF_fin. unfold Ye_weight.
  assert (Z : (if Rlt_dec a nu then if Rlt_dec nu b then C * 0 else 0 else 0) = 0)
    by (destruct (Rlt_dec a nu), (Rlt_dec nu b); ring).
  rewrite Z. repeat split; er; do 2 f_equal; ring.
Qed.

(** At zero density the number emissivity, which divides and multiplies by rho, is
    NaN although the emissivity is finite. *)
Lemma C16_number_zero_density_refuted_proof :
  forall ns pc C numin numax T Ye type, positive_hkc pc -> 0 < numin -> 0 < numax ->
  let o := TophatEmissivity ns (finpc pc) (Fin C) (Fin numin) (Fin numax) in
  nu_NumberEmissivity o (Fin 0) T (Fin Ye) type = Ok NaN.
Proof.
  intros ns pc C a b T Ye t (Hh & _ & _) Ha Hb o. unfold o.
  cbn [nu_NumberEmissivity TophatEmissivity nu_opacity]. unfold tophat_JN.
  rewrite tophat_YeF_fin. er. f_equal.
  assert (E : Odiv (Fin 1) (Fin (pc_h pc * 0)) = PInf).
  { cbn. destruct (Req_EM_T (pc_h pc * 0) 0); [|lra]. unfold inf_of_sign.
    destruct (Rlt_dec 0 1); [reflexivity|lra]. }
  rewrite E. rewrite fin_div, fin_ln by first [lra | pos].
  assert (Hx : forall x, Omul (Omul (Fin (4 * PI * 0)) x) (Fin (Ye_weight t Ye)) = NaN \/
                    exists r, x = Fin r).
  { intros [r| | |]; [right; eauto| | |left; reflexivity]; left; cbn; unfold inf_of_sign;
      repeat (destruct (Rlt_dec _ _); try lra); reflexivity. }
  destruct (Hx (Omul (Omul PInf (Fin C)) (Fin (ln (b / a))))) as [H|[r Hr]]; [exact H|].
  exfalso. revert Hr. cbn. unfold inf_of_sign.
  repeat (destruct (Rlt_dec _ _); cbn); unfold inf_of_sign; repeat (destruct (Rlt_dec _ _));
    discriminate.
Qed.

Lemma C16_example : positive_hkc cgsR /\ 0 < 1 /\ 1 <= 2 /\ 0 < 3.
Proof. split; [exact cgs_hkc|lra]. Qed.
