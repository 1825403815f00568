(** C15. Burrows-Reddy-Thompson opacity: species gating and totals. *)
From Coq Require Import Reals ZArith Lra Lia.
From Coquelicot Require Import Coquelicot.
From Verif Require Import Base.Outcome Base.Ops Inst.ER Inst.ERTac Inst.RConsts
  Model.Constants Model.RadTypes Model.NeutrinoApi Model.OpacNeutrinos Spec.Physics
  Spec.Integral Spec.Opacities Proofs.PlanckFacts Proofs.BoseIntegral Proofs.ZetaNum
  Proofs.ThermalIntegrals Proofs.ModelFacts.
Open Scope R_scope.

(** Other species: absorption, emissivity per frequency and total emissivity are
    zero at every state. *)
Lemma C15_other_species_zero_proof :
  forall ns pc, positive_consts pc ->
  forall rho T Ye type nu, type <> NU_ELECTRON -> 0 < T -> 
  let o := BRTOpacity ns (finpc pc) in
  returns (nu_Absorption o (Fin rho) (Fin T) (Fin Ye) type (Fin nu)) 0 /\
  returns (nu_AngleAvgAbsorption o (Fin rho) (Fin T) (Fin Ye) type (Fin nu)) 0 /\
  returns (nu_EmissivityPerNuOmega o (Fin rho) (Fin T) (Fin Ye) type (Fin nu)) 0 /\
  returns (nu_EmissivityPerNu o (Fin rho) (Fin T) (Fin Ye) type (Fin nu)) 0 /\
  returns (nu_Emissivity o (Fin rho) (Fin T) (Fin Ye) type) 0.
Proof.
  intros ns pc Hp rho T Ye ty nu Hty HT o.
  destruct (pc_all pc Hp) as (Hh & Hk & Hc & Hme & Hmp & _).
  assert (E : RadType_eqb ty NU_ELECTRON = false) by (destruct ty; try reflexivity; contradiction).
  assert (Hj : brt_jnu ns (finpc pc) (Fin rho) (Fin T) (Fin Ye) ty (Fin nu) = Fin 0).
  { unfold brt_jnu, brt_mu, brt_sigmac. rewrite E, fd_nu_fin by assumption. cbn [negb].
    er. f_equal. ring. }
  unfold returns, o.
  cbn [nu_Absorption nu_AngleAvgAbsorption nu_EmissivityPerNuOmega nu_EmissivityPerNu
       nu_Emissivity BRTOpacity nu_opacity].
  unfold brt_alpha, brt_alpha_avg, brt_Jnu, brt_J, brt_alphac, brt_sigmac, brt_mu.
  rewrite E, Hj. cbn [negb].
  repeat split; er; do 2 f_equal; ring.
Qed.

(** NumberEmissivity lacks the species check: it returns the same positive number
    for every species, also those whose emissivity is zero. *)
Lemma C15_number_species_refuted_proof :
  forall ns pc, positive_consts pc ->
  forall rho T Ye type, 0 < rho -> 0 < T ->
  let o := BRTOpacity ns (finpc pc) in
  exists v, 0 < v /\ returns (nu_NumberEmissivity o (Fin rho) (Fin T) (Fin Ye) type) v.
Proof.
  intros ns pc Hp rho T Ye ty Hr HT o.
  exists (brt_number pc z3_lit z5_lit rho T). split.
  - destruct (pc_all pc Hp) as (Hh & Hk & Hc & Hme & Hmp & Hqe & Hs).
    pose proof D_np_pos. unfold brt_number.
    assert (0 < z3_lit) by (unfold z3_lit; pos). assert (0 < z5_lit) by (unfold z5_lit; pos).
    assert (0 < 1 + 3 * pc_gA pc * pc_gA pc) by nra. pos.
  - unfold returns, o. cbn [nu_NumberEmissivity BRTOpacity nu_opacity].
    rewrite (brt_JN_fin pc Hp). reflexivity.
Qed.

Lemma total_close ns A B X z z' : 0 <= IZR ns -> 0 <= A -> 0 <= B -> 0 <= X ->
  1036927755143369920 / 10 ^ 18 <= z -> z <= 1036927755143369944 / 10 ^ 18 ->
  z' = z5_lit ->
  Rabs (IZR ns * (A * (B + X * z')) - IZR ns * (A * (B + X * z))) <=
  / 10 ^ 16 * (IZR ns * (A * (B + X * z))).
Proof.
  intros Hn HA HB HX H1 H2 ->.
  replace (IZR ns * (A * (B + X * z5_lit)) - IZR ns * (A * (B + X * z)))
    with (IZR ns * A * (X * (z5_lit - z))) by ring.
  replace (/ 10 ^ 16 * (IZR ns * (A * (B + X * z)))) with
    (IZR ns * A * (/ 10 ^ 16 * (B + X * z))) by ring.
  assert (0 <= IZR ns * A) by (apply Rmult_le_pos; assumption).
  rewrite Rabs_mult, (Rabs_right (IZR ns * A)) by lra.
  apply Rmult_le_compat_l; [assumption|].
  rewrite Rabs_mult, (Rabs_right X) by lra.
  apply Rle_trans with (X * (/ 10 ^ 16 * z)).
  - apply Rmult_le_compat_l; [assumption|]. unfold z5_lit, Rabs. destruct (Rcase_abs _); lra.
  - assert (0 <= / 10 ^ 16 * B) by (apply Rmult_le_pos; [lra|assumption]). lra.
Qed.

(** Electron neutrinos: the integral of EmissivityPerNu is NSPECIES times what
    Emissivity returns, up to the digits of zeta(5) (relative error 1e-16). For a
    one-species distribution the property holds. *)
Lemma C15_total_is_integral_over_nspecies_proof :
  forall ns pc, (0 < ns)%Z -> positive_consts pc ->
  forall rho T Ye, 0 < rho -> 0 < T ->
  let o := BRTOpacity ns (finpc pc) in
  exists j v w,
    spectrum (nu_EmissivityPerNu o (Fin rho) (Fin T) (Fin Ye) NU_ELECTRON) j /\
    returns (nu_Emissivity o (Fin rho) (Fin T) (Fin Ye) NU_ELECTRON) v /\
    int_0_inf j w /\ 0 < v /\ 0 < w /\
    Rabs (IZR ns * v - w) <= / 10 ^ 16 * w.
Proof.
  intros ns pc Hns Hp rho T Ye Hr HT o.
  assert (Hn0 : 0 < IZR ns) by (apply (IZR_lt 0); lia).
  destruct (pc_all pc Hp) as (Hh & Hk & Hc & Hme & Hmp & Hqe & Hs).
  destruct zeta5_bounds as [z [Hz [Hz1 Hz2]]].
  assert (Hg : 0 < 1 + 3 * pc_gA pc * pc_gA pc) by nra. pose proof D_np_pos as HD.
  assert (Hz0 : 0 < z) by lra. assert (Hl0 : 0 < z5_lit) by (unfold z5_lit; lra).
  exists (fun nu => 4 * PI * (rho / pc_mp pc * brt_sig pc nu *
            FermiDirac_B (IZR ns) (pc_h pc) (pc_kb pc) (pc_c pc) T nu)),
    (brt_total pc z5_lit rho T), (IZR ns * brt_total pc z rho T).
  split; [|split; [|split; [|split; [|split]]]].
  - intros nu Hn. unfold returns, o. cbn [nu_EmissivityPerNu BRTOpacity nu_opacity].
    unfold brt_Jnu. rewrite (brt_jnu_fin ns pc Hp) by assumption. er. reflexivity.
  - unfold returns, o. cbn [nu_Emissivity BRTOpacity nu_opacity].
    rewrite (brt_J_fin pc Hp). reflexivity.
  - apply brt_integral; assumption.
  - unfold brt_total. pos.
  - unfold brt_total. pos.
  - set (A := 4 * PI * ((1 + 3 * pc_gA pc * pc_gA pc) * (pc_kb pc * T) ^ 4 * rho *
       pc_nu_sigma0 pc / (5040 * pc_c pc ^ 6 * pc_h pc ^ 3 * pc_me pc ^ 2 * pc_mp pc))).
    set (B := 310 * (pc_kb pc * T) ^ 2 * PI ^ 6 + 147 * PI ^ 4 * D_np * D_np).
    set (X := 113400 * pc_kb pc * T * D_np).
    assert (E : forall q, brt_total pc q rho T = A * (B + X * q)).
    { intros q. unfold brt_total, A, B, X. field. repeat split; nz. }
    rewrite !E. apply total_close; auto; try lra; apply Rlt_le; unfold A, B, X; pos.
Qed.

(** The library's distribution has three species, so its total emissivity is a
    third of the integral of the spectral one. *)
Lemma C15_total_refuted_proof :
  forall pc, positive_consts pc -> forall rho T Ye, 0 < rho -> 0 < T ->
  let o := BRTOpacity 3 (finpc pc) in
  exists j v w,
    spectrum (nu_EmissivityPerNu o (Fin rho) (Fin T) (Fin Ye) NU_ELECTRON) j /\
    returns (nu_Emissivity o (Fin rho) (Fin T) (Fin Ye) NU_ELECTRON) v /\
    int_0_inf j w /\ 0 < w /\ v < 34 / 100 * w.
Proof.
  intros pc Hp rho T Ye Hr HT o.
  destruct (C15_total_is_integral_over_nspecies_proof 3 pc ltac:(lia) Hp rho T Ye Hr HT)
    as (j & v & w & H1 & H2 & H3 & H4 & H5 & H6).
  exists j, v, w. repeat split; auto.
  unfold Rabs in H6. destruct (Rcase_abs _) in H6; lra.
Qed.

(** The number emissivity stands in the same relation to the integral of
    EmissivityPerNu/(h nu). *)
Lemma C15_number_is_integral_over_nspecies_proof :
  forall ns pc, (0 < ns)%Z -> positive_consts pc ->
  forall rho T Ye, 0 < rho -> 0 < T ->
  let o := BRTOpacity ns (finpc pc) in
  exists j v w,
    spectrum (nu_EmissivityPerNu o (Fin rho) (Fin T) (Fin Ye) NU_ELECTRON) j /\
    returns (nu_NumberEmissivity o (Fin rho) (Fin T) (Fin Ye) NU_ELECTRON) v /\
    int_0_inf (fun nu => j nu / (pc_h pc * nu)) w /\ 0 < w /\
    Rabs (IZR ns * v - w) <= / 10 ^ 14 * w.
Proof.
  intros ns pc Hns Hp rho T Ye Hr HT o.
  assert (Hn0 : 0 < IZR ns) by (apply (IZR_lt 0); lia).
  destruct (pc_all pc Hp) as (Hh & Hk & Hc & Hme & Hmp & Hqe & Hs).
  destruct zeta5_bounds as [z5 [Hz5 [Hz51 Hz52]]].
  destruct zeta3_bounds as [z3 [Hz3 [Hz31 Hz32]]].
  assert (Hg : 0 < 1 + 3 * pc_gA pc * pc_gA pc) by nra. pose proof D_np_pos as HD.
  assert (H50 : 0 < z5) by lra. assert (H30 : 0 < z3) by lra.
  set (A := IZR ns * (4 * PI * ((1 + 3 * pc_gA pc * pc_gA pc) * (pc_kb pc * T) ^ 3 * rho *
     pc_nu_sigma0 pc / (120 * pc_c pc ^ 6 * pc_h pc ^ 3 * pc_me pc ^ 2 * pc_mp pc)))).
  set (B := 7 * pc_kb pc * PI ^ 4 * T * D_np).
  set (X := 90 * D_np ^ 2). set (Y := 1350 * (pc_kb pc * T) ^ 2).
  assert (E : forall p q, IZR ns * brt_number pc p q rho T = A * (B + X * p + Y * q)).
  { intros p q. unfold brt_number, A, B, X, Y. field. repeat split; nz. }
  assert (HA : 0 < A) by (unfold A; pos). assert (HB : 0 < B) by (unfold B; pos).
  assert (HX : 0 < X) by (unfold X; pos). assert (HY : 0 < Y) by (unfold Y; pos).
  exists (fun nu => 4 * PI * (rho / pc_mp pc * brt_sig pc nu *
            FermiDirac_B (IZR ns) (pc_h pc) (pc_kb pc) (pc_c pc) T nu)),
    (brt_number pc z3_lit z5_lit rho T), (IZR ns * brt_number pc z3 z5 rho T).
  split; [|split; [|split; [|split]]].
  - intros nu Hn. unfold returns, o. cbn [nu_EmissivityPerNu BRTOpacity nu_opacity].
    unfold brt_Jnu. rewrite (brt_jnu_fin ns pc Hp) by assumption. er. reflexivity.
  - unfold returns, o. cbn [nu_NumberEmissivity BRTOpacity nu_opacity].
    rewrite (brt_JN_fin pc Hp). reflexivity.
  - apply brt_number_integral; assumption.
  - rewrite E. pos.
  - rewrite !E. clearbody A B X Y.
    replace (A * (B + X * z3_lit + Y * z5_lit) - A * (B + X * z3 + Y * z5)) with
      (A * (X * (z3_lit - z3) + Y * (z5_lit - z5))) by ring.
    rewrite Rabs_mult, (Rabs_right A) by lra.
    replace (/ 10 ^ 14 * (A * (B + X * z3 + Y * z5))) with
      (A * (/ 10 ^ 14 * (B + X * z3 + Y * z5))) by ring.
    apply Rmult_le_compat_l; [lra|].
    assert (Rabs (z3_lit - z3) <= / 10 ^ 14 * z3)
      by (unfold z3_lit, Rabs; destruct (Rcase_abs _); lra).
    assert (Rabs (z5_lit - z5) <= / 10 ^ 14 * z5)
      by (unfold z5_lit, Rabs; destruct (Rcase_abs _); lra).
    eapply Rle_trans; [apply Rabs_triang|]. rewrite !Rabs_mult, !(Rabs_right X), (Rabs_right Y) by lra.
    assert (X * Rabs (z3_lit - z3) <= X * (/ 10 ^ 14 * z3)) by (apply Rmult_le_compat_l; lra).
    assert (Y * Rabs (z5_lit - z5) <= Y * (/ 10 ^ 14 * z5)) by (apply Rmult_le_compat_l; lra).
    assert (0 <= / 10 ^ 14 * B) by (apply Rmult_le_pos; lra). lra.
Qed.

Lemma C15_example : positive_consts cgsR /\ NU_HEAVY <> NU_ELECTRON /\ (0 < 1)%Z.
Proof. split; [exact cgs_pos|]. split; [discriminate|lia]. Qed.
