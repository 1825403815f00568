(** The neutrino functions in double precision. *)
From Coq Require Import Reals ZArith Lra Lia Bool.
From Flocq Require Import Core IEEE754.BinarySingleNaN Mult_error.
From Verif Require Import Base.Ops Inst.B64 Model.Constants Model.RadTypes Model.ThermalNeutrinos Model.OpacNeutrinos
  Spec.Physics Spec.Opacities Spec.DoublePrecision Spec.DoubleFormulas Proofs.B64Facts Proofs.Near Proofs.NearConsts Proofs.NearRules Proofs.NearPhotons.
Open Scope R_scope.

Section Fermi.
  Context (L : Libm) (HL : accurate_libm L).
  Notation O := (B64_ops L).
  Notation pc := (@PhysicalConstantsCGS b64 O).

  (** a sum with a common bound on the errors *)
  Lemma n_add_same n a1 b1 x r a2 b2 y s :
    near n a1 b1 x r -> near n a2 b2 y s ->
    (-1021 <= Z.max a1 a2)%Z -> (Z.max b1 b2 + 1 <= 1021)%Z -> n <= 2 ^ 40 ->
    near (n + 1) (Z.max a1 a2) (Z.max b1 b2 + 1) (@Oadd b64 O x y) (r + s).
  Proof.
    intros Hx Hy Ha Hb Hn.
    pose proof (near_add _ _ _ _ _ _ _ _ _ _ Hx Hy Ha Hb) as N.
    rewrite (Rmax_left n n) in N by lra. exact (N Hn).
  Qed.
  Lemma n_one n : 0 <= n -> near n 0 0 (@OofZ b64 O 1) 1.
  Proof. intros Hn. eapply near_conv with (r := 1); [nearg HL|reflexivity|exact Hn|zs|zs]. Qed.

  Lemma near_fd temp type nu : physical temp -> physical nu ->
    let x := h_cgs * V nu / (k_cgs * V temp) in
    x <= 680 -> / 2 ^ 1000 <= FermiDirac_B 3 h_cgs k_cgs c_cgs (V temp) (V nu) ->
    near (14 + 6 * x) (-1000) 382 (@fd_nu b64 O 3 pc temp type nu) (FermiDirac_B 3 h_cgs k_cgs c_cgs (V temp) (V nu)).
  Proof.
    intros Ht Hn x Hx HB. pose proof (near_x L temp nu Ht Hn) as NX. fold x in NX.
    destruct (near_pos _ _ _ _ _ NX) as [X0 _].
    assert (NE := near_exp L HL _ _ _ _ _ NX Hx ltac:(rs) ltac:(rs)).
    assert (NA := n_add_same _ _ _ _ _ _ _ _ _ NE (n_one _ (proj1 (proj2 NE))) ltac:(zs) ltac:(zs) ltac:(rs)).
    apply near_in in Ht, Hn. apply range_hyp in HB.
    destruct (near_c L) as (C1 & C2 & C3). pose proof (exp_pos x).
    assert (E : 3 * (2 * h_cgs * V nu * V nu * V nu / (c_cgs * c_cgs)) * 1 / (exp x + 1) =
                FermiDirac_B 3 h_cgs k_cgs c_cgs (V temp) (V nu)).
    { unfold FermiDirac_B. fold x. field. lra. }
    unfold fd_nu. cbv zeta. rewrite <- E in HB. eapply near_conv; [|exact E| | |].
    - eapply near_div_low; [|exact NA|exact HB|zs| |].
      + eapply near_conv with (n' := 9) (a' := (-500)%Z) (b' := 149%Z); [nearg HL|reflexivity|rs|zs|zs].
      + zs.
      + rs.
    - rs.
    - zs.
    - zs.
  Qed.

  Definition dFermi (t nu : R) : R :=
    let x := h_cgs * nu / (k_cgs * t) in
    3 * (2 * h_cgs ^ 2 * nu ^ 4 / (t ^ 2 * c_cgs ^ 2 * k_cgs)) * exp (- x) / (1 + exp (- x)) ^ 2.

  Lemma near_fd_dT temp type nu : physical temp -> physical nu ->
    let x := h_cgs * V nu / (k_cgs * V temp) in
    x <= 680 -> / 2 ^ 1000 <= dFermi (V temp) (V nu) ->
    near (27 + 16 * x) (-1000) 900 (@fd_dT b64 O 3 pc temp type nu) (dFermi (V temp) (V nu)).
  Proof.
    intros Ht Hn x Hx HB. pose proof (near_x L temp nu Ht Hn) as NX. fold x in NX.
    destruct (near_pos _ _ _ _ _ NX) as [X0 _].
    assert (NE := near_exp_neg L HL _ _ _ _ _ NX Hx ltac:(rs) ltac:(rs)).
    assert (NM := n_add_same _ _ _ _ _ _ _ _ _ (n_one _ (proj1 (proj2 NE))) NE ltac:(zs) ltac:(zs) ltac:(rs)).
    apply near_in in Ht, Hn. apply range_hyp in HB.
    destruct (near_c L) as (C1 & C2 & C3). destruct (near_pos _ _ _ _ _ Ht) as [PT _].
    destruct (near_pos _ _ _ _ _ NM) as [PM _]. change (Z.max 0 (-1020))%Z with 0%Z in NM. change (Z.max 0 0 + 1)%Z with 1%Z in NM.
    set (e := exp (- x)) in *. set (o := 1 + e) in *.
    set (q := 3 * (2 * h_cgs * h_cgs * V nu * V nu * V nu * V nu / (V temp * V temp * c_cgs * c_cgs * k_cgs))).
    assert (E : q * e / (o * o) = dFermi (V temp) (V nu)).
    { unfold dFermi, q. fold x. fold e. fold o. field. lra. }
    assert (Q : near 15 (-800) 422
      (@Omul b64 O (@OofZ b64 O 3) (@Odiv b64 O (@Omul b64 O (@Omul b64 O (@Omul b64 O (@Omul b64 O (@Omul b64 O (@Omul b64 O (@OofZ b64 O 2) (pc_h pc)) (pc_h pc)) nu) nu) nu) nu)
        (@Omul b64 O (@Omul b64 O (@Omul b64 O (@Omul b64 O temp temp) (pc_c pc)) (pc_c pc)) (pc_kb pc)))) q).
    { eapply near_conv; [nearg HL|reflexivity|rs|zs|zs]. }
    destruct (near_pos _ _ _ _ _ Q) as [PQ _].
    assert (PE : 0 < e) by apply exp_pos.
    assert (NQ : bp (-1000) <= q * e).
    { rewrite <- E in HB. apply Rle_trans with (1 := HB). apply Rmult_le_reg_r with (o * o); [apply Rmult_lt_0_compat; lra|].
      unfold Rdiv. rewrite Rmult_assoc, Rinv_l, Rmult_1_r by (apply Rgt_not_eq, Rmult_lt_0_compat; lra).
      rewrite <- (Rmult_1_r (q * e)) at 1. apply Rmult_le_compat_l; [apply Rmult_le_pos; lra|].
      replace 1 with (1 * 1) by lra. apply Rmult_le_compat; unfold o; lra. }
    unfold fd_dT. cbv zeta. rewrite <- E in HB. eapply near_conv; [|exact E| | |].
    - eapply near_div_low; [|nearg HL|exact HB|zs| |].
      + eapply near_mul_low; [exact Q|exact NE|exact NQ|zs|zs|rs].
      + zs.
      + rs.
    - rs.
    - zs.
    - zs.
  Qed.

  Lemma near_fd_T temp type : physical temp ->
    near 29 (-600) 600 (@fd_T b64 O 3 pc temp type) (c_cgs * (21 / 8 * a_rad h_cgs k_cgs c_cgs) * V temp ^ 4).
  Proof.
    intros Ht. apply near_in in Ht. unfold fd_T. destruct (near_c L) as (C1 & C2 & C3).
    eapply near_conv; [nearg HL| |rs|zs|zs]. unfold a_rad, sigma_SB. field. lra.
  Qed.
  Lemma near_fd_energy temp type : physical temp ->
    near 30 (-640) 640 (@fd_energy_density b64 O 3 pc temp type) (21 / 8 * a_rad h_cgs k_cgs c_cgs * V temp ^ 4).
  Proof.
    intros Ht. unfold fd_energy_density. pose proof (near_fd_T temp type Ht) as NT. destruct (near_c L) as (C1 & C2 & C3).
    eapply near_conv; [nearg HL| |rs|zs|zs]. field. lra.
  Qed.
  Lemma near_fd_number_T temp type : physical temp ->
    near 27 (-600) 600 (@fd_number_T b64 O 3 pc temp type) (9 / 4 * number_cgs (V temp)).
  Proof.
    intros Ht. apply near_in in Ht. unfold fd_number_T. cbv zeta. destruct (near_c L) as (C1 & C2 & C3).
    pose proof (c_zeta L) as CZ. eapply near_conv; [nearg HL| |rs|zs|zs]. unfold number_cgs. field. lra.
  Qed.
  Lemma near_fd_number temp type : physical temp ->
    near 28 (-640) 640 (@fd_number_density b64 O 3 pc temp type) (9 / 4 * number_cgs (V temp) / c_cgs).
  Proof.
    intros Ht. unfold fd_number_density. pose proof (near_fd_number_T temp type Ht) as NT.
    eapply near_conv; [nearg HL|reflexivity|rs|zs|zs].
  Qed.
  Lemma near_fd_temperature n er e type : near n (-640) 640 er e -> n <= 1000 ->
    near (n / 4 + 10) (-250) 250 (@fd_temperature b64 O 3 pc er type) (Rpower (e / (21 / 8 * a_rad h_cgs k_cgs c_cgs)) (/ 4)).
  Proof.
    intros He Hn. unfold fd_temperature. destruct (quarter_value L) as [Fq Vq].
    destruct (near_c L) as (C1 & C2 & C3). pose proof PI_RGT_0.
    match goal with |- context [Opow ?t (Odiv _ _)] => assert (N : near (n + 30) (-950) 950 t (e / (21 / 8 * a_rad h_cgs k_cgs c_cgs))) end.
    { eapply near_conv; [nearg HL| |rs|zs|zs]. unfold a_rad, sigma_SB. field. lra. }
    assert (Nn : 0 <= n) by apply He.
    pose proof (root4_range _ _ _ (proj1 (proj2 (proj2 N)))) as R.
    eapply near_conv; [eapply (near_pow L HL _ _ _ _ _ _ (/ 4)); [exact N|exact Fq|exact Vq|exact R|zs|zs|] |reflexivity| |zs|zs].
    - rewrite Rabs_pos_eq by lra. rs.
    - rewrite Rabs_pos_eq by lra. rs.
  Qed.
  Lemma near_fd_roundtrip temp type : physical temp ->
    near 18 (-250) 250 (@fd_temperature b64 O 3 pc (@fd_energy_density b64 O 3 pc temp type) type) (V temp).
  Proof.
    intros Ht. pose proof (near_fd_temperature _ _ _ type (near_fd_energy temp type Ht) ltac:(lra)) as N.
    destruct (near_c L) as (C1 & C2 & C3). pose proof PI_RGT_0.
    assert (P : 0 < V temp) by (destruct Ht as [_ [H1 H2]]; fold (V temp) in H1; assert (0 < / 2 ^ 100) by (apply Rinv_0_lt_compat, pow_lt; lra); lra).
    apply (near_conv _ _ _ _ _ 18 (-250) 250 (V temp)) in N; [exact N| |lra|lia|lia].
    replace (21 / 8 * a_rad h_cgs k_cgs c_cgs * V temp ^ 4 / (21 / 8 * a_rad h_cgs k_cgs c_cgs)) with (V temp ^ 4).
    - rewrite <- Rpower_pow by exact P. rewrite Rpower_mult. replace (INR 4 * / 4) with 1 by (simpl; lra). apply Rpower_1, P.
    - field. exact (a_rad_nonzero L).
  Qed.

  (** ** Bruenn (BRT) *)

  Lemma c_Fc : near 4 (-45) (-44) (pc_Fc pc) Fc_cgs.
  Proof.
    apply (lit_near' 4 _ 4543791885043567014 (10 ^ 32)); [vm_compute; reflexivity|].
    unfold Fc_cgs. apply (frac_pow 4543791885043567014 32). Qed.
  Lemma c_gA2 : near 4 2 3 (@Oadd b64 O (@OofZ b64 O 1) (@Omul b64 O (@Omul b64 O (@OofZ b64 O 3) (pc_gA pc)) (pc_gA pc))) gA2_cgs.
  Proof. apply (lit_near' 4 _ 55387 10000); [vm_compute; reflexivity|unfold gA2_cgs; lra]. Qed.
  Lemma c_Delta : near 1 (-19) (-18) (@brt_Deltanp b64 O) Delta_cgs.
  Proof.
    apply (lit_near' 1 _ 2072126995 (10 ^ 15)); [vm_compute; reflexivity|].
    unfold Delta_cgs. apply (frac_pow 2072126995 15). Qed.
  Lemma near_sigma0 : near 42 (-235) (-215) (pc_nu_sigma0 pc) sigma0_cgs.
  Proof.
    pose proof c_Fc as CF. pose proof (c_hbar L) as CH. pose proof PI_RGT_0.
    change (pc_nu_sigma0 pc) with (@Odiv b64 O (@Omul b64 O (@Omul b64 O (@Omul b64 O (@Omul b64 O (@Omul b64 O (@Omul b64 O
      (@Omul b64 O (@Omul b64 O (@Omul b64 O (@Omul b64 O (@Omul b64 O (@Omul b64 O (@Omul b64 O (@Omul b64 O (@OofZ b64 O 4) (@OofZ b64 O 100)) (@OofZ b64 O 100)) (pc_Fc pc)) (pc_Fc pc)) (pc_c pc)) (pc_c pc))
       (pc_hbar pc)) (pc_hbar pc)) (pc_me pc)) (pc_me pc)) (pc_c pc)) (pc_c pc)) (pc_c pc)) (pc_c pc)) (@Opi b64 O)).
    eapply near_conv; [nearg HL| |rs|zs|zs]. unfold sigma0_cgs. field. lra.
  Qed.

  Lemma near_brt_alpha rho temp Ye nu : physical rho -> physical nu ->
    near 71 (-500) 600 (@brt_alpha b64 O pc rho temp Ye NU_ELECTRON nu) (brt_alpha_R (V rho) (V nu)).
  Proof.
    intros Hr Hn. apply near_in in Hr, Hn. pose proof near_sigma0 as CS. pose proof c_gA2 as CG. pose proof c_Delta as CD.
    destruct (near_c L) as (C1 & C2 & C3). destruct (mass_pos L) as [M1 M2].
    destruct (near_pos _ _ _ _ _ (c_mp L)) as [M3 _].
    unfold brt_alpha, brt_sigmac, brt_mu. cbn [RadType_eqb negb].
    assert (N0 : near 8 (-3) 220 (@Odiv b64 O (@Oadd b64 O (@Omul b64 O (pc_h pc) nu) (@brt_Deltanp b64 O)) (@Omul b64 O (@Omul b64 O (pc_me pc) (pc_c pc)) (pc_c pc)))
      ((h_cgs * V nu + Delta_cgs) / (me_cgs * c_cgs * c_cgs))).
    { assert (A : near 2 (-187) 14 (@Omul b64 O (pc_h pc) nu) (h_cgs * V nu)) by (eapply near_conv; [nearg HL|reflexivity|rs|zs|zs]).
      assert (B : near 2 (-19) (-18) (@brt_Deltanp b64 O) Delta_cgs) by (eapply near_conv; [exact CD|reflexivity|rs|zs|zs]).
      assert (S := n_add_same _ _ _ _ _ _ _ _ _ A B ltac:(zs) ltac:(zs) ltac:(rs)).
      eapply near_conv; [eapply n_div; [exact S|nearg HL|zs|zs|rs]|reflexivity|rs|zs|zs]. }
    eapply near_conv.
    - eapply n_mul; [nearg HL|eapply n_mul; [eapply n_mul; [exact CS|eapply n_div; [exact CG|nearg HL|zs|zs|rs]|zs|zs|rs]
        |eapply (n_pow _ HL _ _ _ _ _ 2%nat); [exact N0|reflexivity|reflexivity|zs|zs|rs]|zs|zs|rs]|zs|zs|rs].
    - unfold brt_alpha_R. field. lra.
    - rs.
    - zs.
    - zs.
  Qed.

  Lemma c_zeta3 : near 1 0 1 (@brt_zeta3 b64 O) (12020569031595942853 / 10 ^ 19).
  Proof. apply (lit_near' 1 _ 12020569031595942853 (10 ^ 19)); [vm_compute; reflexivity|apply (frac_pow 12020569031595942853 19)]. Qed.
  Lemma c_zeta5 : near 1 0 1 (@brt_zeta5 b64 O) (10369277551433699263 / 10 ^ 19).
  Proof. apply (lit_near' 1 _ 10369277551433699263 (10 ^ 19)); [vm_compute; reflexivity|apply (frac_pow 10369277551433699263 19)]. Qed.


  Lemma near_sum3 n a1 b1 x r a2 b2 y s a3 b3 z t :
    near n a1 b1 x r -> near n a2 b2 y s -> near n a3 b3 z t ->
    (-1021 <= Z.max a1 a2)%Z -> (Z.max b1 b2 + 1 <= 1000)%Z -> (Z.max (Z.max b1 b2 + 1) b3 + 1 <= 1021)%Z -> n <= 1000 ->
    near (n + 2) (Z.max (Z.max a1 a2) a3) (Z.max (Z.max b1 b2 + 1) b3 + 1) (@Oadd b64 O (@Oadd b64 O x y) z) (r + s + t).
  Proof.
    intros X Y Z Ha Hb Hc Hn.
    assert (S := n_add_same _ _ _ _ _ _ _ _ _ X Y Ha ltac:(lia) ltac:(rs)).
    assert (Z' : near (n + 1) a3 b3 z t) by (eapply near_conv; [exact Z|reflexivity|lra|lia|lia]).
    pose proof (n_add_same _ _ _ _ _ _ _ _ _ S Z' ltac:(lia) ltac:(lia) ltac:(rs)) as S'.
    eapply near_conv; [exact S'|reflexivity|lra|lia|lia].
  Qed.

  Lemma near_brt_J rho temp Ye : physical rho -> physical temp ->
    near 125 (-900) 900 (@brt_J b64 O pc rho temp Ye NU_ELECTRON) (brt_J_R (V rho) (V temp)).
  Proof.
    intros Hr Ht. apply near_in in Hr, Ht. pose proof near_sigma0 as CS. pose proof c_gA2 as CG. pose proof c_Delta as CD.
    pose proof c_zeta5 as Z5. set (z5 := 10369277551433699263 / 10 ^ 19) in *.
    destruct (near_c L) as (C1 & C2 & C3). destruct (mass_pos L) as [M1 M2].
    destruct (near_pos _ _ _ _ _ (c_mp L)) as [M3 _].
    unfold brt_J, brt_alphac, brt_mu. cbn [RadType_eqb negb]. cbv zeta.
    match goal with |- context [Omul ?r (Oadd (Oadd ?x ?y) ?z)] =>
      assert (S : near 19 (-30) 200 (@Oadd b64 O (@Oadd b64 O x y) z)
        (310 * (k_cgs * V temp) ^ 2 * PI ^ 6 + 147 * PI ^ 4 * Delta_cgs * Delta_cgs + 113400 * k_cgs * V temp * Delta_cgs * z5));
      [assert (X : near 17 (-300) 140 x (310 * (k_cgs * V temp) ^ 2 * PI ^ 6)) by (eapply near_conv; [nearg HL|reflexivity|rs|zs|zs]);
       assert (Y : near 17 (-30) 0 y (147 * PI ^ 4 * Delta_cgs * Delta_cgs)) by (eapply near_conv; [nearg HL|reflexivity|rs|zs|zs]);
       assert (Z : near 17 (-300) 140 z (113400 * k_cgs * V temp * Delta_cgs * z5)) by (eapply near_conv; [nearg HL|reflexivity|rs|zs|zs]);
       pose proof (near_sum3 _ _ _ _ _ _ _ _ _ _ _ _ _ X Y Z ltac:(zs) ltac:(zs) ltac:(zs) ltac:(rs)) as S;
       eapply near_conv; [exact S|reflexivity|rs|zs|zs]|] end.
    eapply near_conv.
    - eapply n_mul; [nearg HL|eapply n_div; [eapply n_mul;
        [eapply n_mul; [eapply n_mul; [eapply n_mul; [exact CG|nearg HL|zs|zs|rs]|exact Hr|zs|zs|rs]|exact CS|zs|zs|rs]|exact S|zs|zs|rs]
        |nearg HL|zs|zs|rs]|zs|zs|rs].
    - unfold brt_J_R. cbv zeta. fold z5. field. repeat split; try lra.
    - rs.
    - zs.
    - zs.
  Qed.

  Lemma near_brt_JN rho temp Ye : physical rho -> physical temp ->
    near 125 (-900) 900 (@brt_JN b64 O pc rho temp Ye NU_ELECTRON) (brt_JN_R (V rho) (V temp)).
  Proof.
    intros Hr Ht. apply near_in in Hr, Ht. pose proof near_sigma0 as CS. pose proof c_gA2 as CG. pose proof c_Delta as CD.
    pose proof c_zeta5 as Z5. pose proof c_zeta3 as Z3.
    set (z5 := 10369277551433699263 / 10 ^ 19) in *. set (z3 := 12020569031595942853 / 10 ^ 19) in *.
    destruct (near_c L) as (C1 & C2 & C3). destruct (mass_pos L) as [M1 M2].
    destruct (near_pos _ _ _ _ _ (c_mp L)) as [M3 _].
    unfold brt_JN, brt_nalphac, brt_mu. cbv zeta.
    match goal with |- context [Omul ?r (Oadd (Oadd ?x ?y) ?z)] =>
      assert (S : near 19 (-40) 200 (@Oadd b64 O (@Oadd b64 O x y) z)
        (7 * k_cgs * PI ^ 4 * V temp * Delta_cgs + 90 * Delta_cgs ^ 2 * z3 + 1350 * (k_cgs * V temp) ^ 2 * z5));
      [assert (X : near 17 (-300) 140 x (7 * k_cgs * PI ^ 4 * V temp * Delta_cgs)) by (eapply near_conv; [nearg HL|reflexivity|rs|zs|zs]);
       assert (Y : near 17 (-40) 0 y (90 * Delta_cgs ^ 2 * z3)) by (eapply near_conv; [nearg HL|reflexivity|rs|zs|zs]);
       assert (Z : near 17 (-300) 140 z (1350 * (k_cgs * V temp) ^ 2 * z5)) by (eapply near_conv; [nearg HL|reflexivity|rs|zs|zs]);
       pose proof (near_sum3 _ _ _ _ _ _ _ _ _ _ _ _ _ X Y Z ltac:(zs) ltac:(zs) ltac:(zs) ltac:(rs)) as S;
       eapply near_conv; [exact S|reflexivity|rs|zs|zs]|] end.
    eapply near_conv.
    - eapply n_mul; [nearg HL|eapply n_div; [eapply n_mul;
        [eapply n_mul; [eapply n_mul; [eapply n_mul; [exact CG|nearg HL|zs|zs|rs]|exact Hr|zs|zs|rs]|exact CS|zs|zs|rs]|exact S|zs|zs|rs]
        |nearg HL|zs|zs|rs]|zs|zs|rs].
    - unfold brt_JN_R. cbv zeta. fold z5 z3. field. repeat split; try lra.
    - rs.
    - zs.
    - zs.
  Qed.

  (** ** Tophat *)
  (** the difference of two doubles, rounded once *)
  Lemma near_sub x y a b : fin x -> fin y -> bp a <= V x <= bp b -> 0 <= V y -> V y < V x -> (-900 <= a)%Z -> (b <= 900)%Z ->
    near 1 (a - 54) b (@Osub b64 O x y) (V x - V y).
  Proof.
    intros Fx Fy [H1 H2] Hy Hlt Ha Hb. pose proof (bpow_gt_0 radix2 a) as P.
    destruct (gap_abs (V x) (V y) (V_fmt x) (V_fmt y) ltac:(lra)) as [G _].
    rewrite (Rabs_pos_eq (V x)), (Rabs_pos_eq (V y)), Rmax_left, (Rabs_pos_eq (V x - V y)) in G by lra.
    assert (R : bp (a - 54) <= V x - V y <= bp b).
    { split; [|lra]. apply Rle_trans with (2 := G). change (a - 54)%Z with (a + -54)%Z. rewrite bpow_plus.
      apply Rmult_le_compat_r; [apply bpow_ge_0|exact H1]. }
    destruct (sub_V x y b Fx Fy ltac:(lia)) as [E F].
    - pose proof (lt_bpow radix2 a (b + 1)) as K. assert (bp a < bp (b + 1)).
      { rewrite bpow_plus. change (bp 1) with 2. pose proof (bpow_gt_0 radix2 b). lra. }
      specialize (K H). lia.
    - rewrite Rabs_pos_eq; lra.
    - replace 1 with (0 + 1) by lra.
      apply near_round with (V x - V y); try lia; try lra; try assumption;
        rewrite Rmult_0_l, ?Ropp_0, exp_0; lra.
  Qed.
  Lemma double_exact x : physical x -> fin (@Omul b64 O (@OofZ b64 O 2) x) /\ V (@Omul b64 O (@OofZ b64 O 2) x) = 2 * V x.
  Proof.
    intros [Fx [H1 H2]]. fold (V x) in H1, H2.
    assert (H0 : 0 < / 2 ^ 100) by (apply Rinv_0_lt_compat, pow_lt; lra).
    destruct (V_lit 2 0) as [E2 F2]; [vm_compute; reflexivity|lia|lia|]. change (bp 0) with 1 in E2. rewrite Rmult_1_r in E2.
    destruct (mul_V (b64_ldexp 2 0) x 101 F2 Fx ltac:(lia) ltac:(lia)) as [E F].
    - rewrite E2, Rabs_pos_eq by lra. rewrite two_pow_bp in H2. change (Z.of_nat 100) with 100%Z in H2.
      change 101%Z with (1 + 100)%Z. rewrite bpow_plus. change (bp 1) with 2. lra.
    - split; [exact F|]. change (V (Bmult mode_NE (b64_ldexp 2 0) x) = 2 * V x). rewrite E, E2. apply rnd_id.
      replace (2 * V x) with (V x * bp 1) by (change (bp 1) with 2; lra). apply mult_bpow_pos_exact_FLT; [apply V_fmt|lia].
  Qed.
  Lemma near_YeF type Ye : physical Ye -> 0 < Ye_weight type (V Ye) ->
    near 1 (-100) 101 (@tophat_YeF b64 O type Ye) (Ye_weight type (V Ye)).
  Proof.
    intros Hy Hw. unfold tophat_YeF. destruct (double_exact Ye Hy) as [F2 E2].
    assert (H : bp (-100) <= V Ye <= bp 100) by apply (near_in _ Hy). pose proof (bpow_gt_0 radix2 (-100)).
    destruct type; cbn [RadType_eqb Ye_weight] in Hw |- *; try lra.
    - eapply near_conv; [apply (near_exact (-100) 101 _ (2 * V Ye)); [exact F2|exact E2|]|reflexivity|lra|lia|lia].
      change 101%Z with (1 + 100)%Z. rewrite bpow_plus. change (bp 1) with 2. lra.
    - destruct (V_lit 1 0) as [E1 F1]; [vm_compute; reflexivity|lia|lia|]. change (bp 0) with 1 in E1. rewrite Rmult_1_r in E1.
      pose proof (near_sub (b64_ldexp 1 0) (@Omul b64 O (@OofZ b64 O 2) Ye) 0 0 F1 F2) as N.
      rewrite E1, E2 in N. change (bp 0) with 1 in N.
      specialize (N ltac:(lra) ltac:(lra) ltac:(lra) ltac:(lia) ltac:(lia)).
      eapply near_conv; [exact N|reflexivity|lra|lia|lia].
  Qed.
End Fermi.
