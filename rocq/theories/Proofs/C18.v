(** C18. Unit-converting array calls and the caller's frequency bins. *)
From Coq Require Import Reals List ZArith Lra Lia.
From Flocq Require Import IEEE754.BinarySingleNaN.
From Verif Require Import Base.Outcome Base.Ops Inst.ER Inst.ERTac Inst.B64 Model.Constants
  Model.RadTypes Model.PhotonApi Model.GrayPhotons Model.PowerLawPhotons Model.EPBremsPhotons
  Model.NeutrinoApi Model.OpacNeutrinos Model.NonCGSPhotons Model.NonCGSNeutrinos
  Spec.Opacities Spec.Arrays Proofs.ArrayFacts Proofs.C17.
Import ListNotations.
Open Scope R_scope.

Lemma er_mul_comm a b : er_mul a b = er_mul b a.
Proof. destruct a, b; cbn; auto. f_equal. ring. Qed.

Lemma noncgs_converted u out (F G : ER -> result ER) V t :
  bin_by_bin F V -> un_time u = Fin t -> un_freq u = Fin (1 / t) -> (t <> 0)%R ->
  (forall nu, G nu = (v <- F (Omul nu (un_freq u)) ;; Ok (Omul v out))) ->
  converted is_fin G (noncgs_array u out V).
Proof.
  intros HV Ht Hf Ht0 HG nb co n m. split.
  - intros Hn. apply noncgs_array_nonpos with F; assumption.
  - intros Hn H1 H2 Hd Hfin.
    destruct (noncgs_array_spec u out F V HV nb co n m Hn H1 H2 Hd) as [m' [E [L [S X]]]].
    exists m'. split; [exact E|]. split; [exact L|]. split.
    + intros i nu Hi Hnu. destruct (S i nu Hi Hnu) as [[v [Fv Hv]] _].
      eexists. split; [rewrite HG, Fv; reflexivity|exact Hv].
    + intros a Ha. destruct (Nat.lt_ge_cases a nb) as [Hlt|Hge]; [apply X; lia|].
      destruct (Nat.lt_ge_cases a (nb + Z.to_nat n)) as [Hlt|Hge']; [|apply X; lia].
      replace a with (nb + (a - nb))%nat by lia.
      destruct (nth_error m (nb + (a - nb))) as [nu|] eqn:En.
      * destruct (S (a - nb)%nat nu ltac:(lia) En) as [_ R]. rewrite R.
        destruct (Hfin (a - nb)%nat nu ltac:(lia) En) as [r ->].
        rewrite Ht, Hf, !fin_mul. do 2 f_equal. field. assumption.
      * exfalso. apply nth_error_None in En. lia.
Qed.

Lemma mk_units_time t a b c : (t <> 0)%R -> 
  un_freq (mk_units (Fin t) a b c) = Fin (1 / t).
Proof. intros H. unfold mk_units; cbn [un_freq]. rewrite fin_ofZ, fin_div by assumption. reflexivity. Qed.

(** Exact arithmetic, disjoint buffers, finite frequencies, any nonzero time unit
    and any other units: the array overloads of the wrapped photon models return
    the wrapper's scalar results and restore the bins. *)
Lemma C18_disjoint_exact_proof :
  forall pc o, photon_opacity pc o -> forall t mass len temp, t <> 0 ->
  let w := NonCGSUnits pc o (mk_units (Fin t) mass len temp) in
  forall rho T,
  converted is_fin (ph_Absorption w rho T) (ph_Absorption_v w rho T) /\
  converted is_fin (ph_AngleAvgAbsorption w rho T) (ph_AngleAvgAbsorption_v w rho T) /\
  converted is_fin (ph_EmissivityPerNuOmega w rho T) (ph_EmissivityPerNuOmega_v w rho T) /\
  converted is_fin (ph_EmissivityPerNu w rho T) (ph_EmissivityPerNu_v w rho T).
Proof.
  intros pc o Ho t mass len temp Ht w rho T.
  set (u := mk_units (Fin t) mass len temp) in *.
  destruct (C17_photon_arrays_proof ER ER_ops pc o Ho (Omul rho (un_rho u)) (Omul T (un_temp u)))
    as (A1 & A2 & A3 & A4).
  pose proof (mk_units_time t mass len temp Ht) as Hf. fold u in Hf.
  assert (Htt : un_time u = Fin t) by reflexivity.
  split; [|split; [|split]];
    [ apply (noncgs_converted u _ _ _ _ t A1 Htt Hf Ht)
    | apply (noncgs_converted u _ _ _ _ t A2 Htt Hf Ht)
    | apply (noncgs_converted u _ _ _ _ t A3 Htt Hf Ht)
    | apply (noncgs_converted u _ _ _ _ t A4 Htt Hf Ht) ]; try (intros nu; reflexivity).
  intros nu. cbn [ph_Absorption NonCGSUnits w].
  replace (Omul (un_rho u) rho) with (Omul rho (un_rho u)) by apply er_mul_comm.
  replace (Omul (un_temp u) T) with (Omul T (un_temp u)) by apply er_mul_comm.
  reflexivity.
Qed.

Lemma C18_disjoint_exact_neutrinos_proof :
  forall ns pc o, neutrino_opacity ns pc o -> forall t mass len temp, t <> 0 ->
  let w := NuNonCGSUnits pc o (mk_units (Fin t) mass len temp) in
  forall rho T Ye type,
  converted is_fin (nu_Absorption w rho T Ye type) (nu_Absorption_v w rho T Ye type) /\
  converted is_fin (nu_AngleAvgAbsorption w rho T Ye type) (nu_AngleAvgAbsorption_v w rho T Ye type) /\
  converted is_fin (nu_EmissivityPerNuOmega w rho T Ye type) (nu_EmissivityPerNuOmega_v w rho T Ye type) /\
  converted is_fin (nu_EmissivityPerNu w rho T Ye type) (nu_EmissivityPerNu_v w rho T Ye type).
Proof.
  intros ns pc o Ho t mass len temp Ht w rho T Ye ty.
  set (u := mk_units (Fin t) mass len temp) in *.
  destruct (C17_neutrino_arrays_proof ER ER_ops ns pc o Ho (Omul rho (un_rho u)) (Omul T (un_temp u)) Ye ty)
    as (A1 & A2 & A3 & A4).
  pose proof (mk_units_time t mass len temp Ht) as Hf. fold u in Hf.
  assert (Htt : un_time u = Fin t) by reflexivity.
  split; [|split; [|split]];
    [ apply (noncgs_converted u _ _ _ _ t A1 Htt Hf Ht)
    | apply (noncgs_converted u _ _ _ _ t A2 Htt Hf Ht)
    | apply (noncgs_converted u _ _ _ _ t A3 Htt Hf Ht)
    | apply (noncgs_converted u _ _ _ _ t A4 Htt Hf Ht) ]; try (intros nu; reflexivity).
  intros nu. cbn [nu_Absorption NuNonCGSUnits w].
  replace (Omul (un_rho u) rho) with (Omul rho (un_rho u)) by apply er_mul_comm.
  replace (Omul (un_temp u) T) with (Omul T (un_temp u)) by apply er_mul_comm.
  reflexivity.
Qed.

(** Shared buffer: the same wrapped call, with the output buffer equal to the bin
    buffer, returns the scalar result times the time unit. So for a gray opacity
    and every time unit other than 1 the result is wrong. *)
Lemma C18_shared_buffer_refuted_proof :
  forall pc kappa, 0 < kappa -> forall t mass len temp rho T nu,
  0 < t -> t <> 1 -> 0 < mass -> 0 < len -> 0 < temp -> 0 < rho -> 0 < T -> 0 < nu ->
  let w := NonCGSUnits pc (GrayOpacity pc (Fin kappa))
             (mk_units (Fin t) (Fin mass) (Fin len) (Fin temp)) in
  exists v, 0 < v /\
    ph_Absorption w (Fin rho) (Fin T) (Fin nu) = Ok (Fin v) /\
    ph_Absorption_v w (Fin rho) (Fin T) 0%nat 0%nat 1%Z [Fin nu] = Ok [Fin (v * t)] /\
    v * t <> v.
Proof.
  intros pc kap Hkap t mass len temp rho T nu Ht Ht1 Hm Hl Hte Hr HT Hn w.
  exists (mass / (len * len * len) * rho * kap * len).
  assert (Hpos : 0 < mass / (len * len * len) * rho * kap * len) by pos.
  split; [exact Hpos|]. split; [|split].
  - cbn [ph_Absorption NonCGSUnits GrayOpacity w bind mk_units un_rho un_length].
    unfold gray_alpha. er. reflexivity.
  - cbn [ph_Absorption_v NonCGSUnits GrayOpacity w]. unfold noncgs_array, scale_loop, array_loop.
    unfold for_int, for_loop, load, store. change (Z.to_nat 1) with 1%nat.
    cbn -[Omul Odiv OofZ]. unfold gray_alpha. er. do 3 f_equal. ring.
  - intros E. assert (t = 1) by (apply (Rmult_eq_reg_l (mass / (len * len * len) * rho * kap * len)); lra).
    contradiction.
Qed.

(** In IEEE double arithmetic the bins are not restored bit for bit even for
    disjoint buffers: nu = 1 with a time unit of 49 comes back as 1 - 2^-53,
    whatever the math library, the opacity model constants and the other units. *)
Lemma C18_binary64_refuted_proof :
  forall (L : Libm) (pc : PhysConst b64) (kappa mass len temp rho T : b64),
  let O := B64_ops L in
  let w := @NonCGSUnits b64 O pc (@GrayOpacity b64 O pc kappa)
             (@mk_units b64 O (b64_of_Z 49) mass len temp) in
  forall out, exists v,
  @ph_Absorption_v b64 w rho T 0%nat 1%nat 1%Z [b64_of_Z 1; out] =
    Ok [b64_ldexp (2 ^ 53 - 1) (-53); v] /\
  b64_ldexp (2 ^ 53 - 1) (-53) <> b64_of_Z 1.
Proof.
  intros L pc kappa mass len temp rho T O w out.
  eexists. split.
  - cbn [ph_Absorption_v NonCGSUnits GrayOpacity w]. unfold noncgs_array, scale_loop, array_loop.
    unfold for_int, for_loop, load, store. change (Z.to_nat 1) with 1%nat.
    cbn -[Bmult Bdiv b64_of_Z b64_ldexp gray_alpha].
    do 2 f_equal. apply B2SF_inj. vm_compute. reflexivity.
  - intros E. apply (f_equal B2SF) in E. vm_compute in E. discriminate.
Qed.

(** Two bins in exact arithmetic, time unit 49. *)
Lemma C18_example :
  photon_opacity PhysicalConstantsUnity (GrayOpacity PhysicalConstantsUnity (Fin 1)) /\
  (49 <> 0 /\ 49 <> 1) /\ is_fin (Fin 3).
Proof. split; [left; eauto|]. split; [lra|]. eexists; reflexivity. Qed.
