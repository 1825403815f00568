(** The averages of the model as quotients of sums, in binary64. *)
From Coquelicot Require Import Coquelicot.
From Coq Require Import Reals ZArith Lra Lia Bool List.
From Flocq Require Import Core IEEE754.BinarySingleNaN.
From Verif Require Import Base.Outcome Base.Ops Inst.B64 Model.Constants Model.Robust Model.RadTypes Model.MeanUtils Model.MeanPhotons
  Model.MeanNeutrinos Spec.Means Spec.DoublePrecision Spec.DoubleMeans Proofs.ArrayFacts Proofs.B64Facts Proofs.Near Proofs.NearConsts
  Proofs.NearRules Proofs.NearPhotons Proofs.App.
Open Scope R_scope.

Lemma app_conv n e b x r n' e' b' r' : app n e b x r -> r = r' -> n <= n' -> e <= e' -> (b <= b')%Z -> app n' e' b' x r'.
Proof.
  intros H <- Hn He Hb. apply (app_weaken _ _ _ _ _ n' e') in H; [|assumption|assumption].
  destruct H as (F & A & B & [C1 C2] & D). repeat split; try tauto. apply Rle_trans with (bp b); [exact C2|now apply bpow_le].
Qed.
Lemma upto_app k x : upto k x -> app 0 0 (Z.of_nat k) x (V x).
Proof. intros [F H]. apply app_exact; [exact F|]. rewrite two_pow_bp in H. exact H. Qed.

Section Quotients.
  Context (L : Libm).
  Local Notation O := (B64_ops L).

  (** a sum that is not tiny *)
  Lemma near_sum k t f m e b : 0 <= m <= 100 -> INR k <= 500000000 -> 0 <= e <= bp (-800) -> (0 <= b <= 960)%Z ->
    (forall i, (i < k)%nat -> app m e b (t i) (f i)) -> bp (-710) <= rsum k f ->
    near (INR k + m + 1) (-710) (b + 30) (fsum L k t) (rsum k f).
  Proof.
    intros Hm Hk He Hb H HS. pose proof eta_pos as EP. pose proof (pos_INR k) as PK.
    assert (EB : e <= / 1000000000000).
    { apply Rle_trans with (bp (-40)); [apply Rle_trans with (bp (-800)); [lra|apply bpow_le; lia]|].
      change (bp (-40)) with (/ IZR (2 ^ 40)). apply Rinv_le_contravar; [lra|]. simpl. lra. }
    pose proof (fsum_app L k t f m e b ltac:(lra) ltac:(lra) ltac:(lra) EB Hb H) as A.
    replace (INR k + m + 1) with (m + INR k + 1) by ring.
    apply (near_app _ _ (-710) _ _ _ A); [lra|exact HS|].
    destruct (small_exp (INR k) ltac:(split; [lra|apply two40; lra])) as [S1 _].
    apply Rle_trans with (500000000 * (2 * bp (-800)) * 2).
    - assert (eta <= bp (-800)) by (apply bpow_le; lia).
      apply Rmult_le_compat; [apply Rmult_le_pos; lra|apply Rlt_le, exp_pos| |exact S1].
      apply Rmult_le_compat; lra.
    - apply Rle_trans with (bp (-54) * bp (-710)).
      + rewrite <- bpow_plus. apply Rle_trans with (bp 31 * bp (-800)); [|rewrite <- bpow_plus; apply bpow_le; lia].
        pose proof (bpow_gt_0 radix2 (-800)). change (bp 31) with 2147483648. lra.
      + replace (u / 2) with (bp (-54)) by (rewrite u_bpow; unfold Rdiv; change (/ 2) with (bp (-1)); rewrite <- bpow_plus; reflexivity).
        apply Rmult_le_compat_l; [apply bpow_ge_0|exact HS].
  Qed.

  Lemma small_V : fin (@SMALL b64 O) /\ V (@SMALL b64 O) = 5 * bp (-1021).
  Proof.
    assert (E : B2SF (@SMALL b64 O) = SpecFloat.S754_finite false 5629499534213120 (-1071)) by (vm_compute; reflexivity).
    destruct (frac_value _ _ _ E) as [Ft Vt]. split; [exact Ft|].
    rewrite Vt. cbn [Z.ltb Z.compare]. change (- -1071)%Z with 1071%Z. rewrite bp_neg by reflexivity.
    change (- -1021)%Z with 1021%Z. replace (2 ^ 1071)%Z with (2 ^ 50 * 2 ^ 1021)%Z by (vm_compute; reflexivity).
    rewrite mult_IZR. change (2 ^ 50)%Z with 1125899906842624%Z.
    assert (0 < IZR (2 ^ 1021)) by (apply IZR_lt; reflexivity). field. lra.
  Qed.
  Lemma above_small n a b x r : near n a b x r -> (-1000 <= a)%Z -> n <= 1000000000000 -> @Ogtb b64 O x (@SMALL b64 O) = true.
  Proof.
    intros N Ha Hn. destruct small_V as [F E]. pose proof N as (Fx & H0 & [R1 _] & [R2 _]).
    destruct (small_exp n (conj H0 (two40 n Hn))) as [_ S2].
    unfold Ogtb. change (Bltb (@SMALL b64 O) x = true). rewrite Bltb_correct; [|exact F|exact Fx].
    apply Rlt_bool_true. change (B2R (@SMALL b64 O)) with (V (@SMALL b64 O)). rewrite E. change (B2R x) with (V x).
    apply Rlt_le_trans with (bp a * / 2).
    - apply Rlt_le_trans with (bp (-1001)); [|change (/ 2) with (bp (-1)); rewrite <- bpow_plus; apply bpow_le; lia].
      change (-1001)%Z with (20 + -1021)%Z. rewrite bpow_plus. pose proof (bpow_gt_0 radix2 (-1021)). change (bp 20) with 1048576. lra.
    - apply Rle_trans with (r * exp (- (n * w))); [|exact R2]. pose proof (bpow_gt_0 radix2 a). apply Rmult_le_compat; lra.
  Qed.

  Lemma rsum_ext k f g : (forall i, (i < k)%nat -> f i = g i) -> rsum k f = rsum k g.
  Proof. induction k as [|k IH]; intros H; [reflexivity|]. cbn [rsum]. rewrite IH by (intros; apply H; lia). now rewrite H by lia. Qed.
  Lemma rsum_mono k f g : (forall i, (i < k)%nat -> f i <= g i) -> rsum k f <= rsum k g.
  Proof. induction k as [|k IH]; intros H; [simpl; lra|]. cbn [rsum]. apply Rplus_le_compat; [apply IH; intros; apply H; lia|apply H; lia]. Qed.
  Lemma rsum_scal k c f : rsum k (fun i => c * f i) = c * rsum k f.
  Proof. induction k as [|k IH]; [simpl; ring|]. cbn [rsum]. rewrite IH. ring. Qed.
  Lemma rsum_between k (r kap : nat -> R) lo hi : (forall i, (i < k)%nat -> 0 <= r i /\ lo <= kap i <= hi) ->
    lo * rsum k r <= rsum k (fun i => kap i * r i) <= hi * rsum k r.
  Proof. intros H. rewrite <- !rsum_scal. split; apply rsum_mono; intros i Hi; destruct (H i Hi) as (A & B & C); apply Rmult_le_compat_r; assumption. Qed.

  Lemma heavy_bp k r : heavy k r -> bp (-500) <= rsum k r.
  Proof. unfold heavy. rewrite two_pow_bp. change (Z.of_nat 500) with 500%Z. change (-500)%Z with (- (500))%Z. rewrite bpow_opp. tauto. Qed.

  (** the quotient of two sums whose terms have a bounded quotient *)
  Lemma near_quotient k s t (r kap : nat -> R) m1 m2 e b1 b2 :
    0 <= m1 <= 100 -> 0 <= m2 <= 100 -> INR k <= 500000000 -> 0 <= e <= bp (-800) -> (0 <= b1 <= 960)%Z -> (0 <= b2 <= 960)%Z ->
    (forall i, (i < k)%nat -> 0 <= r i /\ bp (-200) <= kap i <= bp 200) -> heavy k r ->
    (forall i, (i < k)%nat -> app m1 e b1 (s i) (kap i * r i)) -> (forall i, (i < k)%nat -> app m2 e b2 (t i) (r i)) ->
    let S := rsum k (fun i => kap i * r i) in
    near (INR k + m1 + 1) (-710) (b1 + 30) (fsum L k s) S /\ near (INR k + m2 + 1) (-710) (b2 + 30) (fsum L k t) (rsum k r) /\
    near (2 * INR k + m1 + m2 + 5) (-1000) 1000 (@ratio b64 O (fsum L k s) (fsum L k t)) (S / rsum k r) /\
    near (2 * INR k + m1 + m2 + 5) (-1000) 1000 (@ratio b64 O (fsum L k t) (fsum L k s)) (rsum k r / S).
  Proof.
    intros Hm1 Hm2 Hk He Hb1 Hb2 Hr HW Hs Ht S. apply heavy_bp in HW. pose proof (bpow_gt_0 radix2 (-500)) as P5.
    destruct (rsum_between k r kap _ _ Hr) as [B1 B2]. fold S in B1, B2.
    assert (BS : bp (-700) <= S).
    { apply Rle_trans with (bp (-200) * rsum k r); [|exact B1]. change (-700)%Z with (-200 + -500)%Z. rewrite bpow_plus.
      apply Rmult_le_compat_l; [apply bpow_ge_0|exact HW]. }
    pose proof (bpow_gt_0 radix2 (-700)) as P7.
    assert (N1 : near (INR k + m1 + 1) (-710) (b1 + 30) (fsum L k s) S).
    { apply (near_sum k s _ m1 e b1); try assumption. apply Rle_trans with (bp (-700)); [apply bpow_le; lia|exact BS]. }
    assert (N2 : near (INR k + m2 + 1) (-710) (b2 + 30) (fsum L k t) (rsum k r)).
    { apply (near_sum k t _ m2 e b2); try assumption. apply Rle_trans with (bp (-500)); [apply bpow_le; lia|exact HW]. }
    assert (Q1 : bp (-200) <= S / rsum k r <= bp 200).
    { split; [apply Rmult_le_reg_r with (rsum k r)|apply Rmult_le_reg_r with (rsum k r)]; try lra;
        unfold Rdiv; rewrite Rmult_assoc, Rinv_l, Rmult_1_r; lra. }
    assert (Q2 : bp (-200) <= rsum k r / S <= bp 200).
    { replace (rsum k r / S) with (/ (S / rsum k r)) by (field; lra).
      pose proof (bpow_gt_0 radix2 (-200)). change (bp (-200)) with (/ bp 200) at 1. replace (bp 200) with (/ bp (-200)) at 2 by (rewrite <- bpow_opp; reflexivity).
      split; apply Rinv_le_contravar; lra. }
    assert (W1 : / 2 ^ 1000 <= bp (-200)).
    { rewrite two_pow_bp. change (Z.of_nat 1000) with 1000%Z. rewrite <- bpow_opp. apply bpow_le. lia. }
    assert (W2 : bp 200 <= 2 ^ 1000) by (rewrite two_pow_bp; apply bpow_le; lia).
    assert (C1 : near (INR k + m1 + 1) (-900) (b1 + 30) (fsum L k s) S) by (apply (near_conv _ _ _ _ _ _ _ _ _ N1); [reflexivity|lra|lia|lia]).
    assert (C2 : near (INR k + m2 + 1) (-900) (b2 + 30) (fsum L k t) (rsum k r)) by (apply (near_conv _ _ _ _ _ _ _ _ _ N2); [reflexivity|lra|lia|lia]).
    split; [exact N1|]. split; [exact N2|].
    split; (eapply near_conv; [eapply near_ratio; [first [exact N1|exact N2]|first [exact C1|exact C2]|lia|lra|lra|lra]|reflexivity|lra|lia|lia]).
  Qed.

  (** ** Terms *)
  Ltac am := lazymatch goal with
    | |- app _ _ _ (Omul _ _) _ => eapply app_mul; [am|am| | | | |]
    | |- _ => first [eassumption | apply upto_app; eassumption]
    end.
  Definition e_small : R := bp (-850).
  Lemma e_small_ok : 0 <= e_small <= bp (-800).
  Proof. split; [apply bpow_ge_0|apply bpow_le; lia]. Qed.
  Lemma eta_le : 0 < eta <= bp (-1075). Proof. split; [apply eta_pos|apply Rle_refl]. Qed.

  (** weight times d *)
  Lemma term2 (B d : b64) : upto 400 B -> upto 200 d -> app 1 e_small 600 (@Omul b64 O B d) (V B * V d).
  Proof.
    intros HB Hd. apply upto_app in HB, Hd. pose proof eta_le.
    eapply app_conv; [apply (app_mul _ _ _ _ _ _ _ _ _ HB Hd); [lra|lra|lia|lia|lia]|reflexivity|lra| |lia].
    apply Rle_trans with (bp (-1075)); [lra|apply bpow_le; lia].
  Qed.
  Lemma term3 n (q B d : b64) kap : 0 <= n <= 10 -> near n (-200) 200 q kap -> upto 400 B -> upto 200 d ->
    app (n + 2) e_small 800 (@Omul b64 O (@Omul b64 O q B) d) (kap * (V B * V d)).
  Proof.
    intros Hn Hq HB Hd. apply upto_app in HB, Hd. apply app_near in Hq. pose proof eta_le as E.
    assert (E1 : eta <= 1) by (apply Rle_trans with (bp (-1075)); [lra|change 1 with (bp 0); apply bpow_le; lia]).
    pose proof (app_mul _ _ _ _ _ _ _ _ _ Hq HB ltac:(lra) ltac:(lra) ltac:(lia) ltac:(lia) ltac:(lia)) as A.
    rewrite Rmult_0_r, Rmult_0_l, Rplus_0_l in A.
    pose proof (app_mul _ _ _ _ _ _ _ _ _ A Hd ltac:(lra) ltac:(lra) ltac:(lia) ltac:(lia) ltac:(lia)) as B'.
    eapply app_conv; [exact B'|ring|lra| |lia].
    apply Rle_trans with (5 * (eta * bp (Z.of_nat 200))).
    - assert (eta <= eta * bp (Z.of_nat 200)); [|lra]. rewrite <- (Rmult_1_r eta) at 1. apply Rmult_le_compat_l; [lra|]. change 1 with (bp 0). apply bpow_le. lia.
    - unfold eta, e_small. rewrite <- bpow_plus. apply Rle_trans with (bp 3 * bp (-1075 + Z.of_nat 200)); [|rewrite <- bpow_plus; apply bpow_le; lia].
      change (bp 3) with 8. pose proof (bpow_gt_0 radix2 (-1075 + Z.of_nat 200)). lra.
  Qed.
  (** weight times nu times d(log nu), as for neutrinos *)
  Lemma term3' (B n d : b64) : upto 400 B -> upto 100 n -> upto 100 d -> app 2 e_small 600 (@Omul b64 O (@Omul b64 O B n) d) (V B * V n * V d).
  Proof.
    intros HB Hn Hd. apply upto_app in HB, Hn, Hd. pose proof eta_le as E.
    assert (E1 : eta <= 1) by (apply Rle_trans with (bp (-1075)); [lra|change 1 with (bp 0); apply bpow_le; lia]).
    pose proof (app_mul _ _ _ _ _ _ _ _ _ HB Hn ltac:(lra) ltac:(lra) ltac:(lia) ltac:(lia) ltac:(lia)) as A.
    rewrite Rmult_0_r, Rmult_0_l, Rplus_0_l in A.
    pose proof (app_mul _ _ _ _ _ _ _ _ _ A Hd ltac:(lra) ltac:(lra) ltac:(lia) ltac:(lia) ltac:(lia)) as B'.
    eapply app_conv; [exact B'|ring|lra| |lia].
    apply Rle_trans with (5 * (eta * bp (Z.of_nat 100))).
    - assert (eta <= eta * bp (Z.of_nat 100)); [|lra]. rewrite <- (Rmult_1_r eta) at 1. apply Rmult_le_compat_l; [lra|]. change 1 with (bp 0). apply bpow_le. lia.
    - unfold eta, e_small. rewrite <- bpow_plus. apply Rle_trans with (bp 3 * bp (-1075 + Z.of_nat 100)); [|rewrite <- bpow_plus; apply bpow_le; lia].
      change (bp 3) with 8. pose proof (bpow_gt_0 radix2 (-1075 + Z.of_nat 100)). lra.
  Qed.
  Lemma term4 m (q B n d : b64) kap : 0 <= m <= 10 -> near m (-200) 200 q kap -> upto 400 B -> upto 100 n -> upto 100 d ->
    app (m + 3) e_small 800 (@Omul b64 O (@Omul b64 O (@Omul b64 O q B) n) d) (kap * (V B * V n * V d)).
  Proof.
    intros Hm Hq HB Hn Hd. apply upto_app in HB, Hn, Hd. apply app_near in Hq. pose proof eta_le as E.
    assert (E1 : eta <= 1) by (apply Rle_trans with (bp (-1075)); [lra|change 1 with (bp 0); apply bpow_le; lia]).
    pose proof (app_mul _ _ _ _ _ _ _ _ _ Hq HB ltac:(lra) ltac:(lra) ltac:(lia) ltac:(lia) ltac:(lia)) as A.
    rewrite Rmult_0_r, Rmult_0_l, Rplus_0_l in A.
    pose proof (app_mul _ _ _ _ _ _ _ _ _ A Hn ltac:(lra) ltac:(lra) ltac:(lia) ltac:(lia) ltac:(lia)) as B'.
    assert (H5 : 4 * eta * bp (Z.of_nat 100) + eta <= bp (-960)).
    { apply Rle_trans with (5 * (eta * bp (Z.of_nat 100))).
      - assert (eta <= eta * bp (Z.of_nat 100)); [|lra]. rewrite <- (Rmult_1_r eta) at 1. apply Rmult_le_compat_l; [lra|]. change 1 with (bp 0). apply bpow_le. lia.
      - unfold eta. rewrite <- bpow_plus. apply Rle_trans with (bp 3 * bp (-1075 + Z.of_nat 100)); [|rewrite <- bpow_plus; apply bpow_le; lia].
        change (bp 3) with 8. pose proof (bpow_gt_0 radix2 (-1075 + Z.of_nat 100)). lra. }
    assert (B1 : bp (-960) <= 1) by (change 1 with (bp 0); apply bpow_le; lia).
    pose proof (app_weaken _ _ _ _ _ _ _ B' (Rle_refl _) H5) as C.
    pose proof (app_mul _ _ _ _ _ _ _ _ _ C Hd ltac:(lra) B1 ltac:(lia) ltac:(lia) ltac:(lia)) as D.
    eapply app_conv; [exact D|ring|lra| |lia].
    apply Rle_trans with (5 * (bp (-960) * bp (Z.of_nat 100))).
    - assert (eta <= bp (-960) * bp (Z.of_nat 100)); [|lra]. rewrite <- bpow_plus. apply bpow_le. lia.
    - unfold e_small. rewrite <- bpow_plus. change (-960 + Z.of_nat 100)%Z with (-860)%Z.
      apply Rle_trans with (bp 3 * bp (-860)); [change (bp 3) with 8; pose proof (bpow_gt_0 radix2 (-860)); lra|]. rewrite <- bpow_plus.
      apply bpow_le. lia.
  Qed.

  (** ** Quotients of physical numbers *)
  Lemma quot_near a b : physical a -> physical b -> near 1 (-200) 200 (@Odiv b64 O a b) (V a / V b).
  Proof.
    intros Ha Hb. apply near_in in Ha, Hb.
    eapply near_conv; [apply (n_div L _ _ _ _ _ _ _ _ _ _ Ha Hb); [lia|lia|cbn [pow]; lra]|reflexivity|lra|lia|lia].
  Qed.
  Lemma guarded_near a b : physical a -> physical b -> near 3 (-200) 200 (@ratio b64 O a b) (V a / V b).
  Proof.
    intros Ha Hb. pose proof (quot_near a b Ha Hb) as (_ & _ & R & _). apply near_in in Ha, Hb.
    assert (W1 : / 2 ^ 1000 <= bp (-200)).
    { rewrite two_pow_bp. change (Z.of_nat 1000) with 1000%Z. rewrite <- bpow_opp. apply bpow_le. lia. }
    assert (W2 : bp 200 <= 2 ^ 1000) by (rewrite two_pow_bp; apply bpow_le; lia).
    assert (Hb' : near 0 (-900) 100 b (V b)) by (apply (near_conv _ _ _ _ _ _ _ _ _ Hb); [reflexivity|lra|lia|lia]).
    pose proof (near_ratio L _ _ _ _ _ _ _ _ _ Ha Hb' ltac:(lia) ltac:(lra) ltac:(lra) ltac:(lra)) as N.
    apply (near_weaken _ _ _ _ _ _ _ _ N); [lra|exact R].
  Qed.
  Lemma quot_range a b : physical a -> physical b -> bp (-200) <= V a / V b <= bp 200.
  Proof. intros Ha Hb. apply (quot_near a b Ha Hb). Qed.
  Lemma physical_above a : physical a -> @Ogtb b64 O a (@SMALL b64 O) = true.
  Proof. intros Ha. apply (above_small 0 (-100) 100 a (V a)); [now apply near_in|lia|lra]. Qed.
  Lemma physical_V a : physical a -> 0 < V a.
  Proof. intros H. apply (near_pos _ _ _ _ _ (near_in a H)). Qed.

  Lemma mean_within k m1 m2 x r : INR k <= 500000000 -> 0 <= m1 + m2 <= 8 -> near (2 * INR k + m1 + m2 + 5) (-1000) 1000 x r ->
    within (mean_roundings k) x r.
  Proof.
    intros Hk Hm N. pose proof (pos_INR k). apply (near_within _ _ _ _ _ _ N); [unfold mean_roundings; lra|apply two40; lra].
  Qed.

  (** ** Photons *)
  Section Photon.
    Context (pc : PhysConst b64) (coef : b64 -> b64 -> b64 -> result b64) (rho temp lo hi : b64) (N : Z).
    Local Notation n := (Z.to_nat N).
    Local Notation win := (@sample_window b64 O pc temp lo hi).
    Local Notation dl := (@sample_dlnu b64 O win N).
    Local Notation nu := (@sample_nu b64 O win N).
    Local Notation d := (fun i => @Omul b64 O (nu i) dl).
    Local Notation B := (fun i => fst (@ThermalWeightsAtNu b64 O pc temp (nu i))).
    Local Notation D := (fun i => snd (@ThermalWeightsAtNu b64 O pc temp (nu i))).

    Lemma denoms_sum : @group_denoms b64 O pc temp lo hi N =
      Ok (fsum L n (fun i => @Omul b64 O (B i) (d i)), fsum L n (fun i => @Omul b64 O (D i) (d i))).
    Proof.
      unfold group_denoms, ForEachGroupFrequencySample, for_int.
      match goal with |- for_loop ?k ?body ?s0 = _ => destruct (for_loop_inv (fun i s =>
        s = (fsum L i (fun i => @Omul b64 O (B i) (d i)), fsum L i (fun i => @Omul b64 O (D i) (d i)))) k body s0) as (s' & E & ->) end.
      - reflexivity.
      - intros i s _ ->. eexists. split; reflexivity.
      - exact E.
    Qed.

    Context (alpha : nat -> b64) (Hrho : physical rho).
    Hypothesis HC : forall i, (i < n)%nat -> coef rho temp (nu i) = Ok (alpha i) /\ physical (alpha i).

    Lemma nums_sum : @group_nums b64 O pc coef rho temp lo hi N =
      Ok (fsum L n (fun i => @Omul b64 O (@Omul b64 O (@Odiv b64 O (alpha i) rho) (B i)) (d i)),
          fsum L n (fun i => @Omul b64 O (@Omul b64 O (@ratio b64 O rho (alpha i)) (D i)) (d i))).
    Proof.
      unfold group_nums, ForEachGroupFrequencySample, for_int.
      match goal with |- for_loop ?k ?body ?s0 = _ => destruct (for_loop_inv (fun i s =>
        s = (fsum L i (fun i => @Omul b64 O (@Omul b64 O (@Odiv b64 O (alpha i) rho) (B i)) (d i)),
             fsum L i (fun i => @Omul b64 O (@Omul b64 O (@ratio b64 O rho (alpha i)) (D i)) (d i)))) k body s0) as (s' & E & ->) end.
      - reflexivity.
      - intros i s Hi ->. destruct (HC i Hi) as [E P]. cbv zeta. rewrite E. unfold bind. rewrite (physical_above _ P).
        eexists. split; reflexivity.
      - exact E.
    Qed.

    Hypothesis HN : INR n <= 500000000.
    Hypothesis HW : forall i, (i < n)%nat -> upto 400 (B i) /\ upto 400 (D i) /\ upto 200 (d i).
    Definition rB i := V (B i) * V (d i).
    Definition rD i := V (D i) * V (d i).
    Hypothesis HB : heavy n rB.
    Hypothesis HD : heavy n rD.

    Lemma photon_means : exists nn dd,
      @group_nums b64 O pc coef rho temp lo hi N = Ok nn /\ @group_denoms b64 O pc temp lo hi N = Ok dd /\
      within (mean_roundings n) (@planck_mean b64 O (fst nn) (fst dd)) (arithmetic_mean n rB (fun i => V (alpha i) / V rho)) /\
      within (mean_roundings n) (@rosseland_mean b64 O (snd nn) (snd dd)) (harmonic_mean n rD (fun i => V (alpha i) / V rho)).
    Proof.
      eexists. eexists. split; [apply nums_sum|]. split; [apply denoms_sum|]. cbn [fst snd].
      pose proof e_small_ok as HE.
      assert (PB : forall i, (i < n)%nat -> 0 <= rB i /\ 0 <= rD i).
      { intros i Hi. destruct (HW i Hi) as ((_ & A & _) & (_ & A2 & _) & (_ & A3 & _)). unfold rB, rD, V.
        split; apply Rmult_le_pos; assumption. }
      split.
      - destruct (near_quotient n (fun i => @Omul b64 O (@Omul b64 O (@Odiv b64 O (alpha i) rho) (B i)) (d i)) (fun i => @Omul b64 O (B i) (d i))
          rB (fun i => V (alpha i) / V rho) 3 1 e_small 800 600) as (_ & _ & Q & _); try lra; try lia; try exact HB.
        + intros i Hi. split; [now apply PB|]. apply quot_range; [apply (HC i Hi)|exact Hrho].
        + intros i Hi. destruct (HW i Hi) as (W1 & _ & W3). replace 3 with (1 + 2) by ring.
          apply term3; [lra|apply quot_near; [apply (HC i Hi)|exact Hrho]|exact W1|exact W3].
        + intros i Hi. destruct (HW i Hi) as (W1 & _ & W3). now apply term2.
        + apply (mean_within n 3 1); [exact HN|lra|exact Q].
      - destruct (near_quotient n (fun i => @Omul b64 O (@Omul b64 O (@ratio b64 O rho (alpha i)) (D i)) (d i)) (fun i => @Omul b64 O (D i) (d i))
          rD (fun i => V rho / V (alpha i)) 5 1 e_small 800 600) as (A1 & A2 & _ & Q); try lra; try lia; try exact HD.
        + intros i Hi. split; [now apply PB|]. apply quot_range; [exact Hrho|apply (HC i Hi)].
        + intros i Hi. destruct (HW i Hi) as (_ & W1 & W3). replace 5 with (3 + 2) by ring.
          apply term3; [lra|apply guarded_near; [exact Hrho|apply (HC i Hi)]|exact W1|exact W3].
        + intros i Hi. destruct (HW i Hi) as (_ & W1 & W3). now apply term2.
        + unfold rosseland_mean. rewrite (above_small _ _ _ _ _ A2), (above_small _ _ _ _ _ A1) by (lra || lia). cbn [andb].
          replace (harmonic_mean n rD (fun i => V (alpha i) / V rho)) with (rsum n rD / rsum n (fun i => V rho / V (alpha i) * rD i)).
          * apply (mean_within n 5 1); [exact HN|lra|exact Q].
          * unfold harmonic_mean. f_equal. apply rsum_ext. intros i Hi. pose proof (physical_V _ (proj2 (HC i Hi))).
            pose proof (physical_V _ Hrho). field. lra.
    Qed.
  End Photon.

  (** ** Neutrinos *)
  Section Neutrino.
    Context (coef : b64 -> b64 -> b64 -> RadiationType -> b64 -> result b64) (dist ddist : b64 -> RadiationType -> b64 -> result b64)
            (rho temp Ye : b64) (type : RadiationType) (lo dl : b64) (N : Z).
    Local Notation n := (Z.to_nat N).
    Local Notation nu := (fun i => @FromLog b64 O (@Oadd b64 O lo (@Omul b64 O (@Oadd b64 O (@OofZ b64 O (Z.of_nat i)) (@Odec b64 O 5 (-1))) dl))).
    Context (alpha B D : nat -> b64) (Hrho : physical rho).
    Hypothesis HC : forall i, (i < n)%nat -> coef rho temp Ye type (nu i) = Ok (alpha i) /\ physical (alpha i).
    Hypothesis HBD : forall i, (i < n)%nat -> dist temp type (nu i) = Ok (B i) /\ ddist temp type (nu i) = Ok (D i).
    Local Notation tp i := (@Omul b64 O (@Omul b64 O (@Omul b64 O (@Odiv b64 O (alpha i) rho) (B i)) (nu i)) dl).
    Local Notation tq i := (@Omul b64 O (@Omul b64 O (B i) (nu i)) dl).
    Local Notation tr i := (@Omul b64 O (@Omul b64 O (@Omul b64 O (@ratio b64 O rho (alpha i)) (D i)) (nu i)) dl).
    Local Notation ts i := (@Omul b64 O (@Omul b64 O (D i) (nu i)) dl).

    Lemma nu_sums : for_int N (@nu_step b64 O coef dist ddist rho temp Ye type lo dl) (@zero_sums b64 O) =
      Ok {| s_pn := fsum L n (fun i => tp i); s_pd := fsum L n (fun i => tq i);
            s_rn := fsum L n (fun i => tr i); s_rd := fsum L n (fun i => ts i) |}.
    Proof.
      unfold for_int.
      match goal with |- for_loop ?k ?body ?s0 = _ => destruct (for_loop_inv (fun j s =>
        s = {| s_pn := fsum L j (fun i => tp i); s_pd := fsum L j (fun i => tq i);
               s_rn := fsum L j (fun i => tr i); s_rd := fsum L j (fun i => ts i) |}) k body s0) as (s' & E & ->) end.
      - reflexivity.
      - intros i s Hi ->. destruct (HC i Hi) as [E P]. destruct (HBD i Hi) as [E1 E2]. unfold nu_step. cbv zeta.
        rewrite E. unfold bind. rewrite E1, E2. rewrite (physical_above _ P). eexists. split; reflexivity.
      - exact E.
    Qed.

    Hypothesis HN : INR n <= 500000000.
    Hypothesis HW : forall i, (i < n)%nat -> upto 400 (B i) /\ upto 400 (D i) /\ upto 100 (nu i).
    Hypothesis Hd : upto 100 dl.
    Definition qB i := V (B i) * V (nu i) * V dl.
    Definition qD i := V (D i) * V (nu i) * V dl.
    Hypothesis HB : heavy n qB.
    Hypothesis HD : heavy n qD.

    Lemma neutrino_means : exists a,
      for_int N (@nu_step b64 O coef dist ddist rho temp Ye type lo dl) (@zero_sums b64 O) = Ok a /\
      within (mean_roundings n) (fst (@nu_means b64 O a)) (arithmetic_mean n qB (fun i => V (alpha i) / V rho)) /\
      within (mean_roundings n) (snd (@nu_means b64 O a)) (harmonic_mean n qD (fun i => V (alpha i) / V rho)).
    Proof.
      eexists. split; [apply nu_sums|]. unfold nu_means. cbn [fst snd s_pn s_pd s_rn s_rd].
      pose proof e_small_ok as HE.
      assert (PB : forall i, (i < n)%nat -> 0 <= qB i /\ 0 <= qD i).
      { intros i Hi. destruct (HW i Hi) as ((_ & A & _) & (_ & A2 & _) & (_ & A3 & _)). destruct Hd as (_ & A4 & _).
        unfold qB, qD, V. split; repeat apply Rmult_le_pos; assumption. }
      destruct (near_quotient n (fun i => tp i) (fun i => tq i)
          qB (fun i => V (alpha i) / V rho) 4 2 e_small 800 600) as (_ & _ & Q & _); try lra; try lia; try exact HB.
      { intros i Hi. split; [now apply PB|]. apply quot_range; [apply (HC i Hi)|exact Hrho]. }
      { intros i Hi. destruct (HW i Hi) as (W1 & _ & W3). replace 4 with (1 + 3) by ring.
        apply term4; [lra|apply quot_near; [apply (HC i Hi)|exact Hrho]|exact W1|exact W3|exact Hd]. }
      { intros i Hi. destruct (HW i Hi) as (W1 & _ & W3). now apply term3'. }
      split; [apply (mean_within n 4 2); [exact HN|lra|exact Q]|].
      assert (K : @Ogtb b64 O (@ratio b64 O (fsum L n (fun i => tp i)) (fsum L n (fun i => tq i))) (@SMALL b64 O) = true).
      { apply (above_small _ _ _ _ _ Q); [lia|lra]. }
      rewrite K. cbn [andb].
      destruct (near_quotient n (fun i => tr i) (fun i => ts i)
          qD (fun i => V rho / V (alpha i)) 6 2 e_small 800 600) as (A1 & A2 & _ & Q2); try lra; try lia; try exact HD.
      { intros i Hi. split; [now apply PB|]. apply quot_range; [exact Hrho|apply (HC i Hi)]. }
      { intros i Hi. destruct (HW i Hi) as (_ & W1 & W3). replace 6 with (3 + 3) by ring.
        apply term4; [lra|apply guarded_near; [exact Hrho|apply (HC i Hi)]|exact W1|exact W3|exact Hd]. }
      { intros i Hi. destruct (HW i Hi) as (_ & W1 & W3). now apply term3'. }
      rewrite (above_small _ _ _ _ _ A1) by (lra || lia).
      replace (harmonic_mean n qD (fun i => V (alpha i) / V rho)) with (rsum n qD / rsum n (fun i => V rho / V (alpha i) * qD i)).
      - apply (mean_within n 6 2); [exact HN|lra|exact Q2].
      - unfold harmonic_mean. f_equal. apply rsum_ext. intros i Hi. pose proof (physical_V _ (proj2 (HC i Hi))).
        pose proof (physical_V _ Hrho). field. lra.
    Qed.
  End Neutrino.
End Quotients.
