(** When the averaging constructors succeed. *)
From Coq Require Import ZArith List Lia Bool.
From Verif Require Import Base.Outcome Base.Ops Model.Constants Model.Robust Model.RadTypes Model.Spiner Model.MeanUtils
  Model.MeanPhotons Model.MeanNeutrinos Proofs.ArrayFacts Proofs.GroupFacts Proofs.FillFacts Proofs.MeanFacts.
Import ListNotations.

Lemma for_int_inv {S} (P : S -> Prop) (n : Z) (body : nat -> S -> result S) s :
  P s -> (forall i s, (Z.of_nat i < n)%Z -> P s -> exists s', body i s = Ok s' /\ P s') -> exists s', for_int n body s = Ok s' /\ P s'.
Proof.
  intros H0 H. unfold for_int. apply (for_loop_inv (fun _ => P)); [exact H0|]. intros i s' Hi. apply H. lia.
Qed.

Lemma set_flat_in {T} (d : list T) (i : Z) v : (0 <= i < Z.of_nat (length d))%Z -> exists d', set_flat d i v = Ok d' /\ length d' = length d.
Proof.
  intros H. unfold set_flat. destruct (Z.ltb_spec i 0); [lia|]. unfold store. destruct (Nat.ltb_spec (Z.to_nat i) (length d)); [|lia].
  eexists. split; [reflexivity|apply upd_length].
Qed.

Section Photons.
  Context {T : Type} {O : Ops T} (pc : PhysConst T) (coef : T -> T -> T -> result T).

  Lemma MeanImpl_ok dbg opc lr0 lr1 NRho lt0 lt1 NT gb ng N gT gRho :
    dbg && negb (RuntimePC_eqb (RuntimePC_of pc) opc) = false -> (2 <= N)%Z -> ValidateGroupBounds gb ng = Ok tt ->
    mk_grid lt0 lt1 NT = Ok gT -> mk_grid lr0 lr1 NRho = Ok gRho ->
    (forall a b c lo hi, (Z.of_nat a < NRho)%Z -> (Z.of_nat b < NT)%Z -> (Z.of_nat c < ng)%Z ->
       nth_error gb c = Some lo -> nth_error gb (S c) = Some hi ->
       exists n d, group_nums pc coef (FromLog (g_x gRho (Z.of_nat a))) (FromLog (g_x gT (Z.of_nat b))) lo hi N = Ok n /\
         group_denoms pc (FromLog (g_x gT (Z.of_nat b))) lo hi N = Ok d /\
         Oisnan (ToLog (planck_mean (fst n) (fst d))) = false /\ Oisnan (ToLog (rosseland_mean (snd n) (snd d))) = false) ->
    (0 < NRho)%Z ->
    exists m, MeanImpl pc dbg opc coef lr0 lr1 NRho lt0 lt1 NT gb ng N = Ok m.
  Proof.
    intros H0 HN HV GT GR HC PR. destruct (Validate_length gb ng HV) as [P1 P2].
    assert (AT : forall g, (Z.of_nat g < ng)%Z -> exists lo hi, nth_error gb g = Some lo /\ nth_error gb (S g) = Some hi /\
      GroupBoundAt gb (Z.of_nat g) = Ok lo /\ GroupBoundAt gb (Z.of_nat g + 1) = Ok hi).
    { intros g Hg. destruct (nth_error gb g) as [lo|] eqn:E1; [|apply nth_error_None in E1; lia].
      destruct (nth_error gb (S g)) as [hi|] eqn:E2; [|apply nth_error_None in E2; lia].
      exists lo, hi. split; [reflexivity|]. split; [reflexivity|]. unfold GroupBoundAt, load.
      destruct (Z.ltb_spec (Z.of_nat g) 0); [lia|]. destruct (Z.ltb_spec (Z.of_nat g + 1) 0); [lia|].
      rewrite Nat2Z.id, E1. replace (Z.to_nat (Z.of_nat g + 1)) with (S g) by lia. now rewrite E2. }
    unfold MeanImpl. rewrite H0. destruct (Z.ltb_spec N 2); [lia|]. rewrite HV. cbn [bind].
    rewrite Set_spec by lia. cbn [bind]. rewrite GT. cbn [bind]. rewrite GR. cbn [bind].
    set (len := Z.to_nat (NRho * NT * ng)).
    assert (F : exists st, fill_tables pc coef gb gRho gT NRho NT ng N (repeat (#0)%o len, repeat (#0)%o len) = Ok st /\ length (fst st) = len /\ length (snd st) = len).
    { unfold fill_tables. apply for_int_inv; [cbn; now rewrite repeat_length|].
      intros b st Hb Hst. cbv zeta.
      assert (DN : exists ds, for_int ng (fun g ds => nuMin <- GroupBoundAt gb (Z.of_nat g) ;; nuMax <- GroupBoundAt gb (Z.of_nat g + 1) ;;
          d <- group_denoms pc (FromLog (g_x gT (Z.of_nat b))) nuMin nuMax N ;; Ok (ds ++ [d])) [] = Ok ds).
      { edestruct (for_int_inv (fun _ => True) ng (fun g ds => nuMin <- GroupBoundAt gb (Z.of_nat g) ;; nuMax <- GroupBoundAt gb (Z.of_nat g + 1) ;;
          d <- group_denoms pc (FromLog (g_x gT (Z.of_nat b))) nuMin nuMax N ;; Ok (ds ++ [d])) []) as (ds & E & _); [exact I| |now exists ds].
        intros g ds Hg _. destruct (AT g Hg) as (lo & hi & N1 & N2 & E1 & E2). rewrite E1. cbn [bind]. rewrite E2. cbn [bind].
        destruct (HC 0%nat b g lo hi ltac:(lia) Hb Hg N1 N2) as (n & d & _ & Ed & _). rewrite Ed. cbn [bind]. now eexists. }
      destruct DN as [ds Eds]. rewrite Eds. cbn [bind].
      rewrite (for_int_ext _ _ (fun g ds => d <- (nuMin <- GroupBoundAt gb (Z.of_nat g) ;; nuMax <- GroupBoundAt gb (Z.of_nat g + 1) ;;
          group_denoms pc (FromLog (g_x gT (Z.of_nat b))) nuMin nuMax N) ;; Ok (ds ++ [d]))) in Eds
        by (intros g ds'; destruct (GroupBoundAt gb (Z.of_nat g)); cbn [bind]; auto; destruct (GroupBoundAt gb (Z.of_nat g + 1)); reflexivity).
      apply for_append in Eds. destruct Eds as [_ HD].
      apply for_int_inv; [exact Hst|]. intros a st' Ha Hst'. cbv zeta. apply for_int_inv; [exact Hst'|].
      intros g st2 Hg [S1 S2]. unfold fill_cell. destruct (AT g Hg) as (lo & hi & N1 & N2 & E1 & E2). rewrite E1. cbn [bind]. rewrite E2. cbn [bind].
      destruct (HC a b g lo hi Ha Hb Hg N1 N2) as (n & d & En & Ed & I1 & I2). rewrite En. cbn [bind].
      destruct (HD g ltac:(lia)) as (d' & Ed' & Ld). rewrite E1 in Ed'. cbn [bind] in Ed'. rewrite E2 in Ed'. cbn [bind] in Ed'.
      rewrite Ed in Ed'. injection Ed' as <-. unfold load at 1. rewrite Ld. cbn [bind].
      assert (IN : (0 <= cell NT ng a b g < NRho * NT * ng)%Z).
      { unfold cell. assert (0 <= Z.of_nat a * NT)%Z by (apply Z.mul_nonneg_nonneg; lia).
        assert (Z.of_nat a * NT <= (NRho - 1) * NT)%Z by (apply Z.mul_le_mono_nonneg_r; lia).
        assert (0 <= (Z.of_nat a * NT + Z.of_nat b) * ng)%Z by (apply Z.mul_nonneg_nonneg; lia).
        assert ((Z.of_nat a * NT + Z.of_nat b) * ng <= (NRho * NT - 1) * ng)%Z by (apply Z.mul_le_mono_nonneg_r; lia). lia. }
      destruct (set_flat_in (fst st2) (cell NT ng a b g) (ToLog (planck_mean (fst n) (fst d))) ltac:(lia)) as (p & Ep & Lp).
      destruct (set_flat_in (snd st2) (cell NT ng a b g) (ToLog (rosseland_mean (snd n) (snd d))) ltac:(lia)) as (r & Er & Lr).
      rewrite Ep. cbn [bind]. rewrite Er. cbn [bind]. rewrite I1, I2. cbn [orb]. eexists. split; [reflexivity|]. cbn [fst snd]. split; congruence. }
    destruct F as (st & E & _). cbv zeta. rewrite E. cbn [bind]. now eexists.
  Qed.
End Photons.

Section Neutrinos.
  Context {T : Type} {O : Ops T} (pc : PhysConst T) (coef : T -> T -> T -> RadiationType -> T -> result T)
    (dist ddist : T -> RadiationType -> T -> result T).

  Lemma nu_impl_ok lr0 lr1 NRho lt0 lt1 NT y0 y1 NYe range NNu gYe gT gRho :
    let r := match range with Some r => r | None => auto_range pc lt0 lt1 end in
    mk_grid y0 y1 NYe = Ok gYe -> mk_grid lt0 lt1 NT = Ok gT -> mk_grid lr0 lr1 NRho = Ok gRho ->
    (forall a b y k type, (Z.of_nat a < NRho)%Z -> (Z.of_nat b < NT)%Z -> (Z.of_nat y < NYe)%Z -> (Z.of_nat k < 3)%Z ->
       Idx2RadType (Z.of_nat k) = Ok type ->
       exists s, nu_sums coef dist ddist (FromLog (g_x gRho (Z.of_nat a))) (FromLog (g_x gT (Z.of_nat b))) (g_x gYe (Z.of_nat y)) type (fst r) (snd r) NNu = Ok s /\
         Oisnan (ToLog (fst (nu_means s))) = false /\ Oisnan (ToLog (snd (nu_means s))) = false) ->
    exists m, nu_impl pc coef dist ddist false lr0 lr1 NRho lt0 lt1 NT y0 y1 NYe range NNu = Ok m.
  Proof.
    intros r GY GT GR HC. unfold nu_impl. fold r. clearbody r. rewrite GY. cbn [bind]. rewrite GT. cbn [bind]. rewrite GR. cbn [bind]. cbv zeta.
    set (len := Z.to_nat (NRho * NT * NYe * NEUTRINO_NTYPES)).
    assert (F : exists st, nu_fill_tables coef dist ddist false gRho gT gYe NRho NT NYe (fst r) (snd r) NNu (repeat (#0)%o len, repeat (#0)%o len) = Ok st /\
      length (fst st) = len /\ length (snd st) = len).
    { unfold nu_fill_tables. apply for_int_inv; [cbn; now rewrite repeat_length|].
      intros a s1 Ha H1. cbv zeta. apply for_int_inv; [exact H1|]. intros b s2 Hb H2. apply for_int_inv; [exact H2|].
      intros y s3 Hy H3. apply for_int_inv; [exact H3|]. intros k s4 Hk [L1 L2]. unfold nu_fill.
      assert (IT : exists type, Idx2RadType (Z.of_nat k) = Ok type).
      { unfold NEUTRINO_NTYPES in Hk. destruct k as [|[|[|k]]]; [eexists; reflexivity..|lia]. }
      destruct IT as [type Et]. rewrite Et. cbn [bind].
      destruct (HC a b y k type Ha Hb Hy Hk Et) as (s & Es & I1 & I2). unfold nu_sums in Es. cbv zeta. rewrite Es. cbn [bind].
      unfold nu_store.
      assert (IN : (0 <= nu_cell NT NYe a b y k < NRho * NT * NYe * NEUTRINO_NTYPES)%Z).
      { unfold nu_cell, NEUTRINO_NTYPES in *. assert (0 <= Z.of_nat a * NT)%Z by (apply Z.mul_nonneg_nonneg; lia).
        assert (Z.of_nat a * NT <= (NRho - 1) * NT)%Z by (apply Z.mul_le_mono_nonneg_r; lia).
        assert (0 <= (Z.of_nat a * NT + Z.of_nat b) * NYe)%Z by (apply Z.mul_nonneg_nonneg; lia).
        assert ((Z.of_nat a * NT + Z.of_nat b) * NYe <= (NRho * NT - 1) * NYe)%Z by (apply Z.mul_le_mono_nonneg_r; lia). lia. }
      destruct (set_flat_in (fst s4) (nu_cell NT NYe a b y k) (ToLog (fst (nu_means s))) ltac:(lia)) as (p & Ep & Lp).
      destruct (set_flat_in (snd s4) (nu_cell NT NYe a b y k) (ToLog (snd (nu_means s))) ltac:(lia)) as (q & Er & Lr).
      rewrite Ep. cbn [bind]. rewrite Er. cbn [bind]. rewrite I1, I2. cbn [orb]. eexists. split; [reflexivity|]. cbn [fst snd]. split; congruence. }
    destruct F as (st & E & _). rewrite E. cbn [bind]. now eexists.
  Qed.
End Neutrinos.
