(** What the averaging constructors leave in the tables. *)
From Coq Require Import ZArith List Lia Bool.
From Verif Require Import Base.Outcome Base.Ops Model.Constants Model.Robust Model.RadTypes Model.Spiner Model.MeanUtils
  Model.MeanPhotons Model.MeanNeutrinos Proofs.ArrayFacts Proofs.GroupFacts Proofs.FillFacts.
Import ListNotations.

Section Photons.
  Context {T : Type} {O : Ops T} (pc : PhysConst T) (coef : T -> T -> T -> result T).

  (** the two logarithms belonging at density a, temperature b, group c *)
  Definition mean_pair (gb : list T) (N : Z) (rho temp : T) (g : nat) (v : T * T) : Prop :=
    exists nuMin nuMax n d,
      GroupBoundAt gb (Z.of_nat g) = Ok nuMin /\ GroupBoundAt gb (Z.of_nat g + 1) = Ok nuMax /\
      group_nums pc coef rho temp nuMin nuMax N = Ok n /\ group_denoms pc temp nuMin nuMax N = Ok d /\
      v = (ToLog (planck_mean (fst n) (fst d)), ToLog (rosseland_mean (snd n) (snd d))) /\
      Oisnan (fst v) = false /\ Oisnan (snd v) = false.

  Lemma fill_cell_fills gb NT ng N denoms rho temp iRho iT g (V : Z -> T * T -> Prop) :
    (forall nuMin nuMax d, GroupBoundAt gb (Z.of_nat g) = Ok nuMin -> GroupBoundAt gb (Z.of_nat g + 1) = Ok nuMax ->
       load denoms g = Ok d -> group_denoms pc temp nuMin nuMax N = Ok d) ->
    (forall v, mean_pair gb N rho temp g v -> V (cell NT ng iRho iT g) v) ->
    fills get2 (fill_cell pc coef gb NT ng N denoms rho temp iRho iT g) (fun i => i = cell NT ng iRho iT g) V.
  Proof.
    intros HD HV st st' E. unfold fill_cell in E.
    destruct (GroupBoundAt gb (Z.of_nat g)) as [nuMin| |] eqn:E1; try discriminate. cbn [bind] in E.
    destruct (GroupBoundAt gb (Z.of_nat g + 1)) as [nuMax| |] eqn:E2; try discriminate. cbn [bind] in E.
    destruct (group_nums pc coef rho temp nuMin nuMax N) as [n| |] eqn:E3; try discriminate. cbn [bind] in E.
    destruct (load denoms g) as [d| |] eqn:E4; try discriminate. cbn [bind] in E.
    specialize (HD _ _ _ eq_refl eq_refl eq_refl).
    destruct (set_flat (fst st) _ _) as [p| |] eqn:E5; try discriminate. cbn [bind] in E.
    destruct (set_flat (snd st) _ _) as [r| |] eqn:E6; try discriminate. cbn [bind] in E.
    destruct (Oisnan _ || Oisnan _) eqn:E7; try discriminate. injection E as <-.
    apply orb_false_iff in E7. destruct E7 as [E7 E8].
    apply set_flat_ok in E5, E6. destruct E5 as [L1 ->], E6 as [L2 ->].
    destruct (get2_set st (cell NT ng iRho iT g) (ToLog (planck_mean (fst n) (fst d)))
      (ToLog (rosseland_mean (snd n) (snd d))) L1 L2) as [G1 G2]. split.
    - intros i ->. eexists. split; [exact G1|]. apply HV. exists nuMin, nuMax, n, d. auto 10.
    - intros i Ni. now apply G2.
  Qed.

  Lemma fill_cell_size gb NT ng N denoms rho temp iRho iT g st st' :
    fill_cell pc coef gb NT ng N denoms rho temp iRho iT g st = Ok st' -> same_size st st'.
  Proof.
    unfold fill_cell. intros E.
    destruct (GroupBoundAt gb (Z.of_nat g)) as [nuMin| |]; try discriminate. cbn [bind] in E.
    destruct (GroupBoundAt gb (Z.of_nat g + 1)) as [nuMax| |]; try discriminate. cbn [bind] in E.
    destruct (group_nums pc coef rho temp nuMin nuMax N) as [n| |]; try discriminate. cbn [bind] in E.
    destruct (load denoms g) as [d| |]; try discriminate. cbn [bind] in E.
    destruct (set_flat (fst st) _ _) as [p| |] eqn:E5; try discriminate. cbn [bind] in E.
    destruct (set_flat (snd st) _ _) as [r| |] eqn:E6; try discriminate. cbn [bind] in E.
    destruct (Oisnan _ || Oisnan _); try discriminate. injection E as <-.
    apply set_flat_ok in E5, E6. destruct E5 as [_ ->], E6 as [_ ->]. split; cbn; now rewrite upd_length.
  Qed.

  Definition valid_cell (NRho NT ng : Z) (a b c : nat) : Prop :=
    (Z.of_nat a < NRho /\ Z.of_nat b < NT /\ Z.of_nat c < ng)%Z.

  Lemma cell_inj NRho NT ng a b c a' b' c' : valid_cell NRho NT ng a b c -> valid_cell NRho NT ng a' b' c' ->
    cell NT ng a b c = cell NT ng a' b' c' -> a = a' /\ b = b' /\ c = c'.
  Proof.
    unfold cell, valid_cell. intros (A1 & A2 & A3) (B1 & B2 & B3) E.
    assert (E1 : (Z.of_nat a * NT + Z.of_nat b = Z.of_nat a' * NT + Z.of_nat b')%Z /\ Z.of_nat c = Z.of_nat c').
    { apply (Z.div_mod_unique ng); lia. }
    destruct E1 as [E1 E2].
    assert (E3 : Z.of_nat a = Z.of_nat a' /\ Z.of_nat b = Z.of_nat b').
    { apply (Z.div_mod_unique NT); lia. }
    lia.
  Qed.

  Lemma fill_tables_cells gb gRho gT NRho NT ng N st st' :
    fill_tables pc coef gb gRho gT NRho NT ng N st = Ok st' ->
    same_size st st' /\
    forall a b c, valid_cell NRho NT ng a b c ->
      exists v, get2 st' (cell NT ng a b c) = Some v /\
        mean_pair gb N (FromLog (g_x gRho (Z.of_nat a))) (FromLog (g_x gT (Z.of_nat b))) c v.
  Proof.
    intros E. split.
    - unfold fill_tables in E. revert E. apply for_keeps; [apply same_size_refl|apply same_size_trans|].
      intros k s s' Hk E. destruct (for_int ng _ []) as [ds| |]; try discriminate. cbn [bind] in E.
      revert E. apply for_keeps; [apply same_size_refl|apply same_size_trans|].
      intros k2 s2 s2' Hk2. apply for_keeps; [apply same_size_refl|apply same_size_trans|].
      intros k3 s3 s3' Hk3. apply fill_cell_size.
    - set (V := fun (i : Z) (v : T * T) => exists a b c, valid_cell NRho NT ng a b c /\ i = cell NT ng a b c /\
        mean_pair gb N (FromLog (g_x gRho (Z.of_nat a))) (FromLog (g_x gT (Z.of_nat b))) c v).
      assert (F : fills get2 (fill_tables pc coef gb gRho gT NRho NT ng N)
        (fun i => exists b, (Z.of_nat b < NT)%Z /\ exists a, (Z.of_nat a < NRho)%Z /\
           exists c, (Z.of_nat c < ng)%Z /\ i = cell NT ng a b c) V).
      { unfold fill_tables. apply (fills_for get2 NT _ (fun b i => exists a, (Z.of_nat a < NRho)%Z /\
           exists c, (Z.of_nat c < ng)%Z /\ i = cell NT ng a b c)).
        intros b Hb s s' Es.
        destruct (for_int ng _ []) as [ds| |] eqn:Ed; try discriminate. cbn [bind] in Es.
        assert (HD : forall c, (Z.of_nat c < ng)%Z -> forall nuMin nuMax d, GroupBoundAt gb (Z.of_nat c) = Ok nuMin ->
          GroupBoundAt gb (Z.of_nat c + 1) = Ok nuMax -> load ds c = Ok d ->
          group_denoms pc (FromLog (g_x gT (Z.of_nat b))) nuMin nuMax N = Ok d).
        { intros c Hc nuMin nuMax d G1 G2 G3.
          assert (Ed' : for_int ng (fun g ds => d <- (nuMin <- GroupBoundAt gb (Z.of_nat g) ;;
              nuMax <- GroupBoundAt gb (Z.of_nat g + 1) ;;
              group_denoms pc (FromLog (g_x gT (Z.of_nat b))) nuMin nuMax N) ;; Ok (ds ++ [d])) [] = Ok ds).
          { rewrite <- Ed. apply for_int_ext. intros i l.
            destruct (GroupBoundAt gb (Z.of_nat i)); cbn [bind]; try reflexivity.
            destruct (GroupBoundAt gb (Z.of_nat i + 1)); cbn [bind]; reflexivity. }
          destruct (for_append _ _ _ Ed') as [_ G]. destruct (G c ltac:(lia)) as (d' & A & B).
          rewrite G1, G2 in A. cbn [bind] in A. rewrite A. unfold load in G3. rewrite B in G3. exact G3. }
        revert s s' Es. apply (fills_for get2 NRho _ (fun a i => exists c, (Z.of_nat c < ng)%Z /\ i = cell NT ng a b c)).
        intros a Ha. apply (fills_for get2 ng _ (fun c i => i = cell NT ng a b c)).
        intros c Hc. apply fill_cell_fills; [now apply HD|].
        intros v M. exists a, b, c. repeat split; auto. }
      intros a b c H. destruct (F st st' E) as [A _]. destruct H as (H1 & H2 & H3).
      destruct (A (cell NT ng a b c)) as (v & G & a' & b' & c' & Hc' & Ec & M); [eauto 10|].
      destruct (cell_inj NRho NT ng a b c a' b' c') as (-> & -> & ->); auto. { repeat split; auto. }
      eauto.
  Qed.

  (** the whole constructor *)
  Lemma MeanImpl_cells dbg opc lr0 lr1 NRho lt0 lt1 NT gb ng N m :
    MeanImpl pc dbg opc coef lr0 lr1 NRho lt0 lt1 NT gb ng N = Ok m ->
    exists gT gRho dp dr,
      mk_grid lt0 lt1 NT = Ok gT /\ mk_grid lr0 lr1 NRho = Ok gRho /\ (2 <= N)%Z /\
      ValidateGroupBounds gb ng = Ok tt /\
      mt_lPlanck m = {| db_dims := [ng; NT; NRho]; db_ranges := [None; Some gT; Some gRho]; db_data := dp |} /\
      mt_lRosseland m = {| db_dims := [ng; NT; NRho]; db_ranges := [None; Some gT; Some gRho]; db_data := dr |} /\
      mt_ngroups m = ng /\
      length dp = Z.to_nat (NRho * NT * ng) /\ length dr = Z.to_nat (NRho * NT * ng) /\
      forall a b c, valid_cell NRho NT ng a b c ->
        exists v, get2 (dp, dr) (cell NT ng a b c) = Some v /\
          mean_pair gb N (FromLog (g_x gRho (Z.of_nat a))) (FromLog (g_x gT (Z.of_nat b))) c v.
  Proof.
    unfold MeanImpl. intros E. destruct (dbg && _); [discriminate|].
    destruct (Z.ltb_spec N 2) as [|HN]; [discriminate|].
    destruct (ValidateGroupBounds gb ng) as [[]| |] eqn:EV; try discriminate. cbn [bind] in E.
    destruct (SetGroupBounds gb ng) as [bs| |]; try discriminate. cbn [bind] in E.
    destruct (mk_grid lt0 lt1 NT) as [gT| |]; try discriminate. cbn [bind] in E.
    destruct (mk_grid lr0 lr1 NRho) as [gRho| |]; try discriminate. cbn [bind] in E.
    destruct (fill_tables _ _ _ _ _ _ _ _ _ _) as [[dp dr]| |] eqn:EF; try discriminate. cbn [bind] in E.
    injection E as <-. destruct (fill_tables_cells _ _ _ _ _ _ _ _ _ EF) as [[S1 S2] C].
    exists gT, gRho, dp, dr. cbn [mt_lPlanck mt_lRosseland mt_ngroups fst snd] in *.
    rewrite repeat_length in S1, S2. repeat split; auto.
  Qed.
End Photons.

Section Neutrinos.
  Context {T : Type} {O : Ops T} (pc : PhysConst T)
    (coef : T -> T -> T -> RadiationType -> T -> result T) (dist ddist : T -> RadiationType -> T -> result T).

  Definition nu_sums (rho temp Ye : T) (type : RadiationType) (lNuMin lNuMax : T) (NNu : Z) : result (sums T) :=
    for_int NNu (nu_step coef dist ddist rho temp Ye type lNuMin ((lNuMax - lNuMin) / #NNu)%o) zero_sums.

  Definition nu_pair (rho temp Ye : T) (idx : nat) (lNuMin lNuMax : T) (NNu : Z) (v : T * T) : Prop :=
    exists type a, Idx2RadType (Z.of_nat idx) = Ok type /\ nu_sums rho temp Ye type lNuMin lNuMax NNu = Ok a /\
      v = (ToLog (fst (nu_means a)), ToLog (snd (nu_means a))) /\
      Oisnan (fst v) = false /\ Oisnan (snd v) = false.

  Lemma nu_store_ok c a (st st' : list T * list T) : nu_store c a st = Ok st' ->
    same_size st st' /\ get2 st' c = Some (ToLog (fst (nu_means a)), ToLog (snd (nu_means a))) /\
    (forall i, i <> c -> get2 st' i = get2 st i) /\
    Oisnan (ToLog (fst (nu_means a))) = false /\ Oisnan (ToLog (snd (nu_means a))) = false.
  Proof.
    unfold nu_store. intros E.
    destruct (set_flat (fst st) _ _) as [p| |] eqn:E5; try discriminate. cbn [bind] in E.
    destruct (set_flat (snd st) _ _) as [r| |] eqn:E6; try discriminate. cbn [bind] in E.
    destruct (Oisnan _ || Oisnan _) eqn:E7; try discriminate. injection E as <-.
    apply orb_false_iff in E7. destruct E7 as [E7 E8].
    apply set_flat_ok in E5, E6. destruct E5 as [L1 ->], E6 as [L2 ->].
    destruct (get2_set st c (ToLog (fst (nu_means a))) (ToLog (snd (nu_means a))) L1 L2) as [G1 G2].
    repeat split; auto; cbn; now rewrite upd_length.
  Qed.

  Lemma nu_fill_ok inside rho temp Ye l0 l1 NNu NT NYe iRho iT iYe idx st st' :
    (inside = false \/ 0 < NNu)%Z ->
    nu_fill coef dist ddist inside rho temp Ye l0 l1 NNu NT NYe iRho iT iYe idx st = Ok st' ->
    same_size st st' /\
    (exists v, get2 st' (nu_cell NT NYe iRho iT iYe idx) = Some v /\ nu_pair rho temp Ye idx l0 l1 NNu v) /\
    (forall i, i <> nu_cell NT NYe iRho iT iYe idx -> get2 st' i = get2 st i).
  Proof.
    intros HN. unfold nu_fill. destruct (Idx2RadType (Z.of_nat idx)) as [type| |] eqn:Et; cbn [bind]; try discriminate.
    set (c := nu_cell NT NYe iRho iT iYe idx). set (dl := ((l1 - l0) / #NNu)%o).
    destruct inside.
    - intros E. destruct (for_int NNu _ (zero_sums, st)) as [[a st1]| |] eqn:EL; try discriminate.
      cbn [bind snd] in E. injection E as <-.
      assert (G : forall m a s, for_from m 0 (fun inu e =>
             a <- nu_step coef dist ddist rho temp Ye type l0 dl inu (fst e) ;;
             st <- nu_store c a (snd e) ;; Ok (a, st)) (zero_sums, st) = Ok (a, s) ->
             for_from m 0 (nu_step coef dist ddist rho temp Ye type l0 dl) zero_sums = Ok a /\ same_size st s /\
             (m = 0%nat \/ get2 s c = Some (ToLog (fst (nu_means a)), ToLog (snd (nu_means a))) /\
                Oisnan (ToLog (fst (nu_means a))) = false /\ Oisnan (ToLog (snd (nu_means a))) = false) /\
             (forall i, i <> c -> get2 s i = get2 st i)).
      { induction m as [|m IH]; intros a2 s2 E2.
        - cbn in E2. injection E2 as <- <-. repeat split; auto.
        - rewrite for_from_S_last in E2. rewrite for_from_S_last.
          destruct (for_from m 0 _ (zero_sums, st)) as [[a3 s3]| |] eqn:E3; try discriminate. cbn [bind fst snd] in E2.
          destruct (IH a3 s3 eq_refl) as (I1 & I2 & _ & I4). rewrite I1. cbn [bind].
          destruct (nu_step _ _ _ _ _ _ _ _ _ _ a3) as [a4| |] eqn:E4; try discriminate. cbn [bind] in E2.
          destruct (nu_store c a4 s3) as [s4| |] eqn:E5; try discriminate. cbn [bind] in E2. injection E2 as <- <-.
          destruct (nu_store_ok _ _ _ _ E5) as (J1 & J2 & J3 & J4 & J5).
          split; [reflexivity|]. split; [now apply (same_size_trans _ s3)|]. split; [right; auto|].
          intros i Hi. rewrite J3, I4 by exact Hi. reflexivity. }
      destruct (G (Z.to_nat NNu) a st1) as (G1 & G2 & G3 & G4). { exact EL. }
      split; [exact G2|]. split; [|exact G4].
      destruct G3 as [G3|(G3 & G5 & G6)]; [lia|].
      eexists. split; [exact G3|]. exists type, a. repeat split; auto.
    - intros E. destruct (for_int NNu _ zero_sums) as [a| |] eqn:EL; try discriminate. cbn [bind] in E.
      destruct (nu_store_ok _ _ _ _ E) as (J1 & J2 & J3 & J4 & J5).
      split; [exact J1|]. split; [|exact J3]. eexists. split; [exact J2|]. exists type, a. repeat split; auto.
  Qed.

  Definition valid_nu_cell (NRho NT NYe : Z) (a b y i : nat) : Prop :=
    (Z.of_nat a < NRho /\ Z.of_nat b < NT /\ Z.of_nat y < NYe /\ Z.of_nat i < NEUTRINO_NTYPES)%Z.
  Lemma nu_cell_inj NRho NT NYe a b y i a' b' y' i' : valid_nu_cell NRho NT NYe a b y i ->
    valid_nu_cell NRho NT NYe a' b' y' i' -> nu_cell NT NYe a b y i = nu_cell NT NYe a' b' y' i' ->
    a = a' /\ b = b' /\ y = y' /\ i = i'.
  Proof.
    unfold nu_cell, valid_nu_cell, NEUTRINO_NTYPES. intros (A1 & A2 & A3 & A4) (B1 & B2 & B3 & B4) E.
    assert (E1 : ((Z.of_nat a * NT + Z.of_nat b) * NYe + Z.of_nat y = (Z.of_nat a' * NT + Z.of_nat b') * NYe + Z.of_nat y')%Z
      /\ Z.of_nat i = Z.of_nat i') by lia.
    destruct E1 as [E1 E2].
    assert (E3 : (Z.of_nat a * NT + Z.of_nat b = Z.of_nat a' * NT + Z.of_nat b')%Z /\ Z.of_nat y = Z.of_nat y').
    { apply (Z.div_mod_unique NYe); lia. }
    destruct E3 as [E3 E4].
    assert (E5 : Z.of_nat a = Z.of_nat a' /\ Z.of_nat b = Z.of_nat b').
    { apply (Z.div_mod_unique NT); lia. }
    lia.
  Qed.

  Lemma nu_fill_tables_cells inside gRho gT gYe NRho NT NYe l0 l1 NNu st st' :
    (inside = false \/ 0 < NNu)%Z ->
    nu_fill_tables coef dist ddist inside gRho gT gYe NRho NT NYe l0 l1 NNu st = Ok st' ->
    same_size st st' /\
    forall a b y i, valid_nu_cell NRho NT NYe a b y i ->
      exists v, get2 st' (nu_cell NT NYe a b y i) = Some v /\
        nu_pair (FromLog (g_x gRho (Z.of_nat a))) (FromLog (g_x gT (Z.of_nat b))) (g_x gYe (Z.of_nat y)) i l0 l1 NNu v.
  Proof.
    intros HN E. split.
    - unfold nu_fill_tables in E. revert E. apply for_keeps; [apply same_size_refl|apply same_size_trans|].
      intros k s s' Hk. apply for_keeps; [apply same_size_refl|apply same_size_trans|].
      intros k2 s2 s2' Hk2. apply for_keeps; [apply same_size_refl|apply same_size_trans|].
      intros k3 s3 s3' Hk3. apply for_keeps; [apply same_size_refl|apply same_size_trans|].
      intros k4 s4 s4' Hk4 E. now apply (nu_fill_ok _ _ _ _ _ _ _ _ _ _ _ _ _ _ _ HN) in E.
    - set (V := fun (j : Z) (v : T * T) => exists a b y i, valid_nu_cell NRho NT NYe a b y i /\ j = nu_cell NT NYe a b y i /\
        nu_pair (FromLog (g_x gRho (Z.of_nat a))) (FromLog (g_x gT (Z.of_nat b))) (g_x gYe (Z.of_nat y)) i l0 l1 NNu v).
      assert (F : fills get2 (nu_fill_tables coef dist ddist inside gRho gT gYe NRho NT NYe l0 l1 NNu)
        (fun j => exists a, (Z.of_nat a < NRho)%Z /\ exists b, (Z.of_nat b < NT)%Z /\ exists y, (Z.of_nat y < NYe)%Z /\
           exists i, (Z.of_nat i < NEUTRINO_NTYPES)%Z /\ j = nu_cell NT NYe a b y i) V).
      { unfold nu_fill_tables. apply (fills_for get2 NRho _ (fun a j => exists b, (Z.of_nat b < NT)%Z /\ exists y, (Z.of_nat y < NYe)%Z /\
           exists i, (Z.of_nat i < NEUTRINO_NTYPES)%Z /\ j = nu_cell NT NYe a b y i)). intros a Ha.
        apply (fills_for get2 NT _ (fun b j => exists y, (Z.of_nat y < NYe)%Z /\
           exists i, (Z.of_nat i < NEUTRINO_NTYPES)%Z /\ j = nu_cell NT NYe a b y i)). intros b Hb.
        apply (fills_for get2 NYe _ (fun y j => exists i, (Z.of_nat i < NEUTRINO_NTYPES)%Z /\ j = nu_cell NT NYe a b y i)). intros y Hy.
        apply (fills_for get2 NEUTRINO_NTYPES _ (fun i j => j = nu_cell NT NYe a b y i)). intros i Hi s s' Es.
        destruct (nu_fill_ok _ _ _ _ _ _ _ _ _ _ _ _ _ _ _ HN Es) as (_ & (v & G1 & G2) & G3). split.
        - intros j ->. exists v. split; [exact G1|]. exists a, b, y, i. repeat split; auto.
        - intros j Nj. now apply G3. }
      intros a b y i H. destruct (F st st' E) as [A _]. pose proof H as H'. destruct H as (H1 & H2 & H3 & H4).
      destruct (A (nu_cell NT NYe a b y i)) as (v & G & a' & b' & y' & i' & Hc' & Ec & M); [eauto 12|].
      destruct (nu_cell_inj NRho NT NYe a b y i a' b' y' i') as (-> & -> & -> & ->); auto. eauto.
  Qed.

  Lemma nu_impl_cells inside lr0 lr1 NRho lt0 lt1 NT y0 y1 NYe range NNu m :
    (inside = false \/ 0 < NNu)%Z ->
    nu_impl pc coef dist ddist inside lr0 lr1 NRho lt0 lt1 NT y0 y1 NYe range NNu = Ok m ->
    let r := match range with Some r => r | None => auto_range pc lt0 lt1 end in
    exists gYe gT gRho dp dr,
      mk_grid y0 y1 NYe = Ok gYe /\ mk_grid lt0 lt1 NT = Ok gT /\ mk_grid lr0 lr1 NRho = Ok gRho /\
      nm_lPlanck m = {| db_dims := [NEUTRINO_NTYPES; NYe; NT; NRho]; db_ranges := [None; Some gYe; Some gT; Some gRho]; db_data := dp |} /\
      nm_lRosseland m = {| db_dims := [NEUTRINO_NTYPES; NYe; NT; NRho]; db_ranges := [None; Some gYe; Some gT; Some gRho]; db_data := dr |} /\
      length dp = Z.to_nat (NRho * NT * NYe * NEUTRINO_NTYPES) /\ length dr = Z.to_nat (NRho * NT * NYe * NEUTRINO_NTYPES) /\
      forall a b y i, valid_nu_cell NRho NT NYe a b y i ->
        exists v, get2 (dp, dr) (nu_cell NT NYe a b y i) = Some v /\
          nu_pair (FromLog (g_x gRho (Z.of_nat a))) (FromLog (g_x gT (Z.of_nat b))) (g_x gYe (Z.of_nat y)) i (fst r) (snd r) NNu v.
  Proof.
    intros HN E r. unfold nu_impl in E. fold r in E. clearbody r. cbv zeta in E.
    destruct (mk_grid y0 y1 NYe) as [gYe| |]; try discriminate. cbn [bind] in E.
    destruct (mk_grid lt0 lt1 NT) as [gT| |]; try discriminate. cbn [bind] in E.
    destruct (mk_grid lr0 lr1 NRho) as [gRho| |]; try discriminate. cbn [bind] in E.
    destruct (nu_fill_tables _ _ _ _ _ _ _ _ _ _ _ _ _ _) as [[dp dr]| |] eqn:EF; try discriminate. cbn [bind] in E.
    injection E as <-. destruct (nu_fill_tables_cells _ _ _ _ _ _ _ _ _ _ _ _ HN EF) as [[S1 S2] C].
    exists gYe, gT, gRho, dp, dr. cbn [nm_lPlanck nm_lRosseland fst snd] in *.
    rewrite repeat_length in S1, S2. repeat split; auto.
  Qed.
End Neutrinos.
