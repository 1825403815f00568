(** The averaging constructors in exact arithmetic: they succeed, and what they store. *)
From Coq Require Import Reals ZArith List Lia Lra Bool.
From Verif Require Import Base.Outcome Base.Ops Inst.ER Inst.ERTac Model.Constants Model.Robust Model.RadTypes
  Model.Spiner Model.MeanUtils Model.MeanPhotons Model.MeanNeutrinos Spec.Physics Spec.Opacities Spec.Tables Spec.Groups Spec.Means
  Proofs.ArrayFacts Proofs.OrderLaws Proofs.GroupFacts Proofs.InterpFacts Proofs.TableFacts Proofs.FillFacts
  Proofs.ModelFacts Proofs.MeanFacts Proofs.MeanExact.
Import ListNotations.
Open Scope R_scope.

(** a loop whose passes succeed and keep [P] *)
Lemma for_int_total {S} (P : S -> Prop) (n : Z) (body : nat -> S -> result S) s :
  P s -> (forall i s, (Z.of_nat i < n)%Z -> P s -> exists s', body i s = Ok s' /\ P s') ->
  exists s', for_int n body s = Ok s' /\ P s'.
Proof.
  intros H0 H. unfold for_int. apply (for_loop_inv (fun _ => P)); [exact H0|].
  intros i s' Hi Hs. apply H; [lia|exact Hs].
Qed.

Lemma set_flat_total {T} {O : Ops T} (d : list T) i v : (0 <= i < Z.of_nat (length d))%Z ->
  set_flat d i v = Ok (upd d (Z.to_nat i) v).
Proof.
  intros H. unfold set_flat. destruct (Z.ltb_spec i 0); [lia|]. apply store_ok. lia.
Qed.

Lemma flat_lt n m i j : (0 <= i < n)%Z -> (0 <= j < m)%Z -> (0 <= i * m + j < n * m)%Z.
Proof. nia. Qed.

(** * Photons *)
Section Photons.
  Context (pc : PhysConst R) (Hp : positive_hkc pc) (coef : ER -> ER -> ER -> result ER) (a : R -> R -> R -> R).
  Hypothesis HC : forall rho T nu, 0 < rho -> 0 < T -> 0 < nu ->
    coef (Fin rho) (Fin T) (Fin nu) = Ok (Fin (a rho T nu)).
  Context (gR gT : rgrid) (gb : list ER) (ng N : Z) (HR : rg_ok gR) (HT : rg_ok gT).
  Hypotheses (HG : partition (edge (fun x => x) gb) (Z.to_nat ng)) (HL : (ng < Z.of_nat (length gb))%Z) (HN : (2 <= N)%Z).

  (** the logarithmic sampling range of group g at temperature T *)
  Definition group_logs (T : R) (g : nat) : R * R :=
    logs (window (pc_h pc) (pc_kb pc) T (match edge (fun x => x) gb g with Fin x => x | _ => 0 end) (edge (fun x => x) gb (S g))).
  Definition kappa_P (rho T : R) (g : nat) : R :=
    planck_mean_of (weight_B (pc_h pc) (pc_kb pc) (pc_c pc) T) rho (a rho T) (group_logs T g) N.
  Definition kappa_R (rho T : R) (g : nat) : R :=
    rosseland_mean_of (weight_dB (pc_h pc) (pc_kb pc) (pc_c pc) T) rho (a rho T) (group_logs T g) N.

  Lemma edge_group g : (g < Z.to_nat ng)%nat -> exists lo,
    edge (fun x => x) gb g = Fin lo /\ good_group lo (edge (fun x => x) gb (S g)) /\
    GroupBoundAt gb (Z.of_nat g) = Ok (Fin lo) /\ GroupBoundAt gb (Z.of_nat g + 1) = Ok (edge (fun x => x) gb (S g)).
  Proof.
    intros Hg. destruct (proj2 HG g Hg) as (lo & E & P & Q). exists lo. split; [exact E|].
    split. { split; [exact P|]. destruct Q as [(x & -> & Hx)|(_ & ->)]; [left; eauto|now right]. }
    destruct (GroupBoundAt_ok gb g) as (x & G & Gx); [lia|].
    destruct (GroupBoundAt_ok gb (S g)) as (y & G' & Gy); [lia|].
    rewrite Nat2Z.inj_succ in G'. unfold Z.succ in G'. unfold edge in E |- *. rewrite Gx in E. rewrite Gy. subst x.
    auto.
  Qed.

  Lemma cell_means rho T g : 0 < rho -> 0 < T -> (g < Z.to_nat ng)%nat ->
    exists nuMin nuMax n d,
      GroupBoundAt gb (Z.of_nat g) = Ok nuMin /\ GroupBoundAt gb (Z.of_nat g + 1) = Ok nuMax /\
      group_nums (finpc pc) coef (Fin rho) (Fin T) nuMin nuMax N = Ok n /\
      group_denoms (finpc pc) (Fin T) nuMin nuMax N = Ok d /\
      planck_mean (fst n) (fst d) = Fin (kappa_P rho T g) /\ rosseland_mean (snd n) (snd d) = Fin (kappa_R rho T g).
  Proof.
    intros Hr HTp Hg. destruct Hp as (Hh & Hk & Hc). destruct (edge_group g Hg) as (lo & E & G & B1 & B2).
    destruct (group_means_fin pc Hh Hk Hc T lo (edge (fun x => x) gb (S g)) N HTp G ltac:(lia) coef rho (a rho T) Hr)
      as (n & d & E1 & E2 & E3 & E4). { intros i _. apply HC; auto. apply frequency_pos. }
    exists (Fin lo), (edge (fun x => x) gb (S g)), n, d. unfold kappa_P, kappa_R, group_logs. rewrite E. auto 10.
  Qed.

  Lemma ToLog_real x : ToLog (Fin x) = Fin (log10 (Rabs x + tiny)).
  Proof. apply ToLog_fin. Qed.

  Lemma fill_total z : length (fst z) = Z.to_nat (rg_n gR * rg_n gT * ng) -> length (snd z) = Z.to_nat (rg_n gR * rg_n gT * ng) ->
    exists st, fill_tables (finpc pc) coef gb (grid_of gR) (grid_of gT) (rg_n gR) (rg_n gT) ng N z = Ok st.
  Proof.
    intros L1 L2. unfold fill_tables.
    set (P := fun st : list ER * list ER => length (fst st) = Z.to_nat (rg_n gR * rg_n gT * ng) /\
      length (snd st) = Z.to_nat (rg_n gR * rg_n gT * ng)).
    assert (Hng : (0 < ng)%Z) by (pose proof (proj1 HG); lia).
    destruct (for_int_total P (rg_n gT) (fun iT st =>
      let temp := FromLog (g_x (grid_of gT) (Z.of_nat iT)) in
      denoms <- for_int ng (fun g ds =>
        nuMin <- GroupBoundAt gb (Z.of_nat g) ;;
        nuMax <- GroupBoundAt gb (Z.of_nat g + 1) ;;
        d <- group_denoms (finpc pc) temp nuMin nuMax N ;;
        Ok (ds ++ [d])) [] ;;
      for_int (rg_n gR) (fun iRho st =>
        let rho := FromLog (g_x (grid_of gR) (Z.of_nat iRho)) in
        for_int ng (fun g st =>
          fill_cell (finpc pc) coef gb (rg_n gT) ng N denoms rho temp iRho iT g st) st) st) z) as (st & E & _).
    - split; assumption.
    - intros b s Hb Hs. cbv zeta. rewrite g_x_of by exact HT. rewrite FromLog_fin. set (T := pow10 (rg_node gT (Z.of_nat b))).
      assert (HTp : 0 < T) by apply pow10_pos.
      destruct (for_int_total (fun _ : list (ER * ER) => True) ng (fun g ds =>
        nuMin <- GroupBoundAt gb (Z.of_nat g) ;;
        nuMax <- GroupBoundAt gb (Z.of_nat g + 1) ;;
        d <- group_denoms (finpc pc) (Fin T) nuMin nuMax N ;;
        Ok (ds ++ [d])) []) as (ds & Ed & _); [exact I| |].
      { intros g l Hg _. destruct (cell_means 1 T g ltac:(lra) HTp ltac:(lia)) as (x & y & n & d & -> & -> & _ & E & _).
        cbn [bind]. rewrite E. cbn [bind]. eauto. }
      rewrite Ed. cbn [bind].
      assert (Ld : length ds = Z.to_nat ng).
      { assert (Ed' : for_int ng (fun g ds => d <- (nuMin <- GroupBoundAt gb (Z.of_nat g) ;;
            nuMax <- GroupBoundAt gb (Z.of_nat g + 1) ;;
            group_denoms (finpc pc) (Fin T) nuMin nuMax N) ;; Ok (ds ++ [d])) [] = Ok ds).
        { rewrite <- Ed. apply for_int_ext. intros i l.
          destruct (GroupBoundAt gb (Z.of_nat i)); cbn [bind]; try reflexivity.
          destruct (GroupBoundAt gb (Z.of_nat i + 1)); cbn [bind]; reflexivity. }
        now destruct (for_append _ _ _ Ed'). }
      assert (Hds : forall c, (Z.of_nat c < ng)%Z -> exists d, load ds c = Ok d /\ exists x y,
         GroupBoundAt gb (Z.of_nat c) = Ok x /\ GroupBoundAt gb (Z.of_nat c + 1) = Ok y /\
         group_denoms (finpc pc) (Fin T) x y N = Ok d).
      { assert (Ed' : for_int ng (fun g ds => d <- (nuMin <- GroupBoundAt gb (Z.of_nat g) ;;
            nuMax <- GroupBoundAt gb (Z.of_nat g + 1) ;;
            group_denoms (finpc pc) (Fin T) nuMin nuMax N) ;; Ok (ds ++ [d])) [] = Ok ds).
        { rewrite <- Ed. apply for_int_ext. intros i l.
          destruct (GroupBoundAt gb (Z.of_nat i)); cbn [bind]; try reflexivity.
          destruct (GroupBoundAt gb (Z.of_nat i + 1)); cbn [bind]; reflexivity. }
        intros c Hc. destruct (for_append _ _ _ Ed') as [_ G]. destruct (G c ltac:(lia)) as (d & A & B).
        exists d. split; [now apply load_some|].
        destruct (GroupBoundAt gb (Z.of_nat c)) as [x| |]; try discriminate. cbn [bind] in A.
        destruct (GroupBoundAt gb (Z.of_nat c + 1)) as [y| |]; try discriminate. cbn [bind] in A. eauto. }
      clear Ed.
      apply for_int_total; [exact Hs|]. clear s Hs. intros i s Hi Hs.
      rewrite g_x_of by exact HR. rewrite FromLog_fin. set (rho := pow10 (rg_node gR (Z.of_nat i))).
      assert (Hr : 0 < rho) by apply pow10_pos.
      apply for_int_total; [exact Hs|]. clear s Hs. intros g s Hg Hs.
      destruct (cell_means rho T g Hr HTp ltac:(lia)) as (x & y & n & d & B1 & B2 & E1 & E2 & E3 & E4).
      destruct (Hds g Hg) as (d' & Ed & x' & y' & B1' & B2' & E2').
      assert (d' = d) as -> by congruence.
      unfold fill_cell. rewrite B1. cbn [bind]. rewrite B2. cbn [bind]. rewrite E1. cbn [bind]. rewrite Ed. cbn [bind].
      rewrite E3, E4, !ToLog_fin. destruct Hs as [S1 S2].
      assert (C : (0 <= cell (rg_n gT) ng i b g < rg_n gR * rg_n gT * ng)%Z).
      { unfold cell. apply flat_lt; [|lia]. apply flat_lt; lia. }
      rewrite !set_flat_total by lia. cbn [bind]. eexists. split; [reflexivity|].
      split; cbn [fst snd]; now rewrite upd_length.
    - exists st. exact E.
  Qed.

  (** the constructor succeeds; the two tables *)
  Lemma MeanImpl_exact dbg opc :
    (dbg = true -> RuntimePC_eqb (RuntimePC_of (finpc pc)) opc = true) ->
    exists m,
      MeanImpl (finpc pc) dbg opc coef (Fin (rg_lo gR)) (Fin (rg_hi gR)) (rg_n gR) (Fin (rg_lo gT)) (Fin (rg_hi gT)) (rg_n gT)
        gb ng N = Ok m /\
      mt_ngroups m = ng /\
      holds (mt_lPlanck m) (photon_axes gR gT ng) (fun is =>
        log10 (Rabs (kappa_P (pow10 (rg_node gR (nth 0 is 0%Z))) (pow10 (rg_node gT (nth 1 is 0%Z))) (Z.to_nat (nth 2 is 0%Z))) + tiny)) /\
      holds (mt_lRosseland m) (photon_axes gR gT ng) (fun is =>
        log10 (Rabs (kappa_R (pow10 (rg_node gR (nth 0 is 0%Z))) (pow10 (rg_node gT (nth 1 is 0%Z))) (Z.to_nat (nth 2 is 0%Z))) + tiny)).
  Proof.
    intros Hd.
    destruct (fill_total (repeat (#0)%o (Z.to_nat (rg_n gR * rg_n gT * ng)), repeat (#0)%o (Z.to_nat (rg_n gR * rg_n gT * ng))))
      as (st & Es); [apply repeat_length|apply repeat_length|].
    assert (Hng : (0 < ng)%Z) by (pose proof (proj1 HG); lia).
    assert (EM : exists m, MeanImpl (finpc pc) dbg opc coef (Fin (rg_lo gR)) (Fin (rg_hi gR)) (rg_n gR)
       (Fin (rg_lo gT)) (Fin (rg_hi gT)) (rg_n gT) gb ng N = Ok m).
    { unfold MeanImpl. replace (dbg && _)%bool with false.
      2: { destruct dbg; [|reflexivity]. now rewrite Hd. }
      destruct (Z.ltb_spec N 2); [lia|].
      rewrite (proj2 (proj1 (Validate_spec er_values gb ng HL)) HG). cbn [bind].
      rewrite Set_spec by lia. cbn [bind]. rewrite !mk_grid_of by assumption. cbn [bind]. rewrite Es. cbn [bind]. eauto. }
    destruct EM as (m & EM). exists m. split; [exact EM|].
    destruct (MeanImpl_cells _ _ _ _ _ _ _ _ _ _ _ _ _ _ EM) as (gT' & gR' & dp & dr & E1 & E2 & _ & _ & -> & -> & E3 & L1 & L2 & C).
    rewrite mk_grid_of in E1 by assumption. rewrite mk_grid_of in E2 by assumption. injection E1 as <-. injection E2 as <-.
    split; [exact E3|].
    assert (K : forall i j g, (0 <= i < rg_n gR)%Z -> (0 <= j < rg_n gT)%Z -> (0 <= g < ng)%Z ->
      let c := (((0 * rg_n gR + i) * rg_n gT + j) * ng + g)%Z in
      let rho := pow10 (rg_node gR i) in let T := pow10 (rg_node gT j) in
      at_flat dp c = Ok (Fin (log10 (Rabs (kappa_P rho T (Z.to_nat g)) + tiny))) /\
      at_flat dr c = Ok (Fin (log10 (Rabs (kappa_R rho T (Z.to_nat g)) + tiny)))).
    { intros i j g Hi Hj Hg. cbv zeta.
      destruct (C (Z.to_nat i) (Z.to_nat j) (Z.to_nat g)) as (v & Gv & nuMin & nuMax & n & d & B1 & B2 & N1 & D1 & Ev & _).
      { unfold valid_cell. lia. }
      rewrite !g_x_of, !FromLog_fin, !Z2Nat.id in N1 by (assumption || lia).
      rewrite g_x_of, FromLog_fin, Z2Nat.id in D1 by (assumption || lia).
      destruct (cell_means (pow10 (rg_node gR i)) (pow10 (rg_node gT j)) (Z.to_nat g) (pow10_pos _) (pow10_pos _) ltac:(lia))
        as (x & y & n' & d' & B1' & B2' & N1' & D1' & M1 & M2).
      assert (x = nuMin) as -> by congruence. assert (y = nuMax) as -> by congruence.
      assert (n' = n) as -> by congruence. assert (d' = d) as -> by congruence.
      rewrite M1, M2, !ToLog_fin in Ev. subst v.
      unfold get2 in Gv. unfold cell in Gv. rewrite !Z2Nat.id in Gv by lia. cbn [fst snd] in Gv.
      replace (((0 * rg_n gR + i) * rg_n gT + j) * ng + g)%Z with ((i * rg_n gT + j) * ng + g)%Z by ring.
      destruct ((i * rg_n gT + j) * ng + g <? 0)%Z eqn:Eneg; [discriminate|]. unfold at_flat, load. rewrite Eneg.
      destruct (nth_error dp _) as [p|]; [|discriminate]. destruct (nth_error dr _) as [q|]; [|discriminate].
      injection Gv as -> ->. auto. }
    split; (split; [reflexivity|]); cbn [stores photon_axes rd_size db_data nth]; intros i Hi j Hj g Hg;
      now apply (K i j g).
  Qed.
End Photons.

(** * Neutrinos *)
Section Neutrinos.
  Context (pc : PhysConst ER) (coef : ER -> ER -> ER -> RadiationType -> ER -> result ER)
    (dist ddist : ER -> RadiationType -> ER -> result ER)
    (a : R -> R -> R -> RadiationType -> R -> R) (B dB : R -> RadiationType -> R -> R).
  Hypothesis HC : forall rho T Ye type nu, 0 < rho -> 0 < T -> 0 < nu ->
    coef (Fin rho) (Fin T) (Fin Ye) type (Fin nu) = Ok (Fin (a rho T Ye type nu)).
  Hypothesis HB : forall T type nu, 0 < T -> 0 < nu -> dist (Fin T) type (Fin nu) = Ok (Fin (B T type nu)) /\ 0 < B T type nu.
  Hypothesis HdB : forall T type nu, 0 < T -> 0 < nu -> ddist (Fin T) type (Fin nu) = Ok (Fin (dB T type nu)).
  Context (gR gT gY : rgrid) (HR : rg_ok gR) (HT : rg_ok gT) (HY : rg_ok gY).
  Context (l : R * R) (N : Z) (Hl : fst l < snd l) (HN : (0 < N)%Z).

  Definition nu_kappa_P (rho T Ye : R) (type : RadiationType) : R :=
    planck_mean_of (B T type) rho (a rho T Ye type) l N.
  Definition nu_kappa_R (rho T Ye : R) (type : RadiationType) : R :=
    nu_rosseland_mean_of (B T type) (dB T type) rho (a rho T Ye type) l N.

  Section Cell.
    Context (rho T Ye : R) (type : RadiationType) (Hr : 0 < rho) (HTp : 0 < T).
    Local Notation F := (fin_sums l N (B T type) (dB T type) (a rho T Ye type) rho).

    Lemma cell_samples : nu_samples_of coef dist ddist (Fin rho) (Fin T) (Fin Ye) type l N (B T type) (dB T type) (a rho T Ye type).
    Proof.
      intros i Hi nu. pose proof (frequency_pos l N i : 0 < nu) as P. split; [now apply HC|]. split; [now apply HB|now apply HdB].
    Qed.
    (** the running sums, and the means they give, are real numbers *)
    Lemma nu_prefix m : (m <= Z.to_nat N)%nat ->
      for_from m 0 (nu_step coef dist ddist (Fin rho) (Fin T) (Fin Ye) type (Fin (fst l))
        ((Fin (snd l) - Fin (fst l)) / #N)%o) zero_sums = Ok (F m).
    Proof.
      intros Hm. exact (nu_sums_from coef dist ddist (Fin rho) (Fin T) (Fin Ye) type l N (B T type) (dB T type) (a rho T Ye type) rho
        HN Hr eq_refl cell_samples m Hm).
    Qed.
    Lemma prefix_means m : exists x y, nu_means (F m) = (Fin x, Fin y).
    Proof.
      unfold nu_means. cbn [s_pn s_pd s_rn s_rd fin_sums].
      set (p := rsum m (fun i => mass rho (a rho T Ye type) (frequency l N i) * quad (B T type) l N i)).
      assert (Q : 0 <= rsum m (fun i => 1 * quad (B T type) l N i)).
      { apply rsum_nonneg. intros i _. rewrite Rmult_1_l. apply Rlt_le, quad_pos; auto. intros nu Hn. now apply HB. }
      rewrite ratio_pos by exact Q. unfold Ogtb. rewrite SMALL_fin, !fin_ltb. unfold Rltb. fold tiny. pose proof tiny_pos.
      destruct (Rlt_dec tiny _); cbn [andb]; [|do 2 eexists; reflexivity].
      destruct (Rlt_dec tiny _); [|do 2 eexists; reflexivity].
      rewrite ratio_pos by lra. do 2 eexists; reflexivity.
    Qed.
    Lemma store_total c m st : (0 <= c < Z.of_nat (length (fst st)))%Z -> (0 <= c < Z.of_nat (length (snd st)))%Z ->
      exists st', nu_store c (F m) st = Ok st' /\ same_size st st'.
    Proof.
      intros H1 H2. unfold nu_store. destruct (prefix_means m) as (x & y & ->). cbn [fst snd]. rewrite !ToLog_fin.
      rewrite !set_flat_total by lia. cbn [bind]. eexists. split; [reflexivity|].
      split; cbn [fst snd]; now rewrite upd_length.
    Qed.
  End Cell.

  Lemma Idx_total idx : (idx < 3)%nat -> exists type, Idx2RadType (Z.of_nat idx) = Ok type /\ RadType2Idx type = Z.of_nat idx.
  Proof. intros H. do 3 (destruct idx as [|idx]; [eexists; split; reflexivity|]). lia. Qed.

  Lemma nu_fill_total inside rho T Ye i j y idx st : 0 < rho -> 0 < T -> (idx < 3)%nat ->
    let c := nu_cell (rg_n gT) (rg_n gY) i j y idx in
    (0 <= c < Z.of_nat (length (fst st)))%Z -> (0 <= c < Z.of_nat (length (snd st)))%Z ->
    exists st', nu_fill coef dist ddist inside (Fin rho) (Fin T) (Fin Ye) (Fin (fst l)) (Fin (snd l)) N (rg_n gT) (rg_n gY) i j y idx st = Ok st'
      /\ same_size st st'.
  Proof.
    intros Hr HTp Hi c L1 L2. unfold nu_fill. destruct (Idx_total idx Hi) as (type & -> & _). cbn [bind]. cbv zeta. fold c.
    destruct inside.
    - assert (K : forall m, (m <= Z.to_nat N)%nat -> exists s, for_from m 0 (fun inu e =>
             a <- nu_step coef dist ddist (Fin rho) (Fin T) (Fin Ye) type (Fin (fst l)) ((Fin (snd l) - Fin (fst l)) / #N)%o inu (fst e) ;;
             st <- nu_store c a (snd e) ;;
             Ok (a, st)) (zero_sums, st) = Ok (fin_sums l N (B T type) (dB T type) (a rho T Ye type) rho m, s) /\ same_size st s).
      { induction m as [|m IH]; intros Hm.
        - exists st. split; [reflexivity|apply same_size_refl].
        - destruct IH as (s & E & SS); [lia|]. rewrite for_from_S_last, E. cbn [bind fst snd Nat.add].
          pose proof (nu_prefix rho T Ye type Hr HTp (S m) Hm) as P. rewrite for_from_S_last in P.
          rewrite (nu_prefix rho T Ye type Hr HTp m ltac:(lia)) in P. cbn [bind Nat.add] in P. rewrite P. cbn [bind].
          destruct SS as [S1 S2].
          destruct (store_total rho T Ye type HTp c (S m) s) as (s' & -> & S'); [lia|lia|].
          cbn [bind]. exists s'. split; [reflexivity|]. destruct S' as [S3 S4]. split; congruence. }
      destruct (K (Z.to_nat N) ltac:(lia)) as (s & E & S). unfold for_int, for_loop. rewrite E. cbn [bind snd]. eauto.
    - unfold for_int, for_loop. rewrite (nu_prefix rho T Ye type Hr HTp _ (le_n _)). cbn [bind].
      now apply store_total.
  Qed.

  Lemma nu_fill_tables_total inside z :
    length (fst z) = Z.to_nat (rg_n gR * rg_n gT * rg_n gY * NEUTRINO_NTYPES) ->
    length (snd z) = Z.to_nat (rg_n gR * rg_n gT * rg_n gY * NEUTRINO_NTYPES) ->
    exists st, nu_fill_tables coef dist ddist inside (grid_of gR) (grid_of gT) (grid_of gY) (rg_n gR) (rg_n gT) (rg_n gY)
      (Fin (fst l)) (Fin (snd l)) N z = Ok st.
  Proof.
    intros L1 L2. set (P := same_size z).
    assert (E : exists st, nu_fill_tables coef dist ddist inside (grid_of gR) (grid_of gT) (grid_of gY) (rg_n gR) (rg_n gT) (rg_n gY)
      (Fin (fst l)) (Fin (snd l)) N z = Ok st /\ P st).
    { unfold nu_fill_tables. apply for_int_total; [apply same_size_refl|]. intros i s Hi Hs.
      apply for_int_total; [exact Hs|]. clear s Hs. intros j s Hj Hs.
      apply for_int_total; [exact Hs|]. clear s Hs. intros y s Hy Hs.
      apply for_int_total; [exact Hs|]. clear s Hs. intros idx s Hx Hs.
      rewrite !g_x_of by assumption. rewrite !FromLog_fin.
      assert (C : (0 <= nu_cell (rg_n gT) (rg_n gY) i j y idx < rg_n gR * rg_n gT * rg_n gY * NEUTRINO_NTYPES)%Z).
      { unfold nu_cell. unfold NEUTRINO_NTYPES in *. apply flat_lt; [|lia]. apply flat_lt; [|lia]. apply flat_lt; lia. }
      destruct Hs as [S1 S2].
      destruct (nu_fill_total inside (pow10 (rg_node gR (Z.of_nat i))) (pow10 (rg_node gT (Z.of_nat j))) (rg_node gY (Z.of_nat y))
        i j y idx s (pow10_pos _) (pow10_pos _)) as (s' & E & S').
      - unfold NEUTRINO_NTYPES in Hx. lia.
      - lia.
      - lia.
      - exists s'. split; [exact E|]. apply (same_size_trans z s s'); [split; assumption|exact S']. }
    destruct E as (st & E & _). eauto.
  Qed.

  Definition type_of (i : Z) : RadiationType := match Idx2RadType i with Ok t => t | _ => NU_ELECTRON end.
  Definition auto_or (range : option (ER * ER)) : ER * ER :=
    match range with Some r => r | None => auto_range pc (Fin (rg_lo gT)) (Fin (rg_hi gT)) end.

  Lemma nu_impl_exact inside range : auto_or range = (Fin (fst l), Fin (snd l)) ->
    exists m,
      nu_impl pc coef dist ddist inside (Fin (rg_lo gR)) (Fin (rg_hi gR)) (rg_n gR) (Fin (rg_lo gT)) (Fin (rg_hi gT)) (rg_n gT)
        (Fin (rg_lo gY)) (Fin (rg_hi gY)) (rg_n gY) range N = Ok m /\
      holds (nm_lPlanck m) (neutrino_axes gR gT gY) (fun is =>
        log10 (Rabs (nu_kappa_P (pow10 (rg_node gR (nth 0 is 0%Z))) (pow10 (rg_node gT (nth 1 is 0%Z))) (rg_node gY (nth 2 is 0%Z))
          (type_of (nth 3 is 0%Z))) + tiny)) /\
      holds (nm_lRosseland m) (neutrino_axes gR gT gY) (fun is =>
        log10 (Rabs (nu_kappa_R (pow10 (rg_node gR (nth 0 is 0%Z))) (pow10 (rg_node gT (nth 1 is 0%Z))) (rg_node gY (nth 2 is 0%Z))
          (type_of (nth 3 is 0%Z))) + tiny)).
  Proof.
    intros HA.
    destruct (nu_fill_tables_total inside (repeat (#0)%o (Z.to_nat (rg_n gR * rg_n gT * rg_n gY * NEUTRINO_NTYPES)),
      repeat (#0)%o (Z.to_nat (rg_n gR * rg_n gT * rg_n gY * NEUTRINO_NTYPES)))) as (st & Es); [apply repeat_length|apply repeat_length|].
    assert (EM : exists m, nu_impl pc coef dist ddist inside (Fin (rg_lo gR)) (Fin (rg_hi gR)) (rg_n gR)
        (Fin (rg_lo gT)) (Fin (rg_hi gT)) (rg_n gT) (Fin (rg_lo gY)) (Fin (rg_hi gY)) (rg_n gY) range N = Ok m).
    { unfold nu_impl. rewrite !mk_grid_of by assumption. cbn [bind].
      change (match range with Some r => r | None => auto_range pc (Fin (rg_lo gT)) (Fin (rg_hi gT)) end) with (auto_or range).
      rewrite HA. cbn [fst snd]. rewrite Es. cbn [bind]. eauto. }
    destruct EM as (m & EM). exists m. split; [exact EM|].
    destruct (nu_impl_cells _ _ _ _ _ _ _ _ _ _ _ _ _ _ _ _ _ (or_intror HN) EM)
      as (gY' & gT' & gR' & dp & dr & E0 & E1 & E2 & -> & -> & L1 & L2 & C).
    rewrite mk_grid_of in E0 by assumption. rewrite mk_grid_of in E1 by assumption. rewrite mk_grid_of in E2 by assumption.
    injection E0 as <-. injection E1 as <-. injection E2 as <-.
    change (match range with Some r => r | None => auto_range pc (Fin (rg_lo gT)) (Fin (rg_hi gT)) end) with (auto_or range) in C.
    rewrite HA in C. cbn [fst snd] in C.
    assert (K : forall i j y x, (0 <= i < rg_n gR)%Z -> (0 <= j < rg_n gT)%Z -> (0 <= y < rg_n gY)%Z -> (0 <= x < 3)%Z ->
      let c := ((((0 * rg_n gR + i) * rg_n gT + j) * rg_n gY + y) * 3 + x)%Z in
      let rho := pow10 (rg_node gR i) in let T := pow10 (rg_node gT j) in let Ye := rg_node gY y in
      at_flat dp c = Ok (Fin (log10 (Rabs (nu_kappa_P rho T Ye (type_of x)) + tiny))) /\
      at_flat dr c = Ok (Fin (log10 (Rabs (nu_kappa_R rho T Ye (type_of x)) + tiny)))).
    { intros i j y x Hi Hj Hy Hx. cbv zeta.
      destruct (C (Z.to_nat i) (Z.to_nat j) (Z.to_nat y) (Z.to_nat x)) as (v & Gv & type & s & Et & Es' & Ev & _).
      { unfold valid_nu_cell, NEUTRINO_NTYPES. lia. }
      rewrite !g_x_of, !FromLog_fin, !Z2Nat.id in Es' by (assumption || lia). rewrite Z2Nat.id in Et by lia.
      rewrite (nu_sums_fin coef dist ddist _ _ _ type l N (B (pow10 (rg_node gT j)) type) (dB (pow10 (rg_node gT j)) type)
        (a (pow10 (rg_node gR i)) (pow10 (rg_node gT j)) (rg_node gY y) type) (pow10 (rg_node gR i)) HN (pow10_pos _) eq_refl) in Es'
        by (apply cell_samples; apply pow10_pos).
      injection Es' as <-.
      rewrite nu_means_fin in Ev by first [exact Hl | exact HN | apply pow10_pos | intros nu Hn; apply HB; [apply pow10_pos|exact Hn]].
      cbn [fst snd] in Ev. rewrite !ToLog_fin in Ev. subst v.
      assert (type_of x = type) as -> by (unfold type_of; now rewrite Et).
      unfold get2, nu_cell in Gv. unfold NEUTRINO_NTYPES in Gv. rewrite !Z2Nat.id in Gv by lia. cbn [fst snd] in Gv.
      replace ((((0 * rg_n gR + i) * rg_n gT + j) * rg_n gY + y) * 3 + x)%Z with
        (((i * rg_n gT + j) * rg_n gY + y) * 3 + x)%Z by ring.
      destruct (((i * rg_n gT + j) * rg_n gY + y) * 3 + x <? 0)%Z eqn:Eneg; [discriminate|]. unfold at_flat, load. rewrite Eneg.
      destruct (nth_error dp _) as [p|]; [|discriminate]. destruct (nth_error dr _) as [q|]; [|discriminate].
      injection Gv as -> ->. auto. }
    split; (split; [reflexivity|]); cbn [stores neutrino_axes rd_size db_data nth]; intros i Hi j Hj y Hy x Hx;
      now apply (K i j y x).
  Qed.
End Neutrinos.
