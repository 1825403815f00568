(** C54. Averaging respects sums, factors and order. *)
From Coq Require Import Reals ZArith List Lia Lra Bool.
From Verif Require Import Base.Outcome Base.Ops Inst.ER Inst.ERTac Model.Constants Model.Robust Model.RadTypes
  Model.PhotonApi Model.NeutrinoApi Model.GrayPhotons Model.OpacNeutrinos Model.Spiner Model.MeanUtils
  Model.MeanPhotons Model.MeanNeutrinos Spec.Physics Spec.Opacities Spec.Tables Spec.Groups Spec.Means Inst.RConsts
  Proofs.InterpFacts Proofs.TableFacts Proofs.ModelFacts Proofs.PlanckFacts Proofs.MeanExact Proofs.MeanTotal Proofs.MeanNodes Proofs.BoseIntegral Proofs.C31 Proofs.C32 Proofs.C35.
Import ListNotations.
Open Scope R_scope.

(** ** Interpolation is monotone inside the grid *)
Lemma mlin_mono cs dims f f' : Forall rd_ok dims -> inside cs dims ->
  (forall is, near cs dims is -> f is <= f' is) -> mlin cs dims f <= mlin cs dims f'.
Proof.
  revert dims f f'. induction cs as [|[x|j] cs IH]; intros [|[g|n] ds] f f' W I B; cbn in I; try contradiction.
  - cbn. apply B. exact Logic.I.
  - inversion W as [|? ? W1 W2]; subst. destruct I as (I1 & I2). cbn [mlin].
    pose proof (w_inside g W1 x I1) as w. pose proof (cell_range g W1 x) as C.
    pose proof (pos_of_cell g W1 x) as P. pose proof (dx_pos g W1) as D.
    assert (A0 : mlin cs ds (fun is => f (rg_cell g x :: is)) <= mlin cs ds (fun is => f' (rg_cell g x :: is))).
    { apply IH; auto. intros is N. apply B. cbn. split; [lia|]. split; [|exact N].
      replace (x - rg_node g (rg_cell g x)) with (rg_w g x * rg_dx g) by lra.
      rewrite Rabs_pos_eq by (apply Rmult_le_pos; lra).
      assert (rg_w g x * rg_dx g <= 1 * rg_dx g) by (apply Rmult_le_compat_r; lra). lra. }
    assert (A1 : mlin cs ds (fun is => f ((rg_cell g x + 1)%Z :: is)) <= mlin cs ds (fun is => f' ((rg_cell g x + 1)%Z :: is))).
    { apply IH; auto. intros is N. apply B. cbn. split; [lia|]. split; [|exact N].
      rewrite node_succ. replace (x - (rg_node g (rg_cell g x) + rg_dx g)) with (- ((1 - rg_w g x) * rg_dx g)) by lra.
      rewrite Rabs_Ropp, Rabs_pos_eq by (apply Rmult_le_pos; lra).
      assert ((1 - rg_w g x) * rg_dx g <= 1 * rg_dx g) by (apply Rmult_le_compat_r; lra). lra. }
    apply Rplus_le_compat; apply Rmult_le_compat_l; lra.
  - inversion W as [|? ? W1 W2]; subst. destruct I as (I1 & I2). cbn [mlin]. apply IH; auto.
    intros is N. apply B. cbn. auto.
Qed.

(** ** The guarded averages *)
Section Order.
  Context (l : R * R) (N : Z) (Hl : fst l < snd l) (HN : (0 < N)%Z).
  Local Notation nu i := (frequency l N i).
  Local Notation samples P := (forall i, (i < Z.to_nat N)%nat -> P (frequency l N i)).

  Lemma planck_linear w rho a1 a2 c1 c2 :
    planck_mean_of w rho (fun x => c1 * a1 x + c2 * a2 x) l N =
    c1 * planck_mean_of w rho a1 l N + c2 * planck_mean_of w rho a2 l N.
  Proof.
    unfold planck_mean_of. assert (E : average_sum w l N (mass rho (fun x => c1 * a1 x + c2 * a2 x)) =
      c1 * average_sum w l N (mass rho a1) + c2 * average_sum w l N (mass rho a2)).
    { unfold average_sum, mass. rewrite <- !rsum_scal, <- rsum_plus. apply rsum_ext. intros i _. unfold Rdiv. ring. }
    rewrite E. unfold Rdiv. ring.
  Qed.

  Context (B dB : R -> R) (HB : forall x, 0 < x -> 0 < B x) (HdB : forall x, 0 < x -> 0 < dB x).
  Context (rho : R) (Hr : 0 < rho).

  Lemma planck_nonneg a : samples (fun x => 0 <= a x) -> 0 <= planck_mean_of B rho a l N.
  Proof.
    intros H. pose proof tiny_pos as Tp. pose proof (average_pos l N Hl HN B HB) as HD. unfold planck_mean_of.
    apply Rmult_le_pos; [|apply Rlt_le, Rinv_0_lt_compat; lra].
    replace 0 with (average_sum B l N (fun _ => 0)) by (rewrite (average_const B l N 0 (fun _ => 0)); [ring|reflexivity]).
    apply average_le; auto. intros i Hi. unfold mass. apply Rmult_le_pos; [now apply H|]. apply Rlt_le, Rinv_0_lt_compat; lra.
  Qed.
  Lemma planck_mono a b : samples (fun x => a x <= b x) -> planck_mean_of B rho a l N <= planck_mean_of B rho b l N.
  Proof.
    intros H. pose proof tiny_pos as Tp. pose proof (average_pos l N Hl HN B HB) as HD. unfold planck_mean_of.
    apply Rmult_le_compat_r; [apply Rlt_le, Rinv_0_lt_compat; lra|].
    apply average_le; auto. intros i Hi. unfold mass. apply Rmult_le_compat_r; [apply Rlt_le, Rinv_0_lt_compat; lra|now apply H].
  Qed.

  Local Notation D := (average_sum dB l N (fun _ => 1)).
  Local Notation M a := (average_sum dB l N (inverse rho a)).
  Lemma counted_all a : samples (fun x => tiny < a x) -> average_sum dB l N (counted a) = D.
  Proof. intros H. unfold average_sum. apply rsum_ext. intros i Hi. unfold counted. destruct (Rlt_dec tiny _); [reflexivity|]. exfalso. apply n. now apply H. Qed.
  Lemma inverse_anti a b : samples (fun x => tiny < a x /\ a x <= b x) -> M b <= M a.
  Proof.
    intros H. pose proof tiny_pos as Tp. apply average_le; auto. intros i Hi. destruct (H i Hi) as [H1 H2]. unfold inverse.
    destruct (Rlt_dec tiny (b _)); [|lra]. destruct (Rlt_dec tiny (a _)); [|lra].
    apply Rmult_le_compat_l; [lra|]. apply Rinv_le_contravar; lra.
  Qed.
  Lemma inverse_scaled a c : 1 <= c -> samples (fun x => tiny < a x) -> M a <= c * M (fun x => c * a x).
  Proof.
    intros Hc H. pose proof tiny_pos as Tp. rewrite <- average_scal. apply average_le; auto. intros i Hi. specialize (H i Hi); cbv beta in H. unfold inverse.
    set (x := a (frequency l N i)) in *. assert (x <= c * x) by nra. destruct (Rlt_dec tiny (c * x)); [|lra]. destruct (Rlt_dec tiny x); [|lra].
    replace (c * (rho / (c * x + tiny))) with (rho / (x + tiny / c)) by (field; repeat split; nra).
    apply Rmult_le_compat_l; [lra|]. assert (0 < tiny / c) by (apply Rmult_lt_0_compat; [lra|apply Rinv_0_lt_compat; lra]).
    apply Rinv_le_contravar; [lra|]. assert (tiny / c <= tiny).
    { apply (Rmult_le_reg_r c); [lra|]. replace (tiny / c * c) with tiny by (field; lra). nra. } lra.
  Qed.
  (** not so opaque that the inverse average drops below the guard *)
  Definition passable (a : R -> R) : Prop := exists hi, 0 < hi /\ samples (fun x => (a x + tiny) / rho <= hi) /\ hi * tiny < D.
  Lemma passable_above a : samples (fun x => tiny < a x) -> passable a -> tiny < M a.
  Proof.
    intros H (hi & Hh & Hs & Hd). pose proof tiny_pos as Tp. apply Rlt_le_trans with (D / hi).
    - apply (Rmult_lt_reg_r hi); [lra|]. replace (D / hi * hi) with D by (field; lra). lra.
    - unfold Rdiv. rewrite Rmult_comm, <- average_scal. apply average_le; auto. intros i Hi. specialize (H i Hi); cbv beta in H. specialize (Hs i Hi); cbv beta in Hs. unfold inverse.
      destruct (Rlt_dec tiny (a _)); [|lra]. set (x := a (frequency l N i)) in *. rewrite Rmult_1_r. replace (rho / (x + tiny)) with (/ ((x + tiny) / rho)) by (field; lra).
      apply Rinv_le_contravar; [|exact Hs]. apply Rmult_lt_0_compat; [lra|apply Rinv_0_lt_compat; lra].
  Qed.
  Lemma quotient_anti x m m' : 0 <= x -> 0 < m + tiny -> m <= m' -> x / (m' + tiny) <= x / (m + tiny).
  Proof. intros. apply Rmult_le_compat_l; [lra|]. apply Rinv_le_contravar; lra. Qed.
  Lemma D_pos : 0 < D.
  Proof. exact (average_pos l N Hl HN dB HdB). Qed.
  Lemma M_nonneg a : samples (fun x => tiny < a x) -> 0 <= M a.
  Proof.
    intros H. pose proof tiny_pos as Tp. replace 0 with (average_sum dB l N (fun _ => 0)) by (rewrite (average_const dB l N 0 (fun _ => 0)); [ring|reflexivity]).
    apply average_le; auto. intros i Hi. specialize (H i Hi); cbv beta in H. unfold inverse. destruct (Rlt_dec tiny (a _)); [|lra].
    apply Rmult_le_pos; [lra|]. apply Rlt_le, Rinv_0_lt_compat; lra.
  Qed.

  Lemma rosseland_mono a b : samples (fun x => tiny < a x /\ a x <= b x) -> passable b ->
    0 <= rosseland_mean_of dB rho a l N <= rosseland_mean_of dB rho b l N.
  Proof.
    intros H Pb. pose proof tiny_pos as Tp. pose proof D_pos as Dp. pose proof (inverse_anti a b H) as A.
    assert (Hb : samples (fun x => tiny < b x)) by (intros i Hi; destruct (H i Hi); lra). pose proof (passable_above b Hb Pb) as Mb.
    unfold rosseland_mean_of. cbv zeta. destruct (Rlt_dec tiny D); [|lra]. destruct (Rlt_dec tiny (M b)); [|lra]. destruct (Rlt_dec tiny (M a)); [|lra].
    split; [apply Rmult_le_pos; [lra|apply Rlt_le, Rinv_0_lt_compat; lra]|]. apply quotient_anti; lra.
  Qed.
  Lemma nu_rosseland_mono a b : samples (fun x => tiny < a x /\ a x <= b x) -> passable b ->
    0 <= nu_rosseland_mean_of B dB rho a l N <= nu_rosseland_mean_of B dB rho b l N.
  Proof.
    intros H Pb. pose proof tiny_pos as Tp. pose proof D_pos as Dp. pose proof (inverse_anti a b H) as A.
    assert (Hb : samples (fun x => tiny < b x)) by (intros i Hi; destruct (H i Hi); lra). pose proof (passable_above b Hb Pb) as Mb.
    assert (Ha : samples (fun x => tiny < a x)) by (intros i Hi; now destruct (H i Hi)).
    assert (PP : planck_mean_of B rho a l N <= planck_mean_of B rho b l N) by (apply planck_mono; intros i Hi; now destruct (H i Hi)).
    unfold nu_rosseland_mean_of. cbv zeta. rewrite (counted_all a Ha), (counted_all b Hb).
    destruct (Rlt_dec tiny (M b)); [|lra].
    assert (0 <= D / (M b + tiny)) by (apply Rmult_le_pos; [lra|apply Rlt_le, Rinv_0_lt_compat; lra]).
    destruct (Rlt_dec tiny (M a)); [|lra].
    assert (0 <= D / (M a + tiny)) by (apply Rmult_le_pos; [lra|apply Rlt_le, Rinv_0_lt_compat; lra]).
    assert (D / (M a + tiny) <= D / (M b + tiny)) by (apply quotient_anti; lra).
    destruct (Rlt_dec tiny (planck_mean_of B rho a l N)); destruct (Rlt_dec tiny (planck_mean_of B rho b l N)); lra.
  Qed.
  Lemma quotient_scaled c m m' : 1 <= c -> 0 < m + tiny -> 0 <= m' -> m <= c * m' -> D / (m' + tiny) <= c * (D / (m + tiny)).
  Proof.
    intros Hc Hm Hm' H. pose proof tiny_pos as Tp. pose proof D_pos as Dp.
    replace (c * (D / (m + tiny))) with (D / ((m + tiny) / c)) by (field; lra). apply Rmult_le_compat_l; [lra|].
    apply Rinv_le_contravar; [apply Rmult_lt_0_compat; [lra|apply Rinv_0_lt_compat; lra]|].
    apply (Rmult_le_reg_r c); [lra|]. replace ((m + tiny) / c * c) with (m + tiny) by (field; lra). nra.
  Qed.
  Lemma rosseland_scaled a c : 1 <= c -> samples (fun x => tiny < a x) -> passable (fun x => c * a x) ->
    rosseland_mean_of dB rho (fun x => c * a x) l N <= c * rosseland_mean_of dB rho a l N.
  Proof.
    intros Hc H Pb. pose proof tiny_pos as Tp. pose proof D_pos as Dp. pose proof (inverse_scaled a c Hc H) as A.
    assert (Hb : samples (fun x => tiny < c * a x)) by (intros i Hi; specialize (H i Hi); cbv beta in H; cbn; nra). pose proof (passable_above _ Hb Pb) as Mb.
    assert (A' : M (fun x => c * a x) <= M a) by (apply inverse_anti; intros i Hi; specialize (H i Hi); cbv beta in H; cbn; nra).
    unfold rosseland_mean_of. cbv zeta. destruct (Rlt_dec tiny D); [|lra]. destruct (Rlt_dec tiny (M (fun x => c * a x))); [|lra]. destruct (Rlt_dec tiny (M a)); [|lra].
    apply quotient_scaled; lra.
  Qed.
  Lemma nu_rosseland_scaled a c : 1 <= c -> samples (fun x => tiny < a x) -> passable (fun x => c * a x) ->
    tiny < planck_mean_of B rho a l N ->
    nu_rosseland_mean_of B dB rho (fun x => c * a x) l N <= c * nu_rosseland_mean_of B dB rho a l N.
  Proof.
    intros Hc H Pb HP. pose proof tiny_pos as Tp. pose proof D_pos as Dp. pose proof (inverse_scaled a c Hc H) as A.
    assert (Hb : samples (fun x => tiny < c * a x)) by (intros i Hi; specialize (H i Hi); cbv beta in H; cbn; nra). pose proof (passable_above _ Hb Pb) as Mb.
    assert (A' : M (fun x => c * a x) <= M a) by (apply inverse_anti; intros i Hi; specialize (H i Hi); cbv beta in H; cbn; nra).
    unfold nu_rosseland_mean_of. cbv zeta. rewrite (counted_all a H), (counted_all _ Hb).
    assert (PP : planck_mean_of B rho a l N <= planck_mean_of B rho (fun x => c * a x) l N) by (apply planck_mono; intros i Hi; specialize (H i Hi); cbv beta in H; cbn; nra).
    destruct (Rlt_dec tiny (M (fun x => c * a x))); [|lra]. destruct (Rlt_dec tiny (M a)); [|lra].
    destruct (Rlt_dec tiny (planck_mean_of B rho a l N)); [|lra]. destruct (Rlt_dec tiny (planck_mean_of B rho (fun x => c * a x) l N)); [|lra].
    apply quotient_scaled; lra.
  Qed.
End Order.

(** ** From the nodes to every state inside the grid *)
Lemma mlin_shift cs dims f k : inside cs dims -> mlin cs dims (fun is => k + f is) = k + mlin cs dims f.
Proof.
  revert dims f. induction cs as [|[x|j] cs IH]; intros [|[g|n] ds] f I; cbn in I; try contradiction.
  - reflexivity.
  - destruct I as (I1 & I2). cbn [mlin]. rewrite (IH ds (fun is => f (rg_cell g x :: is)) I2), (IH ds (fun is => f ((rg_cell g x + 1)%Z :: is)) I2). ring.
  - destruct I as (I1 & I2). cbn [mlin]. now rewrite (IH ds (fun is => f (j :: is)) I2).
Qed.
(** stored logarithms of ordered values, within a factor c *)
Lemma pow10_ordered cs dims u v : Forall rd_ok dims -> inside cs dims ->
  (forall is, near cs dims is -> 0 <= u is <= v is) ->
  pow10 (mlin cs dims (fun is => log10 (u is + tiny))) <= pow10 (mlin cs dims (fun is => log10 (v is + tiny))).
Proof.
  intros W I H. pose proof tiny_pos as Tp. apply pow10_le, mlin_mono; auto. intros is N. specialize (H is N). apply log10_le; lra.
Qed.
Lemma log10_mul x y : 0 < x -> 0 < y -> log10 (x * y) = log10 x + log10 y.
Proof. intros. unfold log10. rewrite ln_mult by assumption. unfold Rdiv. ring. Qed.
Lemma pow10_scaled cs dims u v c : Forall rd_ok dims -> inside cs dims -> 1 <= c ->
  (forall is, near cs dims is -> 0 <= u is /\ 0 <= v is <= c * u is) ->
  pow10 (mlin cs dims (fun is => log10 (v is + tiny))) <= c * pow10 (mlin cs dims (fun is => log10 (u is + tiny))).
Proof.
  intros W I Hc H. pose proof tiny_pos as Tp. replace c with (pow10 (log10 c)) at 1 by (apply pow10_log10; lra).
  rewrite <- pow10_add, <- (mlin_shift _ _ _ _ I). apply pow10_le, mlin_mono; auto. intros is N. specialize (H is N).
  rewrite <- log10_mul by lra. apply log10_le; [lra|]. nra.
Qed.

(** ** Photons *)
(** the state is inside the grid of the table *)
Definition in_grid (gR gT : rgrid) (rho temp : R) : Prop :=
  0 <= rho /\ 0 <= temp /\ rg_inside gR (log10 (rho + tiny)) /\ rg_inside gT (log10 (temp + tiny)).
(** for positive arguments; at the nodes, for every frequency *)
Definition everywhere (P : R -> R -> R -> Prop) : Prop := forall rho T nu, 0 < rho -> 0 < T -> 0 < nu -> P rho T nu.
Definition on_grid (gR gT : rgrid) (P : R -> R -> R -> Prop) : Prop :=
  forall i j nu, (0 <= i < rg_n gR)%Z -> (0 <= j < rg_n gT)%Z -> 0 < nu -> P (pow10 (rg_node gR i)) (pow10 (rg_node gT j)) nu.
(** at no node is the group so opaque that the Rosseland average is cut off by the guard: the
    guarded mass coefficients are bounded by some hi with hi tiny below the sum of the weights *)
Definition not_cut_off (pc : PhysConst R) (gb : list ER) (N : Z) (gR gT : rgrid) (ng : Z) (a : R -> R -> R -> R) : Prop :=
  at_every_node gR gT ng (fun rho T g => exists hi, 0 < hi /\
    (forall i, (i < Z.to_nat N)%nat -> (a rho T (frequency (group_logs pc gb T (Z.to_nat g)) N i) + tiny) / rho <= hi) /\
    hi * tiny < rosseland_weight pc gb N T g).
(** the two constructors' arguments other than the coefficient *)
Definition photon_mean (pc : PhysConst R) (dbg : bool) (opc : RuntimePC ER) (coef : ER -> ER -> ER -> result ER)
  (gR gT : rgrid) (gb : list ER) (ng N : Z) : result (MeanTable ER) :=
  MeanImpl (finpc pc) dbg opc coef (Fin (rg_lo gR)) (Fin (rg_hi gR)) (rg_n gR)
    (Fin (rg_lo gT)) (Fin (rg_hi gT)) (rg_n gT) gb ng N.

Section Photon.
  Context (pc : PhysConst R) (Hp : positive_hkc pc) (gR gT : rgrid) (gb : list ER) (ng N : Z)
    (HR : rg_ok gR) (HT : rg_ok gT) (HG : partition (edge (fun x => x) gb) (Z.to_nat ng)) (HL : (ng < Z.of_nat (length gb))%Z) (HN : (2 <= N)%Z).

  Lemma group_logs_incr T g : 0 < T -> (0 <= g < ng)%Z -> fst (group_logs pc gb T (Z.to_nat g)) < snd (group_logs pc gb T (Z.to_nat g)).
  Proof.
    intros HTp Hg. destruct Hp as (Hh & Hk & Hc). destruct (edge_group gb ng HG HL (Z.to_nat g) ltac:(lia)) as (e & Ee & GG & _ & _).
    unfold group_logs. rewrite Ee. apply logs_incr. now apply window_pos.
  Qed.
  Lemma sample_pos l i : 0 < frequency l N i.
  Proof. unfold frequency. apply pow10_pos. Qed.

  Local Notation node_value K is := (K (pow10 (rg_node gR (nth 0 is 0%Z))) (pow10 (rg_node gT (nth 1 is 0%Z))) (Z.to_nat (nth 2 is 0%Z))).
  (** a lookup inside the grid, from the stored means *)
  Lemma lookup_mlin m gmode K rho temp g : in_grid gR gT rho temp -> (0 <= g < ng)%Z ->
    holds (selected m gmode) (photon_axes gR gT ng) (fun is => log10 (Rabs (node_value K is) + tiny)) ->
    inside (photon_query rho temp g) (photon_axes gR gT ng) /\
    mt_Coefficient m (Fin rho) (Fin temp) g gmode =
      Ok (Fin (rho * pow10 (mlin (photon_query rho temp g) (photon_axes gR gT ng) (fun is => log10 (Rabs (node_value K is) + tiny))))).
  Proof.
    intros (P1 & P2 & I1 & I2) Hg H. assert (I : inside (photon_query rho temp g) (photon_axes gR gT ng)) by (cbn; auto).
    split; [exact I|]. rewrite Coefficient_selected. apply group_coefficient_mlin; auto. apply inside_ok; auto. now apply photon_axes_ok.
  Qed.
  (** comparing the lookups of two tables *)
  Lemma compare_lookups m1 m2 gmode K1 K2 c rho temp g : in_grid gR gT rho temp -> (0 <= g < ng)%Z ->
    holds (selected m1 gmode) (photon_axes gR gT ng) (fun is => log10 (Rabs (node_value K1 is) + tiny)) ->
    holds (selected m2 gmode) (photon_axes gR gT ng) (fun is => log10 (Rabs (node_value K2 is) + tiny)) ->
    at_every_node gR gT ng (fun r T g => 0 <= K1 r T (Z.to_nat g) <= K2 r T (Z.to_nat g)) ->
    exists A1 A2, mt_Coefficient m1 (Fin rho) (Fin temp) g gmode = Ok (Fin A1) /\ mt_Coefficient m2 (Fin rho) (Fin temp) g gmode = Ok (Fin A2) /\
      A1 <= A2 /\ (1 <= c -> at_every_node gR gT ng (fun r T g => K2 r T (Z.to_nat g) <= c * K1 r T (Z.to_nat g)) -> A2 <= c * A1).
  Proof.
    intros G Hg H1 H2 HK. destruct (lookup_mlin m1 gmode K1 rho temp g G Hg H1) as (I & E1). destruct (lookup_mlin m2 gmode K2 rho temp g G Hg H2) as (_ & E2).
    pose proof (photon_axes_ok gR gT ng HR HT) as W. destruct G as (P1 & P2 & _). do 2 eexists. split; [exact E1|]. split; [exact E2|]. split.
    - apply Rmult_le_compat_l; [exact P1|]. apply pow10_ordered; auto. intros [|i [|j [|k [|? ?]]]] Nr; cbn in Nr; try tauto.
      destruct Nr as (N1 & N2 & N3 & N4 & N5 & N6 & _). subst k. cbn [nth]. specialize (HK i j g N1 N3 Hg). cbv beta in HK. rewrite !Rabs_pos_eq by lra. exact HK.
    - intros Hc HU. rewrite <- Rmult_assoc, (Rmult_comm c rho), Rmult_assoc. apply Rmult_le_compat_l; [exact P1|]. apply pow10_scaled; auto.
      intros [|i [|j [|k [|? ?]]]] Nr; cbn in Nr; try tauto.
      destruct Nr as (N1 & N2 & N3 & N4 & N5 & N6 & _). subst k. cbn [nth]. specialize (HK i j g N1 N3 Hg). specialize (HU i j g N1 N3 Hg). cbv beta in HK, HU. rewrite !Rabs_pos_eq by lra. lra.
  Qed.
  Context (a1 a2 : R -> R -> R -> R).
  Lemma nodes_planck : on_grid gR gT (fun rho T nu => 0 <= a1 rho T nu <= a2 rho T nu) ->
    at_every_node gR gT ng (fun r T g => 0 <= kappa_P pc a1 gb N r T (Z.to_nat g) <= kappa_P pc a2 gb N r T (Z.to_nat g)).
  Proof.
    intros H i j g Hi Hj Hg. pose proof (pow10_pos (rg_node gR i)) as Pr. pose proof (pow10_pos (rg_node gT j)) as PT. unfold kappa_P.
    pose proof (group_logs_incr _ g PT Hg) as Hl. pose proof Hp as (Hh & Hk & Hc).
    assert (PB : forall nu, 0 < nu -> 0 < weight_B (pc_h pc) (pc_kb pc) (pc_c pc) (pow10 (rg_node gT j)) nu) by (intros; now apply weight_B_pos).
    split; [apply planck_nonneg|apply planck_mono]; auto; try lia; intros s _; apply H; auto; apply sample_pos.
  Qed.
  Lemma nodes_rosseland : on_grid gR gT (fun rho T nu => tiny < a1 rho T nu <= a2 rho T nu) -> not_cut_off pc gb N gR gT ng a2 ->
    at_every_node gR gT ng (fun r T g => 0 <= kappa_R pc a1 gb N r T (Z.to_nat g) <= kappa_R pc a2 gb N r T (Z.to_nat g)).
  Proof.
    intros H HC i j g Hi Hj Hg. pose proof (pow10_pos (rg_node gR i)) as Pr. pose proof (pow10_pos (rg_node gT j)) as PT. unfold kappa_R.
    pose proof (group_logs_incr _ g PT Hg) as Hl. pose proof Hp as (Hh & Hk & Hc).
    assert (PdB : forall nu, 0 < nu -> 0 < weight_dB (pc_h pc) (pc_kb pc) (pc_c pc) (pow10 (rg_node gT j)) nu) by (intros; now apply weight_dB_pos).
    apply rosseland_mono; auto; try lia; [intros s _; apply H; auto; apply sample_pos|]. exact (HC i j g Hi Hj Hg).
  Qed.
  Lemma nodes_planck_scaled c : on_grid gR gT (fun rho T nu => a2 rho T nu = c * a1 rho T nu) ->
    at_every_node gR gT ng (fun r T g => kappa_P pc a2 gb N r T (Z.to_nat g) <= c * kappa_P pc a1 gb N r T (Z.to_nat g)).
  Proof.
    intros H i j g Hi Hj Hg. pose proof (pow10_pos (rg_node gR i)) as Pr. pose proof (pow10_pos (rg_node gT j)) as PT. unfold kappa_P.
    pose proof (group_logs_incr _ g PT Hg) as Hl. pose proof Hp as (Hh & Hk & Hc).
    assert (PB : forall nu, 0 < nu -> 0 < weight_B (pc_h pc) (pc_kb pc) (pc_c pc) (pow10 (rg_node gT j)) nu) by (intros; now apply weight_B_pos).
    match goal with |- _ <= c * ?x => replace (c * x) with (c * x + 0 * x) by ring end. rewrite <- planck_linear.
    apply planck_mono; auto; try lia; intros s _; cbv beta. rewrite H by (auto; apply sample_pos). lra.
  Qed.
  Lemma nodes_rosseland_scaled c : 1 <= c -> on_grid gR gT (fun rho T nu => tiny < a1 rho T nu /\ a2 rho T nu = c * a1 rho T nu) -> not_cut_off pc gb N gR gT ng a2 ->
    at_every_node gR gT ng (fun r T g => kappa_R pc a2 gb N r T (Z.to_nat g) <= c * kappa_R pc a1 gb N r T (Z.to_nat g)).
  Proof.
    intros Hc1 H HC i j g Hi Hj Hg. pose proof (pow10_pos (rg_node gR i)) as Pr. pose proof (pow10_pos (rg_node gT j)) as PT. unfold kappa_R.
    pose proof (group_logs_incr _ g PT Hg) as Hl. pose proof Hp as (Hh & Hk & Hc). pose proof tiny_pos as Tp.
    assert (PdB : forall nu, 0 < nu -> 0 < weight_dB (pc_h pc) (pc_kb pc) (pc_c pc) (pow10 (rg_node gT j)) nu) by (intros; now apply weight_dB_pos).
    set (r := pow10 (rg_node gR i)) in *. set (T := pow10 (rg_node gT j)) in *. set (l := group_logs pc gb T (Z.to_nat g)) in *.
    destruct (HC i j g Hi Hj Hg) as (hi & Hh1 & Hh2 & Hh3). fold r T l in Hh2, Hh3.
    assert (S2 : forall s, a2 r T (frequency l N s) = c * a1 r T (frequency l N s)) by (intros s; apply H; auto; apply sample_pos).
    assert (S1 : forall s, tiny < a1 r T (frequency l N s)) by (intros s; apply H; auto; apply sample_pos).
    apply Rle_trans with (rosseland_mean_of (weight_dB (pc_h pc) (pc_kb pc) (pc_c pc) T) r (fun x => c * a1 r T x) l N).
    - apply rosseland_mono; auto; try lia.
      + intros s _. cbv beta. specialize (S1 s). rewrite S2. nra.
      + exists hi. split; [exact Hh1|]. split; [|exact Hh3]. intros s Hs. cbv beta. rewrite <- S2. now apply Hh2.
    - apply rosseland_scaled; auto; try lia. exists hi. split; [exact Hh1|]. split; [|exact Hh3]. intros s Hs. cbv beta. rewrite <- S2. now apply Hh2.
  Qed.
End Photon.

(** Photons, absorption and scattering: at every node and for every group the Planck mean of
    c1 a1 + c2 a2 is c1 times the Planck mean of a1 plus c2 times that of a2. *)
Lemma C54_photon_linear_proof :
  forall (pc : PhysConst R) (coef1 coef2 coef3 : ER -> ER -> ER -> result ER) (a1 a2 : R -> R -> R -> R) (c1 c2 : R),
  positive_hkc pc -> 0 <= c1 -> 0 <= c2 ->
  real_coefficient coef1 a1 -> real_coefficient coef2 a2 ->
  real_coefficient coef3 (fun rho T nu => c1 * a1 rho T nu + c2 * a2 rho T nu) ->
  forall (gR gT : rgrid) (gb : list ER) (ng N : Z), rg_ok gR -> rg_ok gT ->
  partition (edge (fun x => x) gb) (Z.to_nat ng) -> (ng < Z.of_nat (length gb))%Z -> (2 <= N)%Z ->
  on_grid gR gT (fun rho T nu => 0 <= a1 rho T nu /\ 0 <= a2 rho T nu) ->
  forall (dbg : bool) (opc : RuntimePC ER), (dbg = true -> RuntimePC_eqb (RuntimePC_of (finpc pc)) opc = true) ->
  exists m1 m2 m3,
    photon_mean pc dbg opc coef1 gR gT gb ng N = Ok m1 /\ photon_mean pc dbg opc coef2 gR gT gb ng N = Ok m2 /\
    photon_mean pc dbg opc coef3 gR gT gb ng N = Ok m3 /\
    at_every_node gR gT ng (fun rho T g => exists P1 P2 Q1 Q2 Q3,
      answers m1 rho T g P1 Q1 /\ answers m2 rho T g P2 Q2 /\ answers m3 rho T g (c1 * P1 + c2 * P2) Q3).
Proof.
  intros pc coef1 coef2 coef3 a1 a2 c1 c2 Hp Hc1 Hc2 R1 R2 R3 gR gT gb ng N HR HT HG HL HN HA dbg opc Hd.
  destruct (photon_nodes pc coef1 a1 gR gT gb ng N dbg opc Hp R1 HR HT HG HL HN Hd) as (m1 & E1 & _ & H1).
  destruct (photon_nodes pc coef2 a2 gR gT gb ng N dbg opc Hp R2 HR HT HG HL HN Hd) as (m2 & E2 & _ & H2).
  destruct (photon_nodes pc coef3 _ gR gT gb ng N dbg opc Hp R3 HR HT HG HL HN Hd) as (m3 & E3 & _ & H3).
  exists m1, m2, m3. split; [exact E1|]. split; [exact E2|]. split; [exact E3|]. intros i j g Hi Hj Hg.
  specialize (H1 i j g Hi Hj Hg). specialize (H2 i j g Hi Hj Hg). specialize (H3 i j g Hi Hj Hg). cbv zeta in H1, H2, H3.
  do 5 eexists. split; [exact H1|]. split; [exact H2|].
  pose proof (proj1 (nodes_planck pc Hp gR gT gb ng N HG HL HN a1 a1 (fun i j nu q r s => conj (proj1 (HA i j nu q r s)) (Rle_refl _)) i j g Hi Hj Hg)) as K1.
  pose proof (proj1 (nodes_planck pc Hp gR gT gb ng N HG HL HN a2 a2 (fun i j nu q r s => conj (proj2 (HA i j nu q r s)) (Rle_refl _)) i j g Hi Hj Hg)) as K2.
  assert (KE : Rabs (kappa_P pc (fun rho T nu => c1 * a1 rho T nu + c2 * a2 rho T nu) gb N (pow10 (rg_node gR i)) (pow10 (rg_node gT j)) (Z.to_nat g)) =
    c1 * Rabs (kappa_P pc a1 gb N (pow10 (rg_node gR i)) (pow10 (rg_node gT j)) (Z.to_nat g)) +
    c2 * Rabs (kappa_P pc a2 gb N (pow10 (rg_node gR i)) (pow10 (rg_node gT j)) (Z.to_nat g))).
  { rewrite (Rabs_pos_eq _ K1), (Rabs_pos_eq _ K2). unfold kappa_P at 1. rewrite planck_linear. apply Rabs_pos_eq.
    apply Rplus_le_le_0_compat; apply Rmult_le_pos; assumption. }
  rewrite <- KE. exact H3.
Qed.

(** Photons: at every state inside the grid and for every group, lookups of the tables of
    a1 <= a2 are in the same order. For the Rosseland mean the coefficients must exceed the
    guard, and a2 must not be cut off. *)
Lemma C54_photon_order_proof :
  forall (pc : PhysConst R) (coef1 coef2 : ER -> ER -> ER -> result ER) (a1 a2 : R -> R -> R -> R),
  positive_hkc pc -> real_coefficient coef1 a1 -> real_coefficient coef2 a2 ->
  forall (gR gT : rgrid) (gb : list ER) (ng N : Z), rg_ok gR -> rg_ok gT ->
  partition (edge (fun x => x) gb) (Z.to_nat ng) -> (ng < Z.of_nat (length gb))%Z -> (2 <= N)%Z ->
  forall (dbg : bool) (opc : RuntimePC ER), (dbg = true -> RuntimePC_eqb (RuntimePC_of (finpc pc)) opc = true) ->
  exists m1 m2,
    photon_mean pc dbg opc coef1 gR gT gb ng N = Ok m1 /\ photon_mean pc dbg opc coef2 gR gT gb ng N = Ok m2 /\
    forall rho temp g, in_grid gR gT rho temp -> (0 <= g < ng)%Z ->
    let ordered gmode := exists A1 A2, mt_Coefficient m1 (Fin rho) (Fin temp) g gmode = Ok (Fin A1) /\
      mt_Coefficient m2 (Fin rho) (Fin temp) g gmode = Ok (Fin A2) /\ A1 <= A2 in
    (on_grid gR gT (fun r T nu => 0 <= a1 r T nu <= a2 r T nu) -> ordered 1%Z) /\
    (on_grid gR gT (fun r T nu => tiny < a1 r T nu <= a2 r T nu) -> not_cut_off pc gb N gR gT ng a2 -> ordered 0%Z).
Proof.
  intros pc coef1 coef2 a1 a2 Hp R1 R2 gR gT gb ng N HR HT HG HL HN dbg opc Hd.
  destruct (MeanImpl_exact pc Hp coef1 a1 R1 gR gT gb ng N HR HT HG HL HN dbg opc Hd) as (m1 & E1 & _ & P1 & Q1).
  destruct (MeanImpl_exact pc Hp coef2 a2 R2 gR gT gb ng N HR HT HG HL HN dbg opc Hd) as (m2 & E2 & _ & P2 & Q2).
  exists m1, m2. split; [exact E1|]. split; [exact E2|]. intros rho temp g G Hg ordered. split.
  - intros H. destruct (compare_lookups gR gT ng HR HT m1 m2 1 _ _ 1 rho temp g G Hg P1 P2) as (A1 & A2 & F1 & F2 & F3 & _); [|exists A1, A2; auto].
    apply nodes_planck; assumption.
  - intros H HC. destruct (compare_lookups gR gT ng HR HT m1 m2 0 _ _ 1 rho temp g G Hg Q1 Q2) as (A1 & A2 & F1 & F2 & F3 & _); [|exists A1, A2; auto].
    apply nodes_rosseland; assumption.
Qed.

(** Photons: multiplying the coefficient by c >= 1 multiplies every lookup inside the grid by a
    factor between 1 and c (the guard tiny is not multiplied). *)
Lemma C54_photon_factor_proof :
  forall (pc : PhysConst R) (coef1 coef2 : ER -> ER -> ER -> result ER) (a : R -> R -> R -> R) (c : R),
  positive_hkc pc -> 1 <= c -> real_coefficient coef1 a -> real_coefficient coef2 (fun r T nu => c * a r T nu) ->
  forall (gR gT : rgrid) (gb : list ER) (ng N : Z), rg_ok gR -> rg_ok gT ->
  partition (edge (fun x => x) gb) (Z.to_nat ng) -> (ng < Z.of_nat (length gb))%Z -> (2 <= N)%Z ->
  forall (dbg : bool) (opc : RuntimePC ER), (dbg = true -> RuntimePC_eqb (RuntimePC_of (finpc pc)) opc = true) ->
  exists m1 m2,
    photon_mean pc dbg opc coef1 gR gT gb ng N = Ok m1 /\ photon_mean pc dbg opc coef2 gR gT gb ng N = Ok m2 /\
    forall rho temp g, in_grid gR gT rho temp -> (0 <= g < ng)%Z ->
    let scaled gmode := exists A1 A2, mt_Coefficient m1 (Fin rho) (Fin temp) g gmode = Ok (Fin A1) /\
      mt_Coefficient m2 (Fin rho) (Fin temp) g gmode = Ok (Fin A2) /\ A1 <= A2 <= c * A1 in
    (on_grid gR gT (fun r T nu => 0 <= a r T nu) -> scaled 1%Z) /\
    (on_grid gR gT (fun r T nu => tiny < a r T nu) -> not_cut_off pc gb N gR gT ng (fun r T nu => c * a r T nu) -> scaled 0%Z).
Proof.
  intros pc coef1 coef2 a c Hp Hc R1 R2 gR gT gb ng N HR HT HG HL HN dbg opc Hd. pose proof tiny_pos as Tp.
  destruct (MeanImpl_exact pc Hp coef1 a R1 gR gT gb ng N HR HT HG HL HN dbg opc Hd) as (m1 & E1 & _ & P1 & Q1).
  destruct (MeanImpl_exact pc Hp coef2 _ R2 gR gT gb ng N HR HT HG HL HN dbg opc Hd) as (m2 & E2 & _ & P2 & Q2).
  exists m1, m2. split; [exact E1|]. split; [exact E2|]. intros rho temp g G Hg scaled. split.
  - intros H. destruct (compare_lookups gR gT ng HR HT m1 m2 1 _ _ c rho temp g G Hg P1 P2) as (A1 & A2 & F1 & F2 & F3 & F4).
    + apply nodes_planck; auto. intros r T nu Y1 Y2 Y3. specialize (H r T nu Y1 Y2 Y3). cbv beta in H. nra.
    + exists A1, A2. repeat split; auto. apply F4; [exact Hc|]. apply nodes_planck_scaled; auto. intros r T nu _ _ _. reflexivity.
  - intros H HC. destruct (compare_lookups gR gT ng HR HT m1 m2 0 _ _ c rho temp g G Hg Q1 Q2) as (A1 & A2 & F1 & F2 & F3 & F4).
    + apply nodes_rosseland; auto. intros r T nu Y1 Y2 Y3. specialize (H r T nu Y1 Y2 Y3). cbv beta in H. nra.
    + exists A1, A2. repeat split; auto. apply F4; [exact Hc|]. apply nodes_rosseland_scaled; auto. intros r T nu Y1 Y2 Y3. split; [now apply H|reflexivity].
Qed.

(** The Rosseland part needs its hypothesis: replacing a coefficient that is transparent at some
    frequencies by a larger, gray one lowers the Rosseland mean. *)
Lemma C54_photon_order_refuted_proof :
  exists (coef1 coef2 : ER -> ER -> ER -> result ER) (a1 a2 : R -> R -> R -> R) (gR gT : rgrid) (gb : list ER) (N : Z)
    (m1 m2 : MeanTable ER) (rho temp A1 A2 : R),
  real_coefficient coef1 a1 /\ real_coefficient coef2 a2 /\ everywhere (fun r T nu => 0 <= a1 r T nu <= a2 r T nu) /\
  rg_ok gR /\ rg_ok gT /\ partition (edge (fun x => x) gb) (Z.to_nat 1) /\ (1 < Z.of_nat (length gb))%Z /\ (2 <= N)%Z /\
  photon_mean unityR false (RuntimePC_of (finpc unityR)) coef1 gR gT gb 1 N = Ok m1 /\
  photon_mean unityR false (RuntimePC_of (finpc unityR)) coef2 gR gT gb 1 N = Ok m2 /\
  in_grid gR gT rho temp /\
  mt_Coefficient m1 (Fin rho) (Fin temp) 0 0 = Ok (Fin A1) /\ mt_Coefficient m2 (Fin rho) (Fin temp) 0 0 = Ok (Fin A2) /\ A2 < A1.
Proof.
  destruct C32_photon_refuted_example as (R1 & HG & S1 & O1 & O2 & O3). pose proof tiny_pos as Tp. pose proof tiny_lt_1 as T1.
  set (gR := {| rg_lo := 0; rg_hi := 1; rg_n := 2 |}). set (gT := {| rg_lo := 2; rg_hi := 3; rg_n := 2 |}).
  assert (HR : rg_ok gR) by (split; cbn; [lra|lia]). assert (HT : rg_ok gT) by (split; cbn; [lra|lia]).
  assert (R2 : real_coefficient (fun rho _ _ => Ok rho) (fun rho _ _ => rho)) by (intros rho T nu _ _ _; reflexivity).
  pose proof (positive_consts_hkc _ unity_pos) as Hu. set (pc' := RuntimePC_of (finpc unityR)).
  destruct (C32_photon_refuted_proof unityR _ _ Hu R1 gR gT [Fin 1; Fin 10] 1 2 HR HT HG ltac:(cbn; lia) ltac:(lia) false pc' ltac:(discriminate)) as (m1 & E1 & H1).
  destruct (C32_photon_proof unityR _ _ Hu R2 gR gT [Fin 1; Fin 10] 1 2 HR HT HG ltac:(cbn; lia) ltac:(lia) false pc' ltac:(discriminate)) as (m2 & E2 & H2).
  specialize (H1 0%Z 0%Z 0%Z ltac:(cbn; lia) ltac:(cbn; lia) ltac:(lia)). specialize (H2 0%Z 0%Z 0%Z ltac:(cbn; lia) ltac:(cbn; lia) ltac:(lia)).
  assert (N1 : pow10 (rg_node gR 0) = 1) by (unfold rg_node; cbn [rg_lo gR]; rewrite Rmult_0_l, Rplus_0_l; unfold pow10; apply Rpower_O; lra).
  assert (N2 : pow10 (rg_node gT 0) = 100).
  { unfold rg_node. cbn [rg_lo gT]. rewrite Rmult_0_l, Rplus_0_l. unfold pow10. replace 2 with (INR 2) by (cbn; lra). rewrite Rpower_pow by lra. lra. }
  rewrite N1, N2 in H1, H2. cbv zeta in H1, H2. destruct (H1 1 Rlt_0_1 S1 O1 O2 O3) as (P & Q & K1 & _ & K3).
  destruct H2 as (P' & Q' & K1' & _ & K3'). destruct (K3' (1 + tiny) (1 + tiny)) as [K4 _]; [lra| |intros i _; lra|].
  { intros i _. lra. }
  specialize (K1 (1 - tiny) (100 - tiny) ltac:(lra) ltac:(lra) ltac:(lra) ltac:(lra)). specialize (K1' (1 - tiny) (100 - tiny) ltac:(lra) ltac:(lra) ltac:(lra) ltac:(lra)).
  do 14 eexists. split; [exact R1|]. split; [exact R2|]. split. { intros r T nu Hr _ _. cbv beta. destruct (Rlt_dec nu 3); lra. }
  split; [exact HR|]. split; [exact HT|]. split; [exact HG|]. split; [cbn; lia|]. split; [|split; [exact E1|]; split; [exact E2|]; split; [|split; [apply K1|]; split; [apply K1'|]]].
  - lia.
  - split; [lra|]. split; [lra|]. replace (1 - tiny + tiny) with (pow10 0) by (rewrite <- N1; unfold rg_node; cbn [rg_lo gR]; rewrite Rmult_0_l, Rplus_0_l; unfold pow10; rewrite Rpower_O; lra).
    replace (100 - tiny + tiny) with (pow10 2) by (rewrite <- N2 at 1; unfold rg_node; cbn [rg_lo gT]; rewrite Rmult_0_l, Rplus_0_l; lra).
    rewrite !log10_pow10. unfold rg_inside; cbn; lra.
  - apply Rmult_lt_compat_l; lra.
Qed.

(** ** Neutrinos *)
Definition nu_in_grid (gR gT gY : rgrid) (rho temp Ye : R) : Prop := in_grid gR gT rho temp /\ rg_inside gY Ye.
Definition nu_everywhere (P : R -> R -> R -> RadiationType -> R -> Prop) : Prop :=
  forall rho T Ye type nu, 0 < rho -> 0 < T -> 0 < nu -> P rho T Ye type nu.
Definition nu_on_grid (gR gT gY : rgrid) (P : R -> R -> R -> RadiationType -> R -> Prop) : Prop :=
  at_every_nu_node gR gT gY (fun rho T Ye type => forall nu, 0 < nu -> P rho T Ye type nu).
Definition nu_not_cut_off (dB : R -> RadiationType -> R -> R) (l : R * R) (N : Z) (gR gT gY : rgrid) (a : R -> R -> R -> RadiationType -> R -> R) : Prop :=
  at_every_nu_node gR gT gY (fun rho T Ye type => exists hi, 0 < hi /\
    (forall i, (i < Z.to_nat N)%nat -> (a rho T Ye type (frequency l N i) + tiny) / rho <= hi) /\
    hi * tiny < average_sum (dB T type) l N (fun _ => 1)).
(** the mass coefficients are bounded below by some lo that keeps the Planck mean above the guard *)
Definition nu_above_guard (B : R -> RadiationType -> R -> R) (l : R * R) (N : Z) (gR gT gY : rgrid) (a : R -> R -> R -> RadiationType -> R -> R) : Prop :=
  at_every_nu_node gR gT gY (fun rho T Ye type => exists lo,
    (forall i, (i < Z.to_nat N)%nat -> lo <= a rho T Ye type (frequency l N i) / rho) /\
    tiny * (average_sum (B T type) l N (fun _ => 1) + tiny) < lo * average_sum (B T type) l N (fun _ => 1)).

Section Neutrino.
  Context (gR gT gY : rgrid) (HR : rg_ok gR) (HT : rg_ok gT) (HY : rg_ok gY).
  Local Notation node_value K is := (K (pow10 (rg_node gR (nth 0 is 0%Z))) (pow10 (rg_node gT (nth 1 is 0%Z))) (rg_node gY (nth 2 is 0%Z)) (type_of (nth 3 is 0%Z))).
  Local Notation stored b K := (holds b (neutrino_axes gR gT gY) (fun is => log10 (Rabs (node_value K is) + tiny))).

  Lemma nu_build_holds absorption pc dbg opc coef dist ddist a B dB range :
    positive_hkc pc -> nu_real_coefficient coef a -> real_spectrum dist ddist B dB ->
    (forall r n, range = Some (r, n) -> fst r < snd r /\ (0 < n)%Z) ->
    (dbg = true -> RuntimePC_eqb (RuntimePC_of (finpc pc)) opc = true) ->
    exists m, nu_build absorption pc dbg opc coef dist ddist gR gT gY range = Ok m /\
      stored (nm_lPlanck m) (nu_kappa_P a B (nu_range pc gT range) (nu_samples absorption range)) /\
      stored (nm_lRosseland m) (nu_kappa_R a B dB (nu_range pc gT range) (nu_samples absorption range)) /\
      fst (nu_range pc gT range) < snd (nu_range pc gT range) /\ (0 < nu_samples absorption range)%Z.
  Proof.
    intros Hp HC HB Hrange Hd.
    set (l := nu_range pc gT range). set (N := nu_samples absorption range).
    destruct (auto_range_fin pc gT Hp HT) as (EA & LA).
    assert (Hl : fst l < snd l). { unfold l, nu_range. destruct range as [[r n]|]; [now apply (Hrange r n)|exact LA]. }
    assert (HN : (0 < N)%Z). { unfold N, nu_samples, nu_count. destruct absorption; [|lia]. destruct range as [[r n]|]; [now apply (Hrange r n)|lia]. }
    set (rr := match range with None => None | Some (r, _) => Some (Fin (fst r), Fin (snd r)) end : option (ER * ER)).
    assert (HA : auto_or (finpc pc) gT rr = (Fin (fst l), Fin (snd l))).
    { unfold rr, l, nu_range, auto_or. destruct range as [[r n]|]; [reflexivity|exact EA]. }
    destruct (nu_impl_exact (finpc pc) coef dist ddist a B dB HC (fun T t nu H1 H2 => conj (proj1 (HB T t nu H1 H2)) (proj1 (proj2 (HB T t nu H1 H2))))
      (fun T t nu H1 H2 => proj1 (proj2 (proj2 (HB T t nu H1 H2)))) gR gT gY HR HT HY l N Hl HN (negb absorption) rr HA) as (m & Em & H1 & H2).
    exists m. split; [|auto]. rewrite <- Em. unfold nu_build, rr, N, nu_samples, nu_count.
    destruct absorption.
    + unfold NuMeanOpacity. replace (dbg && _)%bool with false by (destruct dbg; [now rewrite Hd|reflexivity]).
      destruct range as [[r n]|]; reflexivity.
    + unfold NuMeanSOpacity. destruct range as [[r n]|]; reflexivity.
  Qed.

  Definition nu_mode (ro : bool) (m : NuMeanTable ER) := if ro then nm_Rosseland m else nm_Planck m.
  Lemma nu_lookup_mlin m (ro : bool) K rho temp Ye type : nu_in_grid gR gT gY rho temp Ye -> species type ->
    stored (if ro then nm_lRosseland m else nm_lPlanck m) K ->
    inside (neutrino_query rho temp Ye type) (neutrino_axes gR gT gY) /\
    nu_mode ro m (Fin rho) (Fin temp) (Fin Ye) type =
      Ok (Fin (rho * pow10 (mlin (neutrino_query rho temp Ye type) (neutrino_axes gR gT gY) (fun is => log10 (Rabs (node_value K is) + tiny))))).
  Proof.
    intros ((P1 & P2 & I1 & I2) & I3) Ht H. unfold species in Ht.
    assert (I : inside (neutrino_query rho temp Ye type) (neutrino_axes gR gT gY)) by (cbn -[RadType2Idx]; auto).
    split; [exact I|]. pose proof (inside_ok _ _ (neutrino_axes_ok gR gT gY HR HT HY) I) as Q.
    destruct ro; unfold nu_mode, nm_Rosseland, nm_Planck; now apply nm_lookup_mlin.
  Qed.
  Lemma nu_compare m1 m2 (ro : bool) K1 K2 c rho temp Ye type : nu_in_grid gR gT gY rho temp Ye -> species type ->
    stored (if ro then nm_lRosseland m1 else nm_lPlanck m1) K1 -> stored (if ro then nm_lRosseland m2 else nm_lPlanck m2) K2 ->
    at_every_nu_node gR gT gY (fun r T Ye t => 0 <= K1 r T Ye t <= K2 r T Ye t) ->
    exists A1 A2, nu_mode ro m1 (Fin rho) (Fin temp) (Fin Ye) type = Ok (Fin A1) /\ nu_mode ro m2 (Fin rho) (Fin temp) (Fin Ye) type = Ok (Fin A2) /\
      A1 <= A2 /\ (1 <= c -> at_every_nu_node gR gT gY (fun r T Ye t => K2 r T Ye t <= c * K1 r T Ye t) -> A2 <= c * A1).
  Proof.
    intros G Ht H1 H2 HK. destruct (nu_lookup_mlin m1 ro K1 rho temp Ye type G Ht H1) as (I & E1). destruct (nu_lookup_mlin m2 ro K2 rho temp Ye type G Ht H2) as (_ & E2).
    pose proof (neutrino_axes_ok gR gT gY HR HT HY) as W. destruct G as ((P1 & P2 & _) & _). do 2 eexists. split; [exact E1|]. split; [exact E2|]. split.
    - apply Rmult_le_compat_l; [exact P1|]. apply pow10_ordered; auto. intros [|i [|j [|k [|n [|? ?]]]]] Nr; cbn -[RadType2Idx] in Nr; try tauto.
      destruct Nr as (N1 & N2 & N3 & N4 & N5 & N6 & N7 & N8 & _). subst n. cbn [nth]. rewrite (type_of_idx type Ht).
      specialize (HK i j k type N1 N3 N5 Ht). cbv beta in HK. rewrite !Rabs_pos_eq by lra. exact HK.
    - intros Hc HU. rewrite <- Rmult_assoc, (Rmult_comm c rho), Rmult_assoc. apply Rmult_le_compat_l; [exact P1|]. apply pow10_scaled; auto.
      intros [|i [|j [|k [|n [|? ?]]]]] Nr; cbn -[RadType2Idx] in Nr; try tauto.
      destruct Nr as (N1 & N2 & N3 & N4 & N5 & N6 & N7 & N8 & _). subst n. cbn [nth]. rewrite (type_of_idx type Ht).
      specialize (HK i j k type N1 N3 N5 Ht). specialize (HU i j k type N1 N3 N5 Ht). cbv beta in HK, HU. rewrite !Rabs_pos_eq by lra. lra.
  Qed.

  Context (l : R * R) (N : Z) (Hl : fst l < snd l) (HN : (0 < N)%Z) (B dB : R -> RadiationType -> R -> R)
    (HB : forall T type nu, 0 < T -> 0 < nu -> 0 < B T type nu) (HdB : forall T type nu, 0 < T -> 0 < nu -> 0 < dB T type nu).
  Context (a1 a2 : R -> R -> R -> RadiationType -> R -> R).
  Lemma nu_nodes_planck : nu_on_grid gR gT gY (fun rho T Ye t nu => 0 <= a1 rho T Ye t nu <= a2 rho T Ye t nu) ->
    at_every_nu_node gR gT gY (fun r T Ye t => 0 <= nu_kappa_P a1 B l N r T Ye t <= nu_kappa_P a2 B l N r T Ye t).
  Proof.
    intros H i j k type Hi Hj Hk Ht. pose proof (pow10_pos (rg_node gR i)) as Pr. pose proof (pow10_pos (rg_node gT j)) as PT. unfold nu_kappa_P.
    split; [apply planck_nonneg|apply planck_mono]; auto; intros s _; apply H; auto; apply sample_pos.
  Qed.
  Lemma nu_nodes_rosseland : nu_on_grid gR gT gY (fun rho T Ye t nu => tiny < a1 rho T Ye t nu <= a2 rho T Ye t nu) -> nu_not_cut_off dB l N gR gT gY a2 ->
    at_every_nu_node gR gT gY (fun r T Ye t => 0 <= nu_kappa_R a1 B dB l N r T Ye t <= nu_kappa_R a2 B dB l N r T Ye t).
  Proof.
    intros H HC i j k type Hi Hj Hk Ht. pose proof (pow10_pos (rg_node gR i)) as Pr. pose proof (pow10_pos (rg_node gT j)) as PT. unfold nu_kappa_R.
    apply nu_rosseland_mono; auto; [intros s _; apply H; auto; apply sample_pos|]. exact (HC i j k type Hi Hj Hk Ht).
  Qed.
  Lemma nu_nodes_planck_scaled c : (forall r T Ye t nu, a2 r T Ye t nu = c * a1 r T Ye t nu) ->
    at_every_nu_node gR gT gY (fun r T Ye t => nu_kappa_P a2 B l N r T Ye t <= c * nu_kappa_P a1 B l N r T Ye t).
  Proof.
    intros H i j k type Hi Hj Hk Ht. pose proof (pow10_pos (rg_node gR i)) as Pr. pose proof (pow10_pos (rg_node gT j)) as PT. unfold nu_kappa_P.
    match goal with |- _ <= c * ?x => replace (c * x) with (c * x + 0 * x) by ring end. rewrite <- planck_linear.
    apply planck_mono; auto; intros s _; cbv beta. rewrite H. lra.
  Qed.
  Lemma nu_nodes_rosseland_scaled c : 1 <= c -> nu_on_grid gR gT gY (fun r T Ye t nu => tiny < a1 r T Ye t nu) -> nu_above_guard B l N gR gT gY a1 ->
    nu_not_cut_off dB l N gR gT gY (fun r T Ye t nu => c * a1 r T Ye t nu) ->
    at_every_nu_node gR gT gY (fun r T Ye t => nu_kappa_R (fun r T Ye t nu => c * a1 r T Ye t nu) B dB l N r T Ye t <= c * nu_kappa_R a1 B dB l N r T Ye t).
  Proof.
    intros Hc H HA HC i j k type Hi Hj Hk Ht. pose proof (pow10_pos (rg_node gR i)) as Pr. pose proof (pow10_pos (rg_node gT j)) as PT. unfold nu_kappa_R.
    pose proof tiny_pos as Tp. set (r := pow10 (rg_node gR i)) in *. set (T := pow10 (rg_node gT j)) in *. set (Ye := rg_node gY k) in *.
    apply nu_rosseland_scaled; auto.
    - intros s _. apply H; auto. apply sample_pos.
    - exact (HC i j k type Hi Hj Hk Ht).
    - destruct (HA i j k type Hi Hj Hk Ht) as (lo & L1 & L2). fold r T Ye in L1, L2.
      pose proof (average_pos l N Hl HN (B T type) (fun nu => HB T type nu PT)) as HD.
      set (DP := average_sum (B T type) l N (fun _ => 1)) in *. unfold planck_mean_of. fold DP.
      apply (Rmult_lt_reg_r (DP + tiny)); [lra|]. match goal with |- _ < ?x / _ * _ => replace (x / (DP + tiny) * (DP + tiny)) with x by (field; lra) end.
      apply Rlt_le_trans with (1 := L2). unfold DP. rewrite <- average_scal. apply average_le; auto.
      intros s Hs. rewrite Rmult_1_r. unfold mass. now apply L1.
  Qed.
End Neutrino.

(** Neutrinos, absorption and scattering, any positive spectrum: the Planck mean at a node is
    linear in the coefficient. *)
Lemma C54_neutrino_linear_proof :
  forall (absorption : bool) (pc : PhysConst R) (coef1 coef2 coef3 : ER -> ER -> ER -> RadiationType -> ER -> result ER)
    (dist ddist : ER -> RadiationType -> ER -> result ER)
    (a1 a2 : R -> R -> R -> RadiationType -> R -> R) (B dB : R -> RadiationType -> R -> R) (c1 c2 : R),
  positive_hkc pc -> 0 <= c1 -> 0 <= c2 ->
  nu_real_coefficient coef1 a1 -> nu_real_coefficient coef2 a2 ->
  nu_real_coefficient coef3 (fun r T Ye t nu => c1 * a1 r T Ye t nu + c2 * a2 r T Ye t nu) -> real_spectrum dist ddist B dB ->
  forall (gR gT gY : rgrid) (range : option (R * R * Z)), rg_ok gR -> rg_ok gT -> rg_ok gY ->
  (forall r N, range = Some (r, N) -> fst r < snd r /\ (0 < N)%Z) ->
  nu_on_grid gR gT gY (fun r T Ye t nu => 0 <= a1 r T Ye t nu /\ 0 <= a2 r T Ye t nu) ->
  forall (dbg : bool) (opc : RuntimePC ER), (dbg = true -> RuntimePC_eqb (RuntimePC_of (finpc pc)) opc = true) ->
  exists m1 m2 m3,
    nu_build absorption pc dbg opc coef1 dist ddist gR gT gY range = Ok m1 /\
    nu_build absorption pc dbg opc coef2 dist ddist gR gT gY range = Ok m2 /\
    nu_build absorption pc dbg opc coef3 dist ddist gR gT gY range = Ok m3 /\
    at_every_nu_node gR gT gY (fun rho T Ye type => exists P1 P2 Q1 Q2 Q3,
      nu_answers m1 rho T Ye type P1 Q1 /\ nu_answers m2 rho T Ye type P2 Q2 /\
      nu_answers m3 rho T Ye type (c1 * P1 + c2 * P2) Q3).
Proof.
  intros ab pc coef1 coef2 coef3 dist ddist a1 a2 B dB c1 c2 Hp Hc1 Hc2 R1 R2 R3 HS gR gT gY range HR HT HY Hrange HA dbg opc Hd.
  destruct (nu_nodes ab pc dbg opc coef1 dist ddist a1 B dB gR gT gY range Hp R1 HS HR HT HY Hrange Hd) as (m1 & E1 & H1).
  destruct (nu_nodes ab pc dbg opc coef2 dist ddist a2 B dB gR gT gY range Hp R2 HS HR HT HY Hrange Hd) as (m2 & E2 & H2).
  destruct (nu_nodes ab pc dbg opc coef3 dist ddist _ B dB gR gT gY range Hp R3 HS HR HT HY Hrange Hd) as (m3 & E3 & H3).
  destruct (nu_build_holds gR gT gY HR HT HY ab pc dbg opc coef1 dist ddist a1 B dB range Hp R1 HS Hrange Hd) as (_ & _ & _ & _ & Hl & HN).
  set (l := nu_range pc gT range) in *. set (N := nu_samples ab range) in *.
  exists m1, m2, m3. split; [exact E1|]. split; [exact E2|]. split; [exact E3|]. intros i j k type Hi Hj Hk Ht.
  specialize (H1 i j k type Hi Hj Hk Ht). specialize (H2 i j k type Hi Hj Hk Ht). specialize (H3 i j k type Hi Hj Hk Ht). cbv zeta in H1, H2, H3.
  do 5 eexists. split; [exact H1|]. split; [exact H2|].
  assert (HB : forall T type nu, 0 < T -> 0 < nu -> 0 < B T type nu) by (intros T t nu q q'; apply (HS T t nu q q')).
  pose proof (proj1 (nu_nodes_planck gR gT gY l N Hl HN B HB a1 a1 (fun i j k t q1 q2 q3 q4 nu q5 => conj (proj1 (HA i j k t q1 q2 q3 q4 nu q5)) (Rle_refl _)) i j k type Hi Hj Hk Ht)) as K1.
  pose proof (proj1 (nu_nodes_planck gR gT gY l N Hl HN B HB a2 a2 (fun i j k t q1 q2 q3 q4 nu q5 => conj (proj2 (HA i j k t q1 q2 q3 q4 nu q5)) (Rle_refl _)) i j k type Hi Hj Hk Ht)) as K2.
  assert (KE : Rabs (nu_kappa_P (fun r T Ye t nu => c1 * a1 r T Ye t nu + c2 * a2 r T Ye t nu) B l N (pow10 (rg_node gR i)) (pow10 (rg_node gT j)) (rg_node gY k) type) =
    c1 * Rabs (nu_kappa_P a1 B l N (pow10 (rg_node gR i)) (pow10 (rg_node gT j)) (rg_node gY k) type) +
    c2 * Rabs (nu_kappa_P a2 B l N (pow10 (rg_node gR i)) (pow10 (rg_node gT j)) (rg_node gY k) type)).
  { rewrite (Rabs_pos_eq _ K1), (Rabs_pos_eq _ K2). unfold nu_kappa_P at 1. rewrite planck_linear. apply Rabs_pos_eq.
    apply Rplus_le_le_0_compat; apply Rmult_le_pos; assumption. }
  rewrite <- KE. exact H3.
Qed.

(** Neutrinos: lookups inside the grid are in the order of the coefficients, for the Rosseland
    mean if these exceed the guard and the larger one is not cut off. *)
Lemma C54_neutrino_order_proof :
  forall (absorption : bool) (pc : PhysConst R) (coef1 coef2 : ER -> ER -> ER -> RadiationType -> ER -> result ER)
    (dist ddist : ER -> RadiationType -> ER -> result ER)
    (a1 a2 : R -> R -> R -> RadiationType -> R -> R) (B dB : R -> RadiationType -> R -> R),
  positive_hkc pc -> nu_real_coefficient coef1 a1 -> nu_real_coefficient coef2 a2 -> real_spectrum dist ddist B dB ->
  forall (gR gT gY : rgrid) (range : option (R * R * Z)), rg_ok gR -> rg_ok gT -> rg_ok gY ->
  (forall r N, range = Some (r, N) -> fst r < snd r /\ (0 < N)%Z) ->
  forall (dbg : bool) (opc : RuntimePC ER), (dbg = true -> RuntimePC_eqb (RuntimePC_of (finpc pc)) opc = true) ->
  let l := nu_range pc gT range in let N := nu_samples absorption range in
  exists m1 m2,
    nu_build absorption pc dbg opc coef1 dist ddist gR gT gY range = Ok m1 /\
    nu_build absorption pc dbg opc coef2 dist ddist gR gT gY range = Ok m2 /\
    forall rho temp Ye type, nu_in_grid gR gT gY rho temp Ye -> species type ->
    (nu_on_grid gR gT gY (fun r T Ye t nu => 0 <= a1 r T Ye t nu <= a2 r T Ye t nu) ->
     exists A1 A2, nm_Planck m1 (Fin rho) (Fin temp) (Fin Ye) type = Ok (Fin A1) /\
       nm_Planck m2 (Fin rho) (Fin temp) (Fin Ye) type = Ok (Fin A2) /\ A1 <= A2) /\
    (nu_on_grid gR gT gY (fun r T Ye t nu => tiny < a1 r T Ye t nu <= a2 r T Ye t nu) -> nu_not_cut_off dB l N gR gT gY a2 ->
     exists A1 A2, nm_Rosseland m1 (Fin rho) (Fin temp) (Fin Ye) type = Ok (Fin A1) /\
       nm_Rosseland m2 (Fin rho) (Fin temp) (Fin Ye) type = Ok (Fin A2) /\ A1 <= A2).
Proof.
  intros ab pc coef1 coef2 dist ddist a1 a2 B dB Hp R1 R2 HS gR gT gY range HR HT HY Hrange dbg opc Hd l N.
  destruct (nu_build_holds gR gT gY HR HT HY ab pc dbg opc coef1 dist ddist a1 B dB range Hp R1 HS Hrange Hd) as (m1 & E1 & P1 & Q1 & Hl & HN).
  destruct (nu_build_holds gR gT gY HR HT HY ab pc dbg opc coef2 dist ddist a2 B dB range Hp R2 HS Hrange Hd) as (m2 & E2 & P2 & Q2 & _).
  assert (HB : forall T type nu, 0 < T -> 0 < nu -> 0 < B T type nu) by (intros T t nu q q'; apply (HS T t nu q q')).
  assert (HdB : forall T type nu, 0 < T -> 0 < nu -> 0 < dB T type nu) by (intros T t nu q q'; apply (HS T t nu q q')).
  exists m1, m2. split; [exact E1|]. split; [exact E2|]. intros rho temp Ye type G Ht. split.
  - intros H. destruct (nu_compare gR gT gY HR HT HY m1 m2 false _ _ 1 rho temp Ye type G Ht P1 P2) as (A1 & A2 & F1 & F2 & F3 & _); [|exists A1, A2; auto].
    apply nu_nodes_planck; assumption.
  - intros H HC. destruct (nu_compare gR gT gY HR HT HY m1 m2 true _ _ 1 rho temp Ye type G Ht Q1 Q2) as (A1 & A2 & F1 & F2 & F3 & _); [|exists A1, A2; auto].
    apply nu_nodes_rosseland; assumption.
Qed.

(** Neutrinos: a factor c >= 1 multiplies the lookups by between 1 and c. *)
Lemma C54_neutrino_factor_proof :
  forall (absorption : bool) (pc : PhysConst R) (coef1 coef2 : ER -> ER -> ER -> RadiationType -> ER -> result ER)
    (dist ddist : ER -> RadiationType -> ER -> result ER)
    (a : R -> R -> R -> RadiationType -> R -> R) (B dB : R -> RadiationType -> R -> R) (c : R),
  positive_hkc pc -> 1 <= c -> nu_real_coefficient coef1 a ->
  nu_real_coefficient coef2 (fun r T Ye t nu => c * a r T Ye t nu) -> real_spectrum dist ddist B dB ->
  forall (gR gT gY : rgrid) (range : option (R * R * Z)), rg_ok gR -> rg_ok gT -> rg_ok gY ->
  (forall r N, range = Some (r, N) -> fst r < snd r /\ (0 < N)%Z) ->
  forall (dbg : bool) (opc : RuntimePC ER), (dbg = true -> RuntimePC_eqb (RuntimePC_of (finpc pc)) opc = true) ->
  let l := nu_range pc gT range in let N := nu_samples absorption range in
  exists m1 m2,
    nu_build absorption pc dbg opc coef1 dist ddist gR gT gY range = Ok m1 /\
    nu_build absorption pc dbg opc coef2 dist ddist gR gT gY range = Ok m2 /\
    forall rho temp Ye type, nu_in_grid gR gT gY rho temp Ye -> species type ->
    (nu_on_grid gR gT gY (fun r T Ye t nu => 0 <= a r T Ye t nu) ->
     exists A1 A2, nm_Planck m1 (Fin rho) (Fin temp) (Fin Ye) type = Ok (Fin A1) /\
       nm_Planck m2 (Fin rho) (Fin temp) (Fin Ye) type = Ok (Fin A2) /\ A1 <= A2 <= c * A1) /\
    (nu_on_grid gR gT gY (fun r T Ye t nu => tiny < a r T Ye t nu) -> nu_above_guard B l N gR gT gY a ->
     nu_not_cut_off dB l N gR gT gY (fun r T Ye t nu => c * a r T Ye t nu) ->
     exists A1 A2, nm_Rosseland m1 (Fin rho) (Fin temp) (Fin Ye) type = Ok (Fin A1) /\
       nm_Rosseland m2 (Fin rho) (Fin temp) (Fin Ye) type = Ok (Fin A2) /\ A1 <= A2 <= c * A1).
Proof.
  intros ab pc coef1 coef2 dist ddist a B dB c Hp Hc R1 R2 HS gR gT gY range HR HT HY Hrange dbg opc Hd l N. pose proof tiny_pos as Tp.
  destruct (nu_build_holds gR gT gY HR HT HY ab pc dbg opc coef1 dist ddist a B dB range Hp R1 HS Hrange Hd) as (m1 & E1 & P1 & Q1 & Hl & HN).
  destruct (nu_build_holds gR gT gY HR HT HY ab pc dbg opc coef2 dist ddist _ B dB range Hp R2 HS Hrange Hd) as (m2 & E2 & P2 & Q2 & _).
  assert (HB : forall T type nu, 0 < T -> 0 < nu -> 0 < B T type nu) by (intros T t nu q q'; apply (HS T t nu q q')).
  assert (HdB : forall T type nu, 0 < T -> 0 < nu -> 0 < dB T type nu) by (intros T t nu q q'; apply (HS T t nu q q')).
  exists m1, m2. split; [exact E1|]. split; [exact E2|]. intros rho temp Ye type G Ht. split.
  - intros H. destruct (nu_compare gR gT gY HR HT HY m1 m2 false _ _ c rho temp Ye type G Ht P1 P2) as (A1 & A2 & F1 & F2 & F3 & F4).
    + apply nu_nodes_planck; auto. intros i j k t q1 q2 q3 q4 nu q5. specialize (H i j k t q1 q2 q3 q4 nu q5). cbv beta in H. nra.
    + exists A1, A2. repeat split; auto. apply F4; [exact Hc|]. apply nu_nodes_planck_scaled; auto.
  - intros H HA HC. destruct (nu_compare gR gT gY HR HT HY m1 m2 true _ _ c rho temp Ye type G Ht Q1 Q2) as (A1 & A2 & F1 & F2 & F3 & F4).
    + apply nu_nodes_rosseland; auto. intros i j k t q1 q2 q3 q4 nu q5. specialize (H i j k t q1 q2 q3 q4 nu q5). cbv beta in H. nra.
    + exists A1, A2. repeat split; auto. apply F4; [exact Hc|]. apply nu_nodes_rosseland_scaled; auto.
Qed.

(** The flat spectrum over two decades with two samples, a coefficient that is transparent above
    frequency 10: raising it there to a hundredth of its value below 10 lowers the Rosseland
    mean. *)
Lemma C54_neutrino_order_refuted_proof :
  exists (coef1 coef2 : ER -> ER -> ER -> RadiationType -> ER -> result ER) (a1 a2 : R -> R -> R -> RadiationType -> R -> R)
    (dist ddist : ER -> RadiationType -> ER -> result ER) (B dB : R -> RadiationType -> R -> R) (g : rgrid) (range : option (R * R * Z))
    (m1 m2 : NuMeanTable ER) (rho temp Ye A1 A2 : R),
  nu_real_coefficient coef1 a1 /\ nu_real_coefficient coef2 a2 /\ real_spectrum dist ddist B dB /\
  nu_everywhere (fun r T Ye t nu => 0 <= a1 r T Ye t nu <= a2 r T Ye t nu) /\ rg_ok g /\
  (forall r N, range = Some (r, N) -> fst r < snd r /\ (0 < N)%Z) /\
  nu_build true unityR false (RuntimePC_of (finpc unityR)) coef1 dist ddist g g g range = Ok m1 /\
  nu_build true unityR false (RuntimePC_of (finpc unityR)) coef2 dist ddist g g g range = Ok m2 /\
  nu_in_grid g g g rho temp Ye /\
  nm_Rosseland m1 (Fin rho) (Fin temp) (Fin Ye) NU_ELECTRON = Ok (Fin A1) /\
  nm_Rosseland m2 (Fin rho) (Fin temp) (Fin Ye) NU_ELECTRON = Ok (Fin A2) /\ A2 < A1.
Proof.
  pose proof tiny_pos as Tp. pose proof tiny_small as Ts. pose proof tiny_lt_1 as T1.
  set (g := {| rg_lo := 0; rg_hi := 1; rg_n := 2 |}). assert (Hg : rg_ok g) by (split; cbn; [lra|lia]).
  set (range := Some ((0, 2), 2%Z)).
  assert (Hr : forall r N, range = Some (r, N) -> fst r < snd r /\ (0 < N)%Z) by (intros r N E; injection E as <- <-; cbn; split; [lra|lia]).
  set (a1 := fun (r T Ye : R) (t : RadiationType) (nu : R) => if Rlt_dec nu 10 then r else 0).
  set (a2 := fun (r T Ye : R) (t : RadiationType) (nu : R) => if Rlt_dec nu 10 then r else r * (1 / 100)).
  assert (R1 : nu_real_coefficient (fun rho _ _ _ nu => if Oltb nu (Fin 10) then Ok rho else Ok (Fin 0)) a1).
  { intros rho T Ye type nu _ _ _. unfold a1. rewrite fin_ltb. unfold Rltb. now destruct (Rlt_dec nu 10). }
  assert (R2 : nu_real_coefficient (fun rho _ _ _ nu => if Oltb nu (Fin 10) then Ok rho else Ok (Omul rho (Fin (1 / 100)))) a2).
  { intros rho T Ye type nu _ _ _. unfold a2. rewrite fin_ltb. unfold Rltb. now destruct (Rlt_dec nu 10). }
  assert (HS : real_spectrum (fun _ _ _ => Ok (Fin 1)) (fun _ _ _ => Ok (Fin 1)) (fun _ _ _ => 1) (fun _ _ _ => 1)) by (intros T t nu _ _; repeat split; lra).
  pose proof (positive_consts_hkc _ unity_pos) as Hu. set (pc' := RuntimePC_of (finpc unityR)).
  destruct (nu_nodes true unityR false pc' _ _ _ a1 _ _ g g g range Hu R1 HS Hg Hg Hg Hr ltac:(discriminate)) as (m1 & E1 & H1).
  destruct (nu_nodes true unityR false pc' _ _ _ a2 _ _ g g g range Hu R2 HS Hg Hg Hg Hr ltac:(discriminate)) as (m2 & E2 & H2).
  assert (Hs : species NU_ELECTRON) by (unfold species; cbn; lia).
  specialize (H1 0%Z 0%Z 0%Z NU_ELECTRON ltac:(cbn; lia) ltac:(cbn; lia) ltac:(cbn; lia) Hs).
  specialize (H2 0%Z 0%Z 0%Z NU_ELECTRON ltac:(cbn; lia) ltac:(cbn; lia) ltac:(cbn; lia) Hs). cbv zeta in H1, H2.
  assert (N0 : rg_node g 0 = 0) by (unfold rg_node; cbn [rg_lo g]; ring).
  assert (P0 : pow10 0 = 1) by (unfold pow10; apply Rpower_O; lra).
  rewrite N0, P0 in H1, H2. specialize (H1 (1 - tiny) (1 - tiny) ltac:(lra) ltac:(lra) ltac:(lra) ltac:(lra)). specialize (H2 (1 - tiny) (1 - tiny) ltac:(lra) ltac:(lra) ltac:(lra) ltac:(lra)).
  change (nu_range unityR g range) with (0, 2) in H1, H2. change (nu_samples true range) with 2%Z in H1, H2.
  set (Q1 := nu_kappa_R a1 _ _ _ _ _ _ _ _) in H1. set (Q2 := nu_kappa_R a2 _ _ _ _ _ _ _ _) in H2.
  assert (HQ : Q2 < Q1 /\ 0 <= Q2).
  { set (s := pow10 (1 / 2)). assert (Hs2 : s * s = 10).
    { unfold s. rewrite <- pow10_add. replace (1 / 2 + 1 / 2) with 1 by field. unfold pow10. apply Rpower_1. lra. }
    assert (Sp : 0 < s) by apply pow10_pos. assert (S3 : 3 < s < 4) by (split; nra).
    assert (F0 : frequency (0, 2) 2 0 = s). { unfold frequency, s, cell_width. cbn [fst snd INR]. f_equal. field. }
    assert (F1 : frequency (0, 2) 2 1 = s * 10).
    { unfold frequency, s, cell_width. cbn [fst snd INR]. replace (0 + (1 + / 2) * ((2 - 0) / 2)) with (1 / 2 + 1) by field. rewrite pow10_add. f_equal. unfold pow10. apply Rpower_1. lra. }
    assert (AV : forall f, average_sum (fun _ => 1) (0, 2) 2 f = f s * s + f (s * 10) * (s * 10)).
    { intros f. unfold average_sum. change (Z.to_nat 2) with 2%nat. cbn [rsum]. unfold quad. rewrite F0, F1. unfold cell_width. cbn [fst snd]. field. }
    assert (C1 : forall x y : R, (if Rlt_dec s 10 then x else y) = x) by (intros; destruct (Rlt_dec s 10); lra).
    assert (C2 : forall x y : R, (if Rlt_dec (s * 10) 10 then x else y) = y) by (intros; destruct (Rlt_dec (s * 10) 10); lra).
    assert (I1 : / 2 <= 1 / (1 + tiny)). { unfold Rdiv. rewrite Rmult_1_l. apply Rinv_le_contravar; lra. }
    assert (I1' : 1 / (1 + tiny) <= 1). { unfold Rdiv. rewrite Rmult_1_l, <- Rinv_1. apply Rinv_le_contravar; lra. }
    assert (I2 : 50 <= 1 / (1 * (1 / 100) + tiny)).
    { unfold Rdiv at 1. rewrite Rmult_1_l. replace 50 with (/ (/ 50)) by (rewrite Rinv_inv; reflexivity). apply Rinv_le_contravar; lra. }
    unfold Q1, Q2, nu_kappa_R, nu_rosseland_mean_of, planck_mean_of. cbv zeta. rewrite !AV. unfold counted, inverse, mass, a1, a2. rewrite !C1, !C2.
    destruct (Rlt_dec tiny 1); [|lra]. destruct (Rlt_dec tiny 0); [lra|]. destruct (Rlt_dec tiny (1 * (1 / 100))); [|lra].
    set (i1 := 1 / (1 + tiny)) in *. set (i2 := 1 / (1 * (1 / 100) + tiny)) in *.
    assert (HM1 : s * / 2 <= i1 * s + 0 * (s * 10) <= s) by nra.
    assert (HM2 : 500 * s <= i1 * s + i2 * (s * 10)) by nra.
    set (M1 := i1 * s + 0 * (s * 10)) in *. set (M2 := i1 * s + i2 * (s * 10)) in *.
    assert (L1 : / 2 < (1 * s + 0 * (s * 10)) / (M1 + tiny)).
    { apply (Rmult_lt_reg_r (M1 + tiny)); [lra|]. match goal with |- _ < ?x / ?y * ?y => replace (x / y * y) with x by (field; lra) end. lra. }
    assert (L2 : 0 <= (1 * s + 1 * (s * 10)) / (M2 + tiny) < / 4).
    { split; [apply Rmult_le_pos; [lra|apply Rlt_le, Rinv_0_lt_compat; lra]|]. apply (Rmult_lt_reg_r (M2 + tiny)); [lra|].
      match goal with |- ?x / ?y * ?y < _ => replace (x / y * y) with x by (field; lra) end. lra. }
    assert (LP : tiny < (1 / 1 * s + 0 / 1 * (s * 10)) / (1 * s + 1 * (s * 10) + tiny)).
    { apply (Rmult_lt_reg_r (1 * s + 1 * (s * 10) + tiny)); [lra|]. match goal with |- _ < ?x / ?y * ?y => replace (x / y * y) with x by (field; lra) end. nra. }
    destruct (Rlt_dec tiny M1); [|lra]. destruct (Rlt_dec tiny M2); [|lra].
    repeat match goal with |- context [Rlt_dec tiny ?x] => destruct (Rlt_dec tiny x) end; lra. }
  destruct HQ as (HQ & HQ0). rewrite (Rabs_pos_eq Q1) in H1 by lra. rewrite (Rabs_pos_eq Q2) in H2 by lra.
  do 17 eexists. split; [exact R1|]. split; [exact R2|]. split; [exact HS|]. split.
  { intros r T Ye t nu q _ _. unfold a1, a2. destruct (Rlt_dec nu 10); lra. }
  split; [exact Hg|]. split; [exact Hr|]. split; [exact E1|]. split; [exact E2|]. split; [|split; [apply H1|]; split; [apply H2|]].
  - split; [split; [lra|]; split; [lra|]|]; replace (1 - tiny + tiny) with (pow10 0) by lra; rewrite ?log10_pow10; unfold rg_inside; cbn; lra.
  - apply Rmult_lt_compat_l; lra.
Qed.

(** ** Examples *)
(** unit constants, the group [1, 10], temperatures between 1 and 10 *)
Lemma unity_weight N T : (2 <= N)%Z -> 1 <= T <= 10 -> / 10 ^ 8 <= rosseland_weight unityR [Fin 1; Fin 10] N T 0.
Proof.
  intros HN HT. pose proof (positive_consts_hkc _ unity_pos) as Hu. pose proof tiny_pos as Tp. pose proof tiny_lt_1 as T1.
  assert (E : pc_h unityR = 1 /\ pc_kb unityR = 1 /\ pc_c unityR = 1).
  { repeat split; cbv -[IZR Rmult Rdiv Rplus]; field. } destruct E as (Eh & Ek & Ec).
  assert (W : group_logs unityR [Fin 1; Fin 10] T (Z.to_nat 0) = logs (1, 10)).
  { unfold group_logs. f_equal. cbn [edge nth_error Z.to_nat]. unfold window, thermal_lo, thermal_hi. rewrite Eh, Ek.
    destruct (Req_EM_T 1 0); [lra|]. destruct (Rlt_dec 1 _); [lra|]. destruct (Rlt_dec _ 10); [lra|].
    destruct (Rlt_dec 1 10); [reflexivity|lra]. }
  assert (Hl : fst (logs (1, 10)) < snd (logs (1, 10))) by (apply logs_incr; cbn; lra).
  assert (Nz : 0 < IZR N) by (apply IZR_lt; lia).
  unfold rosseland_weight. rewrite W. set (w := weight_dB _ _ _ _).
  assert (Hw : forall nu, 1 < nu < 11 -> / 10 ^ 7 <= w nu).
  { intros nu Hn. destruct Hu as (Hh & Hk & Hc). unfold w, weight_dB.
    assert (Ex : pc_h unityR * nu / (pc_kb unityR * T) = nu / T) by (rewrite Eh, Ek; field; lra).
    assert (Hx : 0 < nu / T < 11).
    { split; [apply Rmult_lt_0_compat; [lra|apply Rinv_0_lt_compat; lra]|]. apply (Rmult_lt_reg_r T); [lra|].
      replace (nu / T * T) with nu by (field; lra). lra. }
    rewrite Ex. destruct (Rlt_dec _ 80); [|lra]. rewrite Derive_Planck_eq by lra. rewrite Ex, Eh, Ek, Ec. set (x := nu / T) in *.
    assert (X : exp x < 177147).
    { apply Rlt_le_trans with (exp 11); [apply exp_increasing; lra|].
      replace 11 with (INR 11 * 1) by (replace (INR 11) with 11 by (rewrite INR_IZR_INZ; reflexivity); lra). rewrite <- exp_pow.
      apply Rle_trans with (3 ^ 11); [|lra]. apply pow_incr. pose proof (exp_pos 1). pose proof exp_le_3. lra. }
    pose proof (exp_ineq1_le x). assert (1 <= nu ^ 4) by (apply pow_R1_Rle; lra).
    assert (Q : / exp x <= exp x / (exp x - 1) ^ 2).
    { apply (Rmult_le_reg_r (exp x * (exp x - 1) ^ 2)). { apply Rmult_lt_0_compat; [lra|]. apply pow_lt. lra. }
      field_simplify; try lra; nra. }
    assert (Q2 : / 177147 <= / exp x) by (apply Rinv_le_contravar; lra).
    assert (T2 : 1 <= T ^ 2 <= 100) by (split; nra).
    assert (Q3 : / 50 <= 2 * 1 ^ 2 * nu ^ 4 / (T ^ 2 * 1 ^ 2 * 1)).
    { replace (2 * 1 ^ 2 * nu ^ 4 / (T ^ 2 * 1 ^ 2 * 1)) with (2 * nu ^ 4 / T ^ 2) by (field; lra).
      apply (Rmult_le_reg_r (T ^ 2)); [lra|]. replace (2 * nu ^ 4 / T ^ 2 * T ^ 2) with (2 * nu ^ 4) by (field; lra). lra. }
    apply Rle_trans with (/ 50 * / 177147); [lra|]. apply Rmult_le_compat; lra. }
  set (l := logs (1, 10)) in *. pose proof (cell_width_pos l N Hl ltac:(lia)) as Cw.
  assert (Ew : IZR N * cell_width l N = snd l - fst l) by (unfold cell_width; field; lra).
  assert (Dl : / 10 <= snd l - fst l).
  { unfold l, logs. cbn [fst snd]. assert (log10 (9 / 2 * (1 + tiny)) < log10 (10 + tiny)) by (apply log10_incr; lra).
    rewrite log10_mul in H by lra. assert (/ 10 <= log10 (9 / 2)); [|lra].
    assert (L1 : log10 10 = 1) by (unfold log10; field; pose proof ln10_pos; lra).
    assert (L2 : log10 10 <= log10 ((9 / 2) ^ 10)) by (apply log10_le; lra).
    assert (L3 : log10 ((9 / 2) ^ 10) = 10 * log10 (9 / 2)).
    { unfold log10. rewrite ln_pow by lra. replace (INR 10) with 10 by (rewrite INR_IZR_INZ; reflexivity). field. pose proof ln10_pos. lra. }
    lra. }
  unfold average_sum. apply Rle_trans with (rsum (Z.to_nat N) (fun _ => / 10 ^ 7 * cell_width l N)).
  - assert (Er : forall n x, rsum n (fun _ => x) = INR n * x).
    { induction n as [|n IH]; intros x; [cbn; ring|]. rewrite S_INR. cbn [rsum]. rewrite IH. ring. }
    rewrite Er, INR_IZR_INZ, Z2Nat.id by lia.
    replace (IZR N * (/ 10 ^ 7 * cell_width l N)) with (/ 10 ^ 7 * (IZR N * cell_width l N)) by ring. rewrite Ew. lra.
  - apply rsum_le. intros i Hi. pose proof (frequency_bounds l N Hl ltac:(lia) i Hi) as Bd.
    unfold l in Bd at 1 4. unfold logs in Bd. cbn [fst snd] in Bd. rewrite !pow10_log10 in Bd by lra.
    unfold quad. assert (Q : / 10 ^ 7 <= w (frequency l N i)) by (apply Hw; lra).
    rewrite Rmult_1_l, <- Rmult_assoc. apply Rmult_le_compat_r; [lra|]. nra.
Qed.

(** Gray photon opacities with kappa = 1 and kappa = 2, unit constants, densities and
    temperatures from 1 to 10. *)
Lemma C54_photon_order_example :
  let g := {| rg_lo := 0; rg_hi := 1; rg_n := 2 |} in let gb := [Fin 1; Fin 10] in
  real_coefficient (ph_Absorption (GrayOpacity (finpc unityR) (Fin 1))) (fun r _ _ => r * 1) /\
  real_coefficient (ph_Absorption (GrayOpacity (finpc unityR) (Fin 2))) (fun r _ _ => r * 2) /\
  rg_ok g /\ partition (edge (fun x => x) gb) (Z.to_nat 1) /\
  on_grid g g (fun r _ _ => 0 <= r * 1 <= r * 2) /\ on_grid g g (fun r _ _ => tiny < r * 1 <= r * 2) /\
  not_cut_off unityR gb 50 g g 1 (fun r _ _ => r * 2) /\ in_grid g g (9 / 2) (7 / 2).
Proof.
  cbv zeta. pose proof tiny_pos as Tp. pose proof tiny_lt_1 as T1. pose proof tiny_small as Ts.
  split; [apply gray_coefficient|]. split; [apply gray_coefficient|]. split; [split; cbn; [lra|lia]|]. split; [apply one_group_ok; lra|].
  assert (N0 : forall i, (0 <= i < 2)%Z -> 1 <= pow10 (rg_node {| rg_lo := 0; rg_hi := 1; rg_n := 2 |} i) <= 10).
  { intros i Hi. assert (P0 : pow10 0 = 1) by (unfold pow10; apply Rpower_O; lra). assert (P1 : pow10 1 = 10) by (unfold pow10; apply Rpower_1; lra).
    assert (Hn : 0 <= rg_node {| rg_lo := 0; rg_hi := 1; rg_n := 2 |} i <= 1).
    { unfold rg_node, rg_dx. cbn [rg_lo rg_hi rg_n]. change (2 - 1)%Z with 1%Z. assert (0 <= IZR i <= 1) by (split; apply IZR_le; lia). lra. }
    pose proof (pow10_le _ _ (proj1 Hn)). pose proof (pow10_le _ _ (proj2 Hn)). lra. }
  split; [intros i j nu q _ _; specialize (N0 i q); lra|]. split; [intros i j nu q _ _; specialize (N0 i q); lra|]. split.
  - intros i j k Hi Hj Hk. replace k with 0%Z by lia. cbn [rg_n] in Hi, Hj. pose proof (N0 i Hi) as Ni. pose proof (N0 j Hj) as Nj. exists 3. split; [lra|]. split.
    + intros s _. apply (Rmult_le_reg_r (pow10 (rg_node {| rg_lo := 0; rg_hi := 1; rg_n := 2 |} i))); [lra|].
      match goal with |- ?x / ?y * ?y <= _ => replace (x / y * y) with x by (field; lra) end. lra.
    + pose proof (unity_weight 50 _ ltac:(lia) Nj). lra.
  - assert (L : forall x, 1 <= x <= 9 -> 0 <= log10 (x + tiny) <= 1).
    { intros x Hx. assert (log10 1 = 0) by (unfold log10; rewrite ln_1; field; pose proof ln10_pos; lra).
      assert (log10 10 = 1) by (unfold log10; field; pose proof ln10_pos; lra).
      assert (log10 1 <= log10 (x + tiny)) by (apply log10_le; lra). assert (log10 (x + tiny) <= log10 10) by (apply log10_le; lra). lra. }
    split; [lra|]. split; [lra|]. unfold rg_inside. cbn [rg_lo rg_hi]. split; apply L; lra.
Qed.

(** The sum of two gray opacities. *)
Lemma C54_photon_linear_example :
  real_coefficient (ph_Absorption (GrayOpacity (finpc cgsR) (Fin 1))) (fun r _ _ => r * 1) /\
  real_coefficient (ph_Absorption (GrayOpacity (finpc cgsR) (Fin 2))) (fun r _ _ => r * 2) /\
  real_coefficient (fun r _ _ => Ok (Oadd (Omul (Fin 3) r) (Omul (Fin 4) r))) (fun r _ _ => 3 / 1 * (r * 1) + 2 * (r * 2)).
Proof.
  split; [apply gray_coefficient|]. split; [apply gray_coefficient|]. intros r T nu _ _ _. rewrite !fin_mul, fin_add. do 2 f_equal. field.
Qed.

(** The flat spectrum over two decades, the gray coefficients rho and 2 rho. *)
Lemma C54_neutrino_factor_example :
  let g := {| rg_lo := 0; rg_hi := 1; rg_n := 2 |} in let l := (0, 2) in
  let dist := fun (_ : ER) (_ : RadiationType) (_ : ER) => Ok (Fin 1) in let B := fun (_ : R) (_ : RadiationType) (_ : R) => 1 in
  real_spectrum dist dist B B /\ rg_ok g /\
  nu_real_coefficient (nu_Absorption (NuGrayOpacity 3 (finpc unityR) (Fin 1))) (fun r _ _ _ _ => r * 1) /\
  nu_real_coefficient (nu_Absorption (NuGrayOpacity 3 (finpc unityR) (Fin 2))) (fun r _ _ _ _ => 2 * (r * 1)) /\
  nu_on_grid g g g (fun r _ _ _ _ => tiny < r * 1) /\ nu_above_guard B l 2 g g g (fun r _ _ _ _ => r * 1) /\ nu_not_cut_off B l 2 g g g (fun r _ _ _ _ => 2 * (r * 1)) /\
  nu_in_grid g g g (9 / 2) (7 / 2) (/ 2).
Proof.
  cbv zeta. pose proof tiny_pos as Tp. pose proof tiny_lt_1 as T1. pose proof tiny_small as Ts.
  split; [intros T t nu _ _; repeat split; lra|]. split; [split; cbn; [lra|lia]|].
  split; [intros r T Ye t nu _ _ _; reflexivity|].
  split. { intros r T Ye t nu _ _ _. transitivity (Ok (Fin (r * 2))); [reflexivity|]. do 2 f_equal. ring. }
  assert (D : 1 <= average_sum (fun _ => 1) (0, 2) 2 (fun _ => 1)).
  { unfold average_sum. change (Z.to_nat 2) with 2%nat. cbn [rsum]. unfold quad. rewrite !Rmult_1_l.
    assert (C : cell_width (0, 2) 2 = 1) by (unfold cell_width; cbn [fst snd]; field). rewrite C.
    assert (F : 1 <= frequency (0, 2) 2 0). { unfold frequency. rewrite C. cbn [fst INR]. assert (P0 : pow10 0 = 1) by (unfold pow10; apply Rpower_O; lra). rewrite <- P0 at 1. apply pow10_le. lra. }
    assert (F1 : 0 < frequency (0, 2) 2 1) by (unfold frequency; apply pow10_pos). lra. }
  assert (N0 : forall i, (0 <= i < 2)%Z -> 1 <= pow10 (rg_node {| rg_lo := 0; rg_hi := 1; rg_n := 2 |} i)).
  { intros i Hi. assert (P0 : pow10 0 = 1) by (unfold pow10; apply Rpower_O; lra). apply Rle_trans with (pow10 0); [lra|]. apply pow10_le.
    unfold rg_node, rg_dx. cbn [rg_lo rg_hi rg_n]. change (2 - 1)%Z with 1%Z. assert (0 <= IZR i) by (apply IZR_le; lia). lra. }
  set (DD := average_sum _ _ _ _) in *.
  split; [intros i j k t q _ _ _ nu _; specialize (N0 i q); lra|]. split; [|split].
  - intros i j k t Hi _ _ _. pose proof (N0 i Hi). exists 1. split; [intros s _; right; field; lra|]. fold DD. nra.
  - intros i j k t Hi _ _ _. pose proof (N0 i Hi). exists 3. split; [lra|]. split; [|fold DD; lra]. intros s _.
    apply (Rmult_le_reg_r (pow10 (rg_node {| rg_lo := 0; rg_hi := 1; rg_n := 2 |} i))); [lra|].
    match goal with |- ?x / ?y * ?y <= _ => replace (x / y * y) with x by (field; lra) end. lra.
  - split; [apply C54_photon_order_example|]. unfold rg_inside. cbn. lra.
Qed.
