(** C41. Loading NuLib files. *)
From Coquelicot Require Import Coquelicot.
From Coq Require Import Reals ZArith List Lia Lra Bool.
From Verif Require Import Base.Outcome Base.Ops Inst.ER Inst.ERTac Inst.RConsts Model.Constants Model.RadTypes Model.NeutrinoApi
  Model.Spiner Model.SpinerNeutrinos Spec.Means Spec.Tables Spec.Tabulated Spec.NuLib Proofs.ArrayFacts Proofs.InterpFacts
  Proofs.TableFacts Proofs.FillFacts Proofs.ModelFacts Proofs.MeanTotal Proofs.SpinerFacts Proofs.SpinerExact Proofs.RiemannSum Proofs.NuLibFacts.
Import ListNotations.
Open Scope R_scope.

(** what the loaded opacity answers at the nodes, in terms of the contents of the file and
    of [fresh], the contents of newly allocated memory *)
Lemma C41_load_proof :
  forall (pc : PhysConst R) (n : Z) (b : nulib) (fresh : nat -> ER),
  0 < pc_h pc -> 0 < pc_eV pc -> nulib_ok b ->
  exists t, LoadFromNuLib (finpc pc) fresh (Some (file_of b)) = Ok t /\
  let o := SpinerOpacity n (finpc pc) t in
  forall i j y e rho T Ye nu type, table_node b kelvin_per_MeV i j y rho T Ye -> energy_node b (hz_per_MeV pc) e nu ->
  (0 <= RadType2Idx type < nb_NS b)%Z ->
  let cell := fun l => nb_index b i j y (RadType2Idx type) l in
  let read := fun l => nth (cell l) (nb_absorption b) 0 in
  let dle := (log10 (final (nb_energy b)) - log10 (first (nb_energy b))) / IZR (nb_NE b - 1) in
  let MeV := 10 ^ 6 * pc_eV pc in
  nu_EmissivityPerNuOmega o (Fin rho) (Fin T) (Fin Ye) type (Fin nu) = Ok (Fin (pc_h pc * read e / MeV)) /\
  nu_EmissivityPerNu o (Fin rho) (Fin T) (Fin Ye) type (Fin nu) = Ok (Fin (4 * PI * (pc_h pc * read e / MeV))) /\
  nu_Emissivity o (Fin rho) (Fin T) (Fin Ye) type =
    Ok (Fin (dle * rsum (Z.to_nat (nb_NE b)) (fun l => 4 * PI * read (Z.of_nat l) * group_energy b (Z.of_nat l)) + tiny)) /\
  nu_NumberEmissivity o (Fin rho) (Fin T) (Fin Ye) type =
    Ok (Fin (dle * rsum (Z.to_nat (nb_NE b)) (fun l => 4 * PI * read (Z.of_nat l) / MeV) + tiny)) /\
  (forall m, (forall k, (k < length (nb_absorption b))%nat -> fresh k = Fin (m k) /\ 0 < m k) ->
     nu_Absorption o (Fin rho) (Fin T) (Fin Ye) type (Fin nu) = Ok (Fin (m (cell e)))).
Proof.
  intros pc n b fresh Hh He Hb. destruct (load_exact pc Hh He b Hb fresh) as (t & Et & H0 & H1 & H2 & H3 & H4).
  exists t. split; [exact Et|]. intros o i j y e rho T Ye nu type (Hi & Pr & Qr & Hj & PT & QT & Hy & ->) (Hl & Pn & Qn) Hs cell read dle MeV.
  pose proof kelvin_pos as Kp. pose proof (hz_pos pc Hh He) as Hz. pose proof (MEV_pos pc He) as Mp.
  pose proof (gR_ok b Hb) as OR. pose proof (gT_ok b Hb) as OT. pose proof (gY_ok b Hb) as OY. pose proof (gE_ok b Hb) as OE.
  assert (PT' : 0 <= T / kelvin_per_MeV) by (apply Rmult_le_pos; [exact PT|left; now apply Rinv_0_lt_compat]).
  assert (Pn' : 0 <= nu / hz_per_MeV pc) by (apply Rmult_le_pos; [exact Pn|left; now apply Rinv_0_lt_compat]).
  assert (QR' : log10 (guarded rho) = rg_node (nb_gR b) i) by (rewrite guarded_nonneg, Qr by assumption; apply log10_pow10).
  assert (QT' : log10 (guarded (T / kelvin_per_MeV)) = rg_node (nb_gT b) j).
  { rewrite guarded_nonneg, QT by assumption. apply log10_pow10. }
  assert (QE' : log10 (guarded (nu / hz_per_MeV pc)) = rg_node (nb_gE b) e).
  { rewrite guarded_nonneg, Qn by assumption. apply log10_pow10. }
  set (A5' := axes5 (nb_gR b) (nb_gT b) (nb_gY b) (nb_NS b) (nb_gE b)) in *.
  set (A4' := axes4 (nb_gR b) (nb_gT b) (nb_gY b) (nb_NS b)) in *.
  assert (W5 : Forall rd_ok A5') by (apply axes5_ok; assumption).
  assert (W4 : Forall rd_ok A4') by (apply axes4_ok; assumption).
  assert (A5 : at_node (query5 pc rho T (rg_node (nb_gY b) y) type nu) A5' [i; j; y; RadType2Idx type; e]).
  { cbn -[RadType2Idx nb_gR nb_gT nb_gY nb_gE]. auto 12. }
  assert (A4 : at_node (query4 rho T (rg_node (nb_gY b) y) type) A4' [i; j; y; RadType2Idx type]).
  { cbn -[RadType2Idx nb_gR nb_gT nb_gY nb_gE]. auto 12. }
  pose proof (proj1 (at_node_ok _ _ _ W5 A5)) as Q5. pose proof (proj1 (at_node_ok _ _ _ W4 A4)) as Q4.
  assert (Rp : forall l, (0 <= l < nb_NE b)%Z -> 0 < read l).
  { intros l Hl'. apply (absorption_pos b Hb); assumption. }
  assert (L2 : sp_lookup5 (finpc pc) (sp_jnu t) (Fin rho) (Fin T) (Fin (rg_node (nb_gY b) y)) type (Fin nu) =
    Ok (Fin (pc_h pc * read e / MeV))).
  { rewrite (lookup5_mlin pc Hh He _ _ _ _ _ _ _ _ H2 W5 Q5), (mlin_node _ _ _ _ W5 A5). cbn [nth]. unfold jnu5.
    change (absorption b i j y (RadType2Idx type) e) with (read e).
    rewrite pow10_log10 by (apply Rdiv_lt_0_compat; auto). do 2 f_equal. unfold hz_per_MeV, MeV. field. split; lra. }
  assert (Tot : forall g, (forall l, (l < Z.to_nat (nb_NE b))%nat -> 0 <= g l) -> 0 <= dle * rsum (Z.to_nat (nb_NE b)) g).
  { intros g Hg. apply Rmult_le_pos.
    - change dle with (rg_dx (nb_gE b)). left. now apply dx_pos.
    - revert Hg. generalize (Z.to_nat (nb_NE b)). intros k. induction k as [|k IH]; intros Hg; cbn [rsum]; [lra|].
      assert (0 <= rsum k g) by (apply IH; intros; apply Hg; lia). specialize (Hg k ltac:(lia)). lra. }
  pose proof PI_RGT_0 as Pp.
  assert (L3 : sp_lookup4 (sp_J t) (Fin rho) (Fin T) (Fin (rg_node (nb_gY b) y)) type =
    Ok (Fin (dle * rsum (Z.to_nat (nb_NE b)) (fun l => 4 * PI * read (Z.of_nat l) * group_energy b (Z.of_nat l)) + tiny))).
  { rewrite (lookup4_mlin _ _ _ _ _ _ _ H3 W4 Q4), (mlin_node _ _ _ _ W4 A4). cbn [nth].
    rewrite pow10_log10 by apply guarded_pos. do 2 f_equal. apply guarded_nonneg. apply Tot. intros l Hl'. cbv beta.
    change (MeV_node b (Z.of_nat l)) with (pow10 (rg_node (nb_gE b) (Z.of_nat l))).
    change (absorption b i j y (RadType2Idx type) (Z.of_nat l)) with (read (Z.of_nat l)).
    pose proof (Rp (Z.of_nat l) ltac:(lia)). pose proof (pow10_pos (rg_node (nb_gE b) (Z.of_nat l))).
    left. apply Rmult_lt_0_compat; [apply Rmult_lt_0_compat; [lra|assumption]|assumption]. }
  assert (L4 : sp_lookup4 (sp_JYe t) (Fin rho) (Fin T) (Fin (rg_node (nb_gY b) y)) type =
    Ok (Fin (dle * rsum (Z.to_nat (nb_NE b)) (fun l => 4 * PI * read (Z.of_nat l) / MeV) + tiny))).
  { rewrite (lookup4_mlin _ _ _ _ _ _ _ H4 W4 Q4), (mlin_node _ _ _ _ W4 A4). cbn [nth].
    rewrite pow10_log10 by apply guarded_pos. do 2 f_equal. apply guarded_nonneg. apply Tot. intros l Hl'. cbv beta.
    change (absorption b i j y (RadType2Idx type) (Z.of_nat l)) with (read (Z.of_nat l)).
    pose proof (Rp (Z.of_nat l) ltac:(lia)). left. apply Rdiv_lt_0_compat; [apply Rmult_lt_0_compat; [lra|assumption]|exact Mp]. }
  unfold o. cbn [nu_Absorption nu_EmissivityPerNuOmega nu_EmissivityPerNu nu_Emissivity nu_NumberEmissivity SpinerOpacity].
  unfold sp_EmissivityPerNu, sp_Absorption, sp_EmissivityPerNuOmega, sp_Emissivity, sp_NumberEmissivity.
  rewrite L2, L3, L4. cbn [bind]. rewrite fin_ofZ, fin_pi, !fin_mul. repeat (split; [reflexivity|]).
  intros m Hm.
  assert (Ln : length (nb_absorption b) = Z.to_nat (nb_size b)).
  { destruct Hb as (_ & _ & _ & _ & _ & _ & _ & _ & _ & L & _). lia. }
  assert (Hh1 : holds (sp_alpha t) A5'
    (fun is => log10 (m (nb_index b (nth 0 is 0%Z) (nth 1 is 0%Z) (nth 2 is 0%Z) (nth 3 is 0%Z) (nth 4 is 0%Z))))).
  { split; [exact H0|]. intros i' Hi' j' Hj' y' Hy' s' Hs' e' He'. cbn [rd_size rg_n nb_gR nb_gT nb_gY nb_gE] in *. cbn [stores nth].
    rewrite H1 by assumption. pose proof (index_range b i' j' y' s' e') as Ir. do 5 specialize (Ir ltac:(assumption)).
    destruct (Hm (nb_index b i' j' y' s' e')) as [-> P]; [lia|]. now rewrite fin_log10. }
  rewrite (lookup5_mlin pc Hh He _ _ _ _ _ _ _ _ Hh1 W5 Q5), (mlin_node _ _ _ _ W5 A5). cbn [nth].
  rewrite pow10_log10; [reflexivity|]. pose proof (index_range b i j y (RadType2Idx type) e) as Ir. do 5 specialize (Ir ltac:(assumption)).
  apply Hm. lia.
Qed.

(** The absorption table is not filled from the file: for every file there are contents of
    newly allocated memory for which the absorption coefficient at every node is a number
    that is not in the absorption dataset at that node. *)
Lemma C41_absorption_refuted_proof :
  forall (pc : PhysConst R) (n : Z) (b : nulib), 0 < pc_h pc -> 0 < pc_eV pc -> nulib_ok b ->
  exists fresh t, LoadFromNuLib (finpc pc) fresh (Some (file_of b)) = Ok t /\
  forall i j y e rho T Ye nu type, table_node b kelvin_per_MeV i j y rho T Ye -> energy_node b (hz_per_MeV pc) e nu ->
  (0 <= RadType2Idx type < nb_NS b)%Z ->
  exists v, nu_Absorption (SpinerOpacity n (finpc pc) t) (Fin rho) (Fin T) (Fin Ye) type (Fin nu) = Ok (Fin v) /\
    v <> nth (nb_index b i j y (RadType2Idx type) e) (nb_absorption b) 0.
Proof.
  intros pc n b Hh He Hb. set (m := fun k => nth k (nb_absorption b) 0 + 1).
  destruct (C41_load_proof pc n b (fun k => Fin (m k)) Hh He Hb) as (t & Et & A). eexists. exists t. split; [exact Et|].
  intros i j y e rho T Ye nu type N1 N2 Hs. destruct (A i j y e rho T Ye nu type N1 N2 Hs) as (_ & _ & _ & _ & B).
  exists (m (nb_index b i j y (RadType2Idx type) e)). split; [|unfold m; lra]. apply B. intros k Hk. split; [reflexivity|].
  unfold m. destruct Hb as (_ & _ & _ & _ & _ & _ & _ & _ & _ & _ & P). specialize (P k Hk). lra.
Qed.

(** Nor does anything in the file decide it: with the same memory, two files of the same
    size give the same absorption table. *)
Lemma C41_absorption_unread_proof :
  forall (pc : PhysConst R) (b b' : nulib) (fresh : nat -> ER),
  0 < pc_h pc -> 0 < pc_eV pc -> nulib_ok b -> nulib_ok b' ->
  nb_NR b' = nb_NR b -> nb_NT b' = nb_NT b -> nb_NY b' = nb_NY b -> nb_NS b' = nb_NS b -> nb_NE b' = nb_NE b ->
  exists t t', LoadFromNuLib (finpc pc) fresh (Some (file_of b)) = Ok t /\ LoadFromNuLib (finpc pc) fresh (Some (file_of b')) = Ok t' /\
  forall i j y s e, (0 <= i < nb_NR b)%Z -> (0 <= j < nb_NT b)%Z -> (0 <= y < nb_NY b)%Z -> (0 <= s < nb_NS b)%Z -> (0 <= e < nb_NE b)%Z ->
  let c := ((((i * nb_NT b + j) * nb_NY b + y) * nb_NS b + s) * nb_NE b + e)%Z in
  at_flat (db_data (sp_alpha t')) c = at_flat (db_data (sp_alpha t)) c.
Proof.
  intros pc b b' fresh Hh He Hb Hb' E1 E2 E3 E4 E5.
  destruct (load_exact pc Hh He b Hb fresh) as (t & Et & _ & H1 & _).
  destruct (load_exact pc Hh He b' Hb' fresh) as (t' & Et' & _ & H1' & _).
  exists t, t'. split; [exact Et|]. split; [exact Et'|]. intros i j y s e Hi Hj Hy Hs He' c.
  specialize (H1 i j y s e Hi Hj Hy Hs He'). specialize (H1' i j y s e). rewrite E1, E2, E3, E4, E5 in H1'. specialize (H1' Hi Hj Hy Hs He').
  rewrite Z.mul_0_l, Z.add_0_l in H1, H1'. fold c in H1, H1'. rewrite H1, H1'. unfold nb_index. now rewrite E1, E2, E3, E4.
Qed.

Definition with_emissivities (b : nulib) (l : list R) : nulib := {|
  nb_NR := nb_NR b; nb_NT := nb_NT b; nb_NY := nb_NY b; nb_NS := nb_NS b; nb_NE := nb_NE b;
  nb_rho := nb_rho b; nb_temp := nb_temp b; nb_ye := nb_ye b; nb_energy := nb_energy b;
  nb_emissivities := l; nb_absorption := nb_absorption b |}.

(** The emissivity dataset is read and overwritten: files that differ only in it load alike,
    and wherever the two datasets of a file differ the emissivity at the node is not that of
    the emissivity dataset. *)
Lemma C41_emissivity_refuted_proof :
  forall (pc : PhysConst R) (n : Z) (b : nulib) (fresh : nat -> ER),
  0 < pc_h pc -> 0 < pc_eV pc -> nulib_ok b ->
  exists t, (forall l, length l = length (nb_emissivities b) ->
     LoadFromNuLib (finpc pc) fresh (Some (file_of (with_emissivities b l))) = Ok t) /\
  LoadFromNuLib (finpc pc) fresh (Some (file_of b)) = Ok t /\
  forall i j y e rho T Ye nu type, table_node b kelvin_per_MeV i j y rho T Ye -> energy_node b (hz_per_MeV pc) e nu ->
  (0 <= RadType2Idx type < nb_NS b)%Z ->
  let k := nb_index b i j y (RadType2Idx type) e in
  nth k (nb_emissivities b) 0 <> nth k (nb_absorption b) 0 ->
  exists v, nu_EmissivityPerNuOmega (SpinerOpacity n (finpc pc) t) (Fin rho) (Fin T) (Fin Ye) type (Fin nu) = Ok (Fin v) /\
    v <> pc_h pc * nth k (nb_emissivities b) 0 / (10 ^ 6 * pc_eV pc).
Proof.
  intros pc n b fresh Hh He Hb. destruct (C41_load_proof pc n b fresh Hh He Hb) as (t & Et & A). exists t. split; [|split; [exact Et|]].
  - intros l Hl. rewrite <- Et. unfold LoadFromNuLib, file_of, with_emissivities.
    cbn [nl_nrho nl_ntemp nl_nye nl_number_groups nl_number_species nl_rho_points nl_temp_points
        nl_neutrino_energies nl_ye_points nl_emissivities nl_absorption_opacity ReadInt bind
        nb_NR nb_NT nb_NY nb_NS nb_NE nb_rho nb_temp nb_ye nb_energy nb_emissivities nb_absorption].
    pose proof Hb as (P1 & P2 & P3 & P4 & HS & A1 & A2 & A3 & L1 & L2 & _).
    rewrite !bounds_ok by assumption. cbn [bind]. cbv zeta. unfold nb_size in *.
    rewrite !read_into_full by (rewrite !map_length, seq_length; lia). cbn [bind].
    rewrite !read_into_full by (rewrite !map_length; lia). reflexivity.
  - intros i j y e rho T Ye nu type N1 N2 Hs k D. destruct (A i j y e rho T Ye nu type N1 N2 Hs) as (B & _).
    eexists. split; [exact B|]. fold k. pose proof (MEV_pos pc He) as Mp. intros E. apply D.
    apply (Rmult_eq_reg_l (pc_h pc / (10 ^ 6 * pc_eV pc))).
    + unfold Rdiv in *. lra.
    + apply Rgt_not_eq. now apply Rdiv_lt_0_compat.
Qed.

(** ** the integrals *)
Lemma is_derive_pow10 x : is_derive pow10 x (ln 10 * pow10 x).
Proof.
  unfold pow10, Rpower. auto_derive; [exact I|]. ring.
Qed.
Lemma continuous_pow10 x : continuous pow10 x.
Proof. apply (ex_derive_continuous pow10). eexists. apply is_derive_pow10. Qed.

(** substitution e = 10^x *)
Lemma RInt_log f a c : 0 < a -> a < c -> (forall x, a <= x <= c -> continuous f x) ->
  RInt (fun x => f (pow10 x) * pow10 x) (log10 a) (log10 c) = RInt f a c / ln 10.
Proof.
  intros Ha Hac Hf. pose proof ln10_pos as L. pose proof (log10_incr a c Ha Hac) as Lac.
  rewrite <- (pow10_log10 a) at 2 by lra. rewrite <- (pow10_log10 c) at 2 by lra.
  assert (Rng : forall x, Rmin (log10 a) (log10 c) <= x <= Rmax (log10 a) (log10 c) -> a <= pow10 x <= c).
  { intros x. rewrite Rmin_left, Rmax_right by lra. intros [A B]. split.
    - rewrite <- (pow10_log10 a Ha). now apply pow10_le.
    - rewrite <- (pow10_log10 c) by lra. now apply pow10_le. }
  rewrite <- (RInt_comp f pow10 (fun x => ln 10 * pow10 x)).
  - set (g := fun y => scal (ln 10 * pow10 y) (f (pow10 y))). apply is_RInt_unique.
    apply (is_RInt_ext (fun x => scal (/ ln 10) (g x))).
    { intros x _. unfold g. change (/ ln 10 * (ln 10 * pow10 x * f (pow10 x)) = f (pow10 x) * pow10 x). field. lra. }
    unfold Rdiv. rewrite Rmult_comm.
    change (is_RInt (V := R_NormedModule) (fun x => scal (/ ln 10) (g x)) (log10 a) (log10 c) (scal (/ ln 10) (RInt g (log10 a) (log10 c)))).
    apply (is_RInt_scal (V := R_NormedModule)). apply (RInt_correct (V := R_CompleteNormedModule)).
    apply (ex_RInt_continuous (V := R_CompleteNormedModule)). intros x Hx. unfold g.
    apply (continuous_mult (fun y => ln 10 * pow10 y) (fun y => f (pow10 y))).
    + apply (continuous_scal_r (ln 10) pow10). apply continuous_pow10.
    + apply (continuous_comp pow10 f); [apply continuous_pow10|apply Hf; auto].
  - intros x Hx. apply Hf. auto.
  - intros x Hx. split; [apply is_derive_pow10|]. apply (continuous_scal_r (ln 10) pow10). apply continuous_pow10.
Qed.

Lemma rsum_ext n f g : (forall l, (l < n)%nat -> f l = g l) -> rsum n f = rsum n g.
Proof. induction n as [|n IH]; intros H; cbn [rsum]; [reflexivity|]. rewrite IH, H by (auto || lia). reflexivity. Qed.
Lemma rsum_lsum g a dx n : rsum n (fun l => g (INR l * dx + a)) = lsum g a dx n.
Proof. induction n as [|n IH]; cbn [rsum lsum]; [reflexivity|]. now rewrite IH. Qed.

(** the sum over all nodes of a grid, times the spacing, against the integral *)
Lemma node_sum_error (G : rgrid) g eps : rg_ok G -> 0 <= eps ->
  (forall x, rg_lo G <= x <= rg_hi G -> continuous g x) ->
  (forall x y, rg_lo G <= x <= rg_hi G -> rg_lo G <= y <= rg_hi G -> Rabs (x - y) <= rg_dx G -> Rabs (g x - g y) <= eps) ->
  Rabs (rg_dx G * rsum (Z.to_nat (rg_n G)) (fun l => g (rg_node G (Z.of_nat l))) - RInt g (rg_lo G) (rg_hi G)) <=
  eps * (rg_hi G - rg_lo G) + rg_dx G * Rabs (g (rg_hi G)).
Proof.
  intros OG He Hc Hm. pose proof (dx_pos G OG) as Dx. destruct OG as [Lt Hn].
  assert (Pn : 0 < IZR (rg_n G - 1)) by (apply (IZR_lt 0); lia).
  set (n := Z.to_nat (rg_n G - 1)). assert (En : INR n = IZR (rg_n G - 1)) by (unfold n; rewrite INR_IZR_INZ; f_equal; lia).
  assert (Eh : rg_lo G + INR n * rg_dx G = rg_hi G) by (rewrite En; unfold rg_dx; field; lra).
  replace (Z.to_nat (rg_n G)) with (S n) by (unfold n; lia). cbn [rsum].
  assert (Ex : rsum n (fun l => g (rg_node G (Z.of_nat l))) = lsum g (rg_lo G) (rg_dx G) n).
  { rewrite <- rsum_lsum. apply rsum_ext. intros l _. unfold rg_node. now rewrite INR_IZR_INZ. }
  assert (El : rg_node G (Z.of_nat n) = rg_hi G) by (unfold rg_node; rewrite <- INR_IZR_INZ; lra).
  rewrite Ex, El. clear Ex El.
  pose proof (left_sum_error g (rg_lo G) (rg_dx G) n eps ltac:(lra) He) as E. rewrite Eh in E.
  specialize (E Hc Hm). replace (INR n * rg_dx G) with (rg_hi G - rg_lo G) in E by lra.
  replace (rg_dx G * (lsum g (rg_lo G) (rg_dx G) n + g (rg_hi G)) - RInt g (rg_lo G) (rg_hi G))
    with ((lsum g (rg_lo G) (rg_dx G) n * rg_dx G - RInt g (rg_lo G) (rg_hi G)) + rg_dx G * g (rg_hi G)) by ring.
  eapply Rle_trans; [apply Rabs_triang|]. rewrite (Rabs_mult (rg_dx G)), (Rabs_pos_eq (rg_dx G)) by lra. lra.
Qed.

(** [samples b i j y s f]: the absorption dataset of the file samples the spectrum f at the
    energies of the groups *)
Definition samples (b : nulib) (i j y s : Z) (f : R -> R) : Prop :=
  forall e, (0 <= e < nb_NE b)%Z -> nth (nb_index b i j y s e) (nb_absorption b) 0 = f (group_energy b e).
(** [varies_less b g eps]: the function g of the energy changes by at most eps between
    energies of the file's range that are no further apart than neighbouring groups *)
Definition varies_less (b : nulib) (g : R -> R) (eps : R) : Prop :=
  forall e e', first (nb_energy b) <= e <= final (nb_energy b) -> first (nb_energy b) <= e' <= final (nb_energy b) ->
  Rabs (log10 e - log10 e') <= rg_dx (nb_gE b) -> Rabs (g e - g e') <= eps.
(** the decades covered and the number of decades between groups *)
Definition decades (b : nulib) : R := log10 (final (nb_energy b)) - log10 (first (nb_energy b)).
Definition group_decades (b : nulib) : R := decades b / IZR (nb_NE b - 1).

Lemma group_sum_error b F eps : nulib_ok b -> 0 <= eps ->
  (forall e, first (nb_energy b) <= e <= final (nb_energy b) -> continuous F e) ->
  varies_less b (fun e => F e * e) eps ->
  Rabs (group_decades b * rsum (Z.to_nat (nb_NE b)) (fun l => F (group_energy b (Z.of_nat l)) * group_energy b (Z.of_nat l)) -
    RInt F (first (nb_energy b)) (final (nb_energy b)) / ln 10) <=
  eps * decades b + group_decades b * Rabs (F (final (nb_energy b)) * final (nb_energy b)).
Proof.
  intros Hb He Hc Hv. pose proof (gE_ok b Hb) as OE. set (a := first (nb_energy b)) in *. set (c := final (nb_energy b)) in *.
  assert (Ha : 0 < a) by (unfold nulib_ok in Hb; tauto). assert (Hac : a < c) by (unfold nulib_ok, points in Hb; tauto).
  assert (Rng : forall x, log10 a <= x <= log10 c -> a <= pow10 x <= c).
  { intros x [A B]. split.
    - rewrite <- (pow10_log10 a Ha). now apply pow10_le.
    - rewrite <- (pow10_log10 c) by lra. now apply pow10_le. }
  set (g := fun x => F (pow10 x) * pow10 x).
  pose proof (node_sum_error (nb_gE b) g eps OE He) as E. cbn [rg_lo rg_hi nb_gE rg_n] in E. fold a c in E.
  assert (E1 : RInt g (log10 a) (log10 c) = RInt F a c / ln 10) by (apply RInt_log; assumption).
  assert (E2 : g (log10 c) = F c * c) by (unfold g; now rewrite pow10_log10 by lra).
  rewrite E1, E2 in E. apply E.
  - intros x Hx. apply (continuous_mult (fun x => F (pow10 x)) pow10); [|apply continuous_pow10].
    apply (continuous_comp pow10 F); [apply continuous_pow10|]. apply Hc. auto.
  - intros x y Hx Hy Hd. apply (Hv (pow10 x) (pow10 y)); auto. now rewrite !log10_pow10.
Qed.

(** The emissivity at a node is the integral of 4 pi j over energy divided by ln 10 (the
    spacing of the groups is in decades, and the sum lacks that factor), up to the error of
    the sum: the variation of the integrand between neighbouring groups, and one group too
    many. Likewise the number emissivity. The spectrum j is what the loader takes for it,
    the absorption dataset. *)
Lemma C41_integral_proof :
  forall (pc : PhysConst R) (n : Z) (b : nulib) (fresh : nat -> ER) t i j y rho T Ye type f eps eps',
  0 < pc_h pc -> 0 < pc_eV pc -> nulib_ok b -> LoadFromNuLib (finpc pc) fresh (Some (file_of b)) = Ok t ->
  table_node b kelvin_per_MeV i j y rho T Ye -> (0 <= RadType2Idx type < nb_NS b)%Z ->
  tiny <= first (nb_energy b) ->
  let e0 := first (nb_energy b) in let e1 := final (nb_energy b) in let MeV := 10 ^ 6 * pc_eV pc in
  (forall e, e0 <= e <= e1 -> continuous f e) -> samples b i j y (RadType2Idx type) f ->
  0 <= eps -> varies_less b (fun e => 4 * PI * f e * e) eps -> 0 <= eps' -> varies_less b (fun e => 4 * PI * f e / MeV) eps' ->
  let o := SpinerOpacity n (finpc pc) t in
  exists J N, nu_Emissivity o (Fin rho) (Fin T) (Fin Ye) type = Ok (Fin J) /\
    nu_NumberEmissivity o (Fin rho) (Fin T) (Fin Ye) type = Ok (Fin N) /\
    Rabs (J - (RInt (fun e => 4 * PI * f e) e0 e1 / ln 10 + tiny)) <=
      eps * decades b + group_decades b * Rabs (4 * PI * f e1 * e1) /\
    Rabs (N - (RInt (fun e => 4 * PI * f e / (MeV * e)) e0 e1 / ln 10 + tiny)) <=
      eps' * decades b + group_decades b * Rabs (4 * PI * f e1 / MeV).
Proof.
  intros pc n b fresh t i j y rho T Ye type f eps eps' Hh He Hb Et N1 Hs Ht e0 e1 MeV Hc Hf P1 V1 P2 V2 o.
  pose proof (MEV_pos pc He) as Mp. fold MeV in Mp. pose proof (hz_pos pc Hh He) as Hz.
  assert (Ha : 0 < e0) by (unfold e0; unfold nulib_ok in Hb; tauto).
  assert (He1 : e0 < e1) by (unfold e0, e1; unfold nulib_ok, points in Hb; tauto).
  destruct (C41_load_proof pc n b fresh Hh He Hb) as (t' & Et' & A). rewrite Et in Et'. injection Et' as <-.
  assert (N2 : energy_node b (hz_per_MeV pc) 0 ((e0 - tiny) * hz_per_MeV pc)).
  { split; [destruct Hb as (_ & _ & _ & (Q & _) & _); lia|]. split; [apply Rmult_le_pos; [unfold e0; lra|lra]|]. unfold group_energy, rg_node. cbn [nb_gE rg_lo].
    rewrite Rmult_0_l, Rplus_0_l, pow10_log10 by exact Ha. fold e0. field. lra. }
  destruct (A i j y 0%Z rho T Ye _ type N1 N2 Hs) as (_ & _ & B1 & B2 & _). clear A.
  change ((log10 (final (nb_energy b)) - log10 (first (nb_energy b))) / IZR (nb_NE b - 1)) with (group_decades b) in B1, B2.
  eexists. eexists. split; [exact B1|]. split; [exact B2|].
  assert (Sub : forall x z w : R, x + tiny - (z + tiny) = x - z) by (intros; ring).
  rewrite !Sub by exact 0. split.
  - rewrite (rsum_ext _ _ (fun l => 4 * PI * f (group_energy b (Z.of_nat l)) * group_energy b (Z.of_nat l))).
    2:{ intros l Hl. f_equal. f_equal. apply Hf. lia. }
    apply (group_sum_error b (fun e => 4 * PI * f e) eps); auto.
    intros e Hr. apply (continuous_scal_r (4 * PI) f). auto.
  - rewrite (rsum_ext _ _ (fun l => 4 * PI * f (group_energy b (Z.of_nat l)) / (MeV * group_energy b (Z.of_nat l)) * group_energy b (Z.of_nat l))).
    2:{ intros l Hl. rewrite (Hf (Z.of_nat l)) by lia. pose proof (pow10_pos (rg_node (nb_gE b) (Z.of_nat l))). unfold group_energy in *.
      fold MeV. field. split; lra. }
    assert (E : forall e, 0 < e -> 4 * PI * f e / (MeV * e) * e = 4 * PI * f e / MeV) by (intros; field; split; lra).
    rewrite <- (E e1) by lra.
    apply (group_sum_error b (fun e => 4 * PI * f e / (MeV * e)) eps'); auto.
    + intros e Hr. apply (continuous_mult (fun e => 4 * PI * f e) (fun e => / (MeV * e))).
      * apply (continuous_scal_r (4 * PI) f). auto.
      * apply (ex_derive_continuous (fun e => / (MeV * e))). auto_derive. fold e0 in Hr. apply Rgt_not_eq. apply Rmult_lt_0_compat; [exact Mp|lra].
    + intros e e' Hr Hr' Hd. fold e0 e1 in Hr, Hr'. rewrite !E by lra. apply V2; auto.
Qed.

(** ** a file with a constant spectrum *)
Lemma ln10_bounds : 2 < ln 10 < 3.
Proof.
  split; apply exp_lt_inv; rewrite exp_ln by lra.
  - replace 2 with (1 + 1) by ring. rewrite exp_plus. pose proof exp_le_3. pose proof (exp_pos 1). nra.
  - pose proof (exp_ineq1 (1 / 2) ltac:(lra)) as E. set (x := exp (1 / 2)) in *.
    replace (exp 3) with (x ^ 6); [|unfold x; rewrite <- Rpower_pow by apply exp_pos; unfold Rpower; rewrite ln_exp; f_equal; simpl; lra].
    assert (9 / 4 < x ^ 2) by nra. assert (81 / 16 < x ^ 4) by (replace (x ^ 4) with (x ^ 2 * x ^ 2) by ring; nra).
    replace (x ^ 6) with (x ^ 4 * x ^ 2) by ring. nra.
Qed.
Definition ends (a c : R) (n : Z) : list R := a :: repeat c (Z.to_nat (n - 1)).
Lemma first_ends a c n : first (ends a c n) = a.
Proof. reflexivity. Qed.
Lemma nth_repeat_in (x d : R) n k : (k < n)%nat -> nth k (repeat x n) d = x.
Proof. revert n. induction k as [|k IH]; intros [|n] H; cbn; try lia; [reflexivity|]. apply IH. lia. Qed.
Lemma final_ends a c n : (2 <= n)%Z -> final (ends a c n) = c.
Proof.
  intros H. unfold final, ends. cbn [length]. rewrite repeat_length.
  replace (S (Z.to_nat (n - 1)) - 1)%nat with (S (Z.to_nat (n - 2))) by lia. cbn [nth]. apply nth_repeat_in. lia.
Qed.
Lemma points_ends a c n : (2 <= n < 2 ^ 31)%Z -> a < c -> points (ends a c n) n.
Proof.
  intros H L. split; [exact H|]. rewrite first_ends, final_ends by lia. split; [|exact L]. unfold ends. cbn [length]. rewrite repeat_length. lia.
Qed.
(** NE groups from 1 to 10 MeV, three species; the first density is 1, the first
    temperature 1 MeV (and the guard), the first electron fraction 0 *)
Definition flat_file (NE : Z) (j kappa : R) : nulib := {|
  nb_NR := 2; nb_NT := 2; nb_NY := 2; nb_NS := 3; nb_NE := NE;
  nb_rho := ends (1 + tiny) 3 2; nb_temp := ends (1 + tiny) 3 2; nb_ye := ends 0 1 2; nb_energy := ends 1 10 NE;
  nb_emissivities := repeat j (Z.to_nat (NE * 3 * 2 * 2 * 2)); nb_absorption := repeat kappa (Z.to_nat (NE * 3 * 2 * 2 * 2)) |}.
Lemma flat_ok NE j kappa : (2 <= NE < 2 ^ 31)%Z -> 0 < kappa -> nulib_ok (flat_file NE j kappa).
Proof.
  intros H K. pose proof tiny_pos. pose proof tiny_lt_1. unfold nulib_ok, nb_size, flat_file.
  cbn [nb_NR nb_NT nb_NY nb_NS nb_NE nb_rho nb_temp nb_ye nb_energy nb_emissivities nb_absorption].
  repeat (split; [apply points_ends; lia || lra|]). split; [lia|]. rewrite !first_ends. repeat (split; [lra|]).
  rewrite !repeat_length. split; [lia|]. split; [lia|]. intros k Hk. rewrite nth_repeat_in by exact Hk. exact K.
Qed.
Lemma flat_node NE j kappa : table_node (flat_file NE j kappa) kelvin_per_MeV 0 0 0 1 kelvin_per_MeV 0.
Proof.
  pose proof tiny_pos. pose proof tiny_lt_1. pose proof kelvin_pos. unfold table_node, rg_node. cbn [nb_gR nb_gT nb_gY rg_lo flat_file nb_NR nb_NT nb_NY nb_rho nb_temp nb_ye].
  rewrite !first_ends, !Rmult_0_l, !Rplus_0_l, pow10_log10 by lra. repeat split; try lia; try lra. unfold kelvin_per_MeV. field.
Qed.

(** The convergence claimed fails. With the factor ln 10 the error of the sum would be at
    most ln 10 times the one above; on a file of 1001 groups and a constant spectrum the
    emissivity misses the integral by more than that. *)
Lemma C41_integral_refuted_proof :
  exists (b : nulib) (f : R -> R) (eps : R),
  nulib_ok b /\ table_node b kelvin_per_MeV 0 0 0 1 kelvin_per_MeV 0 /\ samples b 0 0 0 0 f /\
  (forall e, continuous f e) /\ 0 <= eps /\ varies_less b (fun e => 4 * PI * f e * e) eps /\
  forall fresh n, exists t J, LoadFromNuLib (finpc cgsR) fresh (Some (file_of b)) = Ok t /\
  nu_Emissivity (SpinerOpacity n (finpc cgsR) t) (Fin 1) (Fin kelvin_per_MeV) (Fin 0) NU_ELECTRON = Ok (Fin J) /\
  ln 10 * (eps * decades b + group_decades b * Rabs (4 * PI * f (final (nb_energy b)) * final (nb_energy b))) <
  Rabs (J - (RInt (fun e => 4 * PI * f e) (first (nb_energy b)) (final (nb_energy b)) + tiny)).
Proof.
  pose proof tiny_pos as Tp. pose proof tiny_lt_1 as Tl. pose proof ln10_bounds as [L2 L3]. pose proof PI_RGT_0 as Pp.
  set (b := flat_file 1001 2 1). exists b, (fun _ => 1), (4 * PI * (3 / 100)).
  assert (Hb : nulib_ok b) by (apply flat_ok; [lia|lra]).
  assert (Ef : first (nb_energy b) = 1) by reflexivity.
  assert (El : final (nb_energy b) = 10) by (apply final_ends; lia).
  assert (D1 : decades b = 1).
  { unfold decades. rewrite Ef, El. unfold log10. rewrite ln_1. field. lra. }
  assert (D2 : group_decades b = 1 / 1000).
  { unfold group_decades. rewrite D1. change (nb_NE b) with 1001%Z. simpl (1001 - 1)%Z. reflexivity. }
  assert (Sm : samples b 0 0 0 0 (fun _ => 1)).
  { intros e He. unfold b. cbn [flat_file nb_absorption]. apply nth_repeat_in. pose proof (index_range b 0 0 0 0 e) as Ir.
    change (nb_size b) with (1001 * 3 * 2 * 2 * 2)%Z in Ir. apply Ir; [cbn; lia..|exact He]. }
  assert (MV : forall x x', x <= 1 -> x' < x -> 0 <= pow10 x - pow10 x' <= 30 * (x - x')).
  { intros x x' Hx Hlt. split; [pose proof (pow10_incr x' x Hlt); lra|].
    destruct (MVT_gen pow10 x' x (fun z => ln 10 * pow10 z)) as (c & Hc & Ec).
    - intros z _. apply is_derive_pow10.
    - intros z _. apply continuity_pt_filterlim. apply continuous_pow10.
    - rewrite Ec. rewrite Rmin_left, Rmax_right in Hc by lra. apply Rmult_le_compat_r; [lra|].
      assert (pow10 c <= 10). { replace 10 with (pow10 1) by (unfold pow10; apply Rpower_1; lra). apply pow10_le. lra. }
      pose proof (pow10_pos c). nra. }
  assert (Vl : varies_less b (fun e => 4 * PI * 1 * e) (4 * PI * (3 / 100))).
  { intros e e' He He'. rewrite Ef, El in *. change (rg_dx (nb_gE b)) with (group_decades b). rewrite D2. intros Hd.
    rewrite !Rmult_1_r, <- Rmult_minus_distr_l, Rabs_mult, (Rabs_pos_eq (4 * PI)) by lra. apply Rmult_le_compat_l; [lra|].
    assert (LL : forall u, 1 <= u <= 10 -> log10 u <= 1).
    { intros u Hu. replace 1 with (log10 10) by (unfold log10; field; lra). apply log10_le; lra. }
    pose proof (LL e He) as B1. pose proof (LL e' He') as B2. apply Rabs_le_between in Hd.
    rewrite <- (pow10_log10 e), <- (pow10_log10 e') by lra. set (u := log10 e) in *. set (v := log10 e') in *.
    destruct (Rtotal_order u v) as [C|[C|C]].
    - pose proof (MV v u B2 C). apply Rabs_le. lra.
    - rewrite C, Rminus_eq_0, Rabs_R0. lra.
    - pose proof (MV u v B1 C). apply Rabs_le. lra. }
  split; [exact Hb|]. split; [apply flat_node|]. split; [exact Sm|]. split; [intros; apply continuous_const|].
  split; [lra|]. split; [exact Vl|]. intros fresh n.
  pose proof (cgs_pos) as Cp.
  destruct (C41_load_proof cgsR n b fresh) as (t & Et & _); [apply Cp|apply Cp|exact Hb|].
  destruct (C41_integral_proof cgsR n b fresh t 0 0 0 1 kelvin_per_MeV 0 NU_ELECTRON (fun _ => 1) (4 * PI * (3 / 100)) 0) as (J & N & EJ & _ & BJ & _);
    [apply Cp|apply Cp|exact Hb|exact Et|apply flat_node|cbn; lia|rewrite Ef; lra|intros; apply continuous_const|exact Sm|lra|exact Vl|lra| |].
  { intros e e' _ _ _. rewrite Rminus_eq_0, Rabs_R0. lra. }
  exists t, J. split; [exact Et|]. split; [exact EJ|]. rewrite Ef, El, D1, D2 in *.
  rewrite RInt_const in *. change (scal (10 - 1) (4 * PI * 1)) with ((10 - 1) * (4 * PI * 1)) in *.
  rewrite (Rabs_pos_eq (4 * PI * 1 * 10)) in * by lra.
  apply Rabs_le_between in BJ.
  assert (I2 : (10 - 1) * (4 * PI * 1) / ln 10 <= 9 / 2 * (4 * PI)).
  { apply Rmult_le_reg_r with (ln 10); [lra|]. unfold Rdiv at 1. rewrite Rmult_assoc, Rinv_l, Rmult_1_r by lra. nra. }
  rewrite Rabs_left by nra. nra.
Qed.

(** Any arithmetic: a file that loads contains every dataset, and none of the two big ones is
    longer than the sizes announce. *)
Lemma C41_present_proof :
  forall (T : Type) (O : Ops T) (pc : PhysConst T) (fresh : nat -> T) (file : option (NuLibFile T)) t,
  LoadFromNuLib pc fresh file = Ok t ->
  exists f NR NT NY NE NS rho temp energy ye em ab, file = Some f /\
    nl_nrho f = Some NR /\ nl_ntemp f = Some NT /\ nl_nye f = Some NY /\ nl_number_groups f = Some NE /\ nl_number_species f = Some NS /\
    nl_rho_points f = Some rho /\ nl_temp_points f = Some temp /\ nl_neutrino_energies f = Some energy /\ nl_ye_points f = Some ye /\
    nl_emissivities f = Some em /\ nl_absorption_opacity f = Some ab /\
    (length em <= Z.to_nat (NE * NS * NY * NT * NR))%nat /\ (length ab <= Z.to_nat (NE * NS * NY * NT * NR))%nat.
Proof.
  intros T O pc fresh [f|] t E; [|discriminate]. unfold LoadFromNuLib in E.
  destruct (nl_nrho f) as [NR|] eqn:F1; [cbn [ReadInt bind] in E|discriminate].
  destruct (nl_ntemp f) as [NT|] eqn:F2; [cbn [ReadInt bind] in E|discriminate].
  destruct (nl_nye f) as [NY|] eqn:F3; [cbn [ReadInt bind] in E|discriminate].
  destruct (nl_number_groups f) as [NE|] eqn:F4; [cbn [ReadInt bind] in E|discriminate].
  destruct (nl_number_species f) as [NS|] eqn:F5; [cbn [ReadInt bind] in E|discriminate].
  assert (RB : forall d n, d = None -> ReadBounds (O := O) d n = Error).
  { intros d n ->. unfold ReadBounds. destruct (n <? 0)%Z; reflexivity. }
  destruct (nl_rho_points f) as [rho|] eqn:F6; [|rewrite RB in E by reflexivity; discriminate].
  destruct (ReadBounds (Some rho) NR) as [br| |]; try discriminate. cbn [bind] in E.
  destruct (nl_temp_points f) as [temp|] eqn:F7; [|rewrite RB in E by reflexivity; discriminate].
  destruct (ReadBounds (Some temp) NT) as [bt| |]; try discriminate. cbn [bind] in E.
  destruct (nl_neutrino_energies f) as [energy|] eqn:F8; [|rewrite RB in E by reflexivity; discriminate].
  destruct (ReadBounds (Some energy) NE) as [be| |]; try discriminate. cbn [bind] in E.
  destruct (nl_ye_points f) as [ye|] eqn:F9; [|rewrite RB in E by reflexivity; discriminate].
  destruct (ReadBounds (Some ye) NY) as [bY| |]; try discriminate. cbn [bind] in E. cbv zeta in E.
  destruct (nl_emissivities f) as [em|] eqn:F10; [|discriminate]. unfold read_into at 1 in E. rewrite map_length, seq_length in E.
  destruct (Nat.leb_spec (length em) (Z.to_nat (NE * NS * NY * NT * NR))) as [L1|]; [|discriminate]. cbn [bind] in E.
  destruct (nl_absorption_opacity f) as [ab|] eqn:F11; [|discriminate]. unfold read_into at 1 in E.
  rewrite app_length, skipn_length, map_length, seq_length in E.
  destruct (Nat.leb_spec (length ab) (length em + (Z.to_nat (NE * NS * NY * NT * NR) - length em))) as [L2|]; [|discriminate].
  exists f, NR, NT, NY, NE, NS, rho, temp, energy, ye, em, ab. repeat (split; [assumption || reflexivity|]). lia.
Qed.

(** The sizes are not checked against the datasets: an absorption dataset longer than
    announced is written past the end of the buffer. *)
Lemma C41_overrun_refuted_proof :
  forall (pc : PhysConst R) (fresh : nat -> ER) (b : nulib) (extra : list R), nulib_ok b -> extra <> [] ->
  LoadFromNuLib (finpc pc) fresh (Some (file_of {|
    nb_NR := nb_NR b; nb_NT := nb_NT b; nb_NY := nb_NY b; nb_NS := nb_NS b; nb_NE := nb_NE b;
    nb_rho := nb_rho b; nb_temp := nb_temp b; nb_ye := nb_ye b; nb_energy := nb_energy b;
    nb_emissivities := nb_emissivities b; nb_absorption := nb_absorption b ++ extra |})) = UB.
Proof.
  intros pc fresh b extra Hb Hx. unfold LoadFromNuLib, file_of.
  cbn [nl_nrho nl_ntemp nl_nye nl_number_groups nl_number_species nl_rho_points nl_temp_points
      nl_neutrino_energies nl_ye_points nl_emissivities nl_absorption_opacity ReadInt bind
      nb_NR nb_NT nb_NY nb_NS nb_NE nb_rho nb_temp nb_ye nb_energy nb_emissivities nb_absorption].
  pose proof Hb as (P1 & P2 & P3 & P4 & HS & A1 & A2 & A3 & L1 & L2 & _).
  rewrite !bounds_ok by assumption. cbn [bind]. cbv zeta. unfold nb_size in *.
  rewrite !read_into_full by (rewrite !map_length, seq_length; lia). cbn [bind].
  unfold read_into at 1. rewrite !map_length, app_length. assert (length extra <> 0)%nat by (destruct extra; [contradiction|cbn; lia]).
  destruct (Nat.leb_spec (length (nb_absorption b) + length extra) (length (nb_emissivities b))); [lia|]. reflexivity.
Qed.

(** an example for the hypotheses: a file with two groups, three species and different
    datasets, loaded and asked at its first node; the emissivity answered is that of the
    absorption dataset, 5, and not 2 *)
Lemma C41_load_example : let b := flat_file 2 2 5 in let nu := (1 - tiny) * hz_per_MeV cgsR in
  nulib_ok b /\ table_node b kelvin_per_MeV 0 0 0 1 kelvin_per_MeV 0 /\ energy_node b (hz_per_MeV cgsR) 0 nu /\
  exists t, LoadFromNuLib (finpc cgsR) (fun _ => Fin 7) (Some (file_of b)) = Ok t /\
  nu_EmissivityPerNuOmega (SpinerOpacity 3 (finpc cgsR) t) (Fin 1) (Fin kelvin_per_MeV) (Fin 0) NU_HEAVY (Fin nu) =
    Ok (Fin (pc_h cgsR * 5 / (10 ^ 6 * pc_eV cgsR))) /\
  nu_Absorption (SpinerOpacity 3 (finpc cgsR) t) (Fin 1) (Fin kelvin_per_MeV) (Fin 0) NU_HEAVY (Fin nu) = Ok (Fin 7).
Proof.
  intros b nu. pose proof tiny_lt_1 as Tl. pose proof cgs_pos as Cp.
  assert (Hh : 0 < pc_h cgsR) by apply Cp. assert (He : 0 < pc_eV cgsR) by apply Cp. pose proof (hz_pos cgsR Hh He) as Hz.
  assert (Hb : nulib_ok b) by (apply flat_ok; [lia|lra]).
  assert (N1 : table_node b kelvin_per_MeV 0 0 0 1 kelvin_per_MeV 0) by apply flat_node.
  assert (N2 : energy_node b (hz_per_MeV cgsR) 0 nu).
  { split; [cbn; lia|]. split; [apply Rmult_le_pos; lra|]. unfold group_energy, rg_node. cbn [nb_gE rg_lo].
    change (first (nb_energy b)) with 1. rewrite Rmult_0_l, Rplus_0_l, pow10_log10 by lra. unfold nu. field. lra. }
  split; [exact Hb|]. split; [exact N1|]. split; [exact N2|].
  destruct (C41_load_proof cgsR 3 b (fun _ => Fin 7) Hh He Hb) as (t & Et & A). exists t. split; [exact Et|].
  destruct (A 0%Z 0%Z 0%Z 0%Z 1 kelvin_per_MeV 0 nu NU_HEAVY N1 N2) as (B & _ & _ & _ & C); [cbn; lia|].
  split; [exact B|]. apply (C (fun _ => 7)). intros; split; [reflexivity|lra].
Qed.
