(** Loading NuLib files: what every cell of the tables receives. *)
From Coq Require Import Reals ZArith List Lia Lra Bool.
From Verif Require Import Base.Outcome Base.Ops Inst.ER Inst.ERTac Model.Constants Model.RadTypes Model.NeutrinoApi
  Model.Spiner Model.SpinerNeutrinos Spec.Means Spec.Tables Spec.Tabulated Spec.NuLib Proofs.ArrayFacts Proofs.InterpFacts
  Proofs.TableFacts Proofs.FillFacts Proofs.ModelFacts Proofs.MeanTotal Proofs.SpinerFacts Proofs.SpinerExact.
Import ListNotations.
Open Scope Z_scope.

Section AnyOps.
  Context {T : Type} {O : Ops T} (pc : PhysConst T).

  Lemma at_flat_some (l : list T) c x : (0 <= c)%Z -> nth_error l (Z.to_nat c) = Some x -> at_flat l c = Ok x.
  Proof. intros H E. unfold at_flat, load. destruct (Z.ltb_spec c 0); [lia|]. now rewrite E. Qed.

  Lemma read_into_full (buf l : list T) : length l = length buf -> read_into buf (Some l) = Ok l.
  Proof.
    intros H. unfold read_into. destruct (Nat.leb_spec (length l) (length buf)); [|lia].
    now rewrite H, skipn_all, app_nil_r.
  Qed.

  Lemma ReadBounds_ok (l : list T) n a b : Z.of_nat (length l) = n -> nth_error l 0 = Some a ->
    nth_error l (length l - 1) = Some b -> ReadBounds (Some l) n = Ok (a, b).
  Proof.
    intros L Ha Hb. unfold ReadBounds. destruct (Z.ltb_spec n 0); [lia|].
    rewrite read_into_full by (rewrite repeat_length; lia). cbn [bind].
    rewrite (at_flat_some l 0 a) by (lia || exact Ha). cbn [bind].
    assert (length l <> 0)%nat by (destruct l; [discriminate|cbn; lia]).
    rewrite (at_flat_some l (n - 1) b); [reflexivity|lia|]. replace (Z.to_nat (n - 1)) with (length l - 1)%nat by lia. exact Hb.
  Qed.

  Section Fill.
    Context (kappa j : list T) (NR NT NY NS NE : Z).
    Hypotheses (Lk : Z.of_nat (length kappa) = (NE * NS * NY * NT * NR)%Z) (Lj : Z.of_nat (length j) = (NE * NS * NY * NT * NR)%Z).
    Let at_ (l : list T) (k : Z) : T := nth (Z.to_nat k) l (#0)%o.

    Definition nl_value (k : cell) : T * T :=
      match k with
      | C4 _ _ _ _ => ((#0)%o, (#0)%o)
      | C5 i t y s e => let c := nl_cell NS NY NT NR e s y t i in
        (Olog10 (at_ kappa c), Olog10 (pc_h pc * at_ j c / sp_MEV pc)%o)
      end.

    Lemma nl_cell_range i t y s e : valid_cell NR NT NY NS NE (C5 i t y s e) ->
      (0 <= nl_cell NS NY NT NR e s y t i < NE * NS * NY * NT * NR)%Z.
    Proof. intros (A & B & C & D & E). unfold nl_cell. repeat (apply flat_lt; [|lia]). lia. Qed.

    Lemma at_nth l c : (0 <= c < Z.of_nat (length l))%Z -> at_flat l c = Ok (at_ l c).
    Proof. intros H. apply at_flat_some; [lia|]. apply nth_error_nth'. lia. Qed.

    Lemma nl_fill_writes :
      writes (valid_cell NR NT NY NS NE) (get_cell NT NY NS NE) nl_value (sized NR NT NY NS NE)
        (nl_fill pc kappa j NR NT NY NS NE)
        (fun k => match k with C4 _ _ _ _ => False | C5 _ _ _ _ _ => valid_cell NR NT NY NS NE k end).
    Proof.
      apply (writes_iff _ _ _ _ _ (fun k => exists i, (Z.of_nat i < NR)%Z /\ exists t, (Z.of_nat t < NT)%Z /\
        exists y, (Z.of_nat y < NY)%Z /\ exists s, (Z.of_nat s < NS)%Z /\ exists e, (Z.of_nat e < NE)%Z /\ C5 i t y s e = k)).
      { intros [i t y s|i t y s e]; split.
        - intros (? & _ & ? & _ & ? & _ & ? & _ & ? & _ & E). discriminate.
        - contradiction.
        - intros (i' & H1 & t' & H2 & y' & H3 & s' & H4 & e' & H5 & E). injection E as <- <- <- <- <-. cbn. auto.
        - intros (H1 & H2 & H3 & H4 & H5). exists i. split; [exact H1|]. exists t. split; [exact H2|]. exists y. split; [exact H3|].
          exists s. split; [exact H4|]. exists e. auto. }
      unfold nl_fill. apply writes_for. intros i Hi. apply writes_for. intros t Ht. apply writes_for. intros y Hy.
      apply writes_for. intros s Hs. apply writes_for. intros e He.
      assert (V : valid_cell NR NT NY NS NE (C5 i t y s e)) by (cbn; auto).
      intros d Hd. unfold nl_fill_cell. cbv zeta. pose proof (nl_cell_range i t y s e V) as Rg.
      set (c := nl_cell NS NY NT NR e s y t i) in *. rewrite !at_nth by lia. cbn [bind].
      destruct (set5 NR NT NY NS NE d i t y s e (Olog10 (at_ kappa c)) (Olog10 (pc_h pc * at_ j c / sp_MEV pc)%o) Hd V)
        as (da & dj & F1 & F2 & F3 & F4 & F5).
      rewrite F1. cbn [bind]. rewrite F2. cbn [bind]. eexists. split; [reflexivity|]. split; [exact F3|]. split.
      - intros k Hk <-. exact F4.
      - intros k Hk Nk. apply F5; auto.
    Qed.
  End Fill.

  (** ** the integrals *)
  Section Integrals.
    Context (gR gT gY ge : Grid T) (NS : Z).
    Notation NR := (g_N gR). Notation NT := (g_N gT). Notation NY := (g_N gY). Notation NE := (g_N ge).
    Context (lj : nat -> nat -> nat -> nat -> nat -> T).

    (** the sums over the first n groups *)
    Fixpoint isum (l : nat -> T) (n : nat) : T * T :=
      match n with
      | 0%nat => ((#0)%o, (#0)%o)
      | S m => let e := Opow #10 (g_x ge (Z.of_nat m)) in
        let integrand := (#4 * Opi * (Opow #10 (l m) * sp_MEV pc / pc_h pc) * e)%o in
        ((fst (isum l m) + integrand)%o, (snd (isum l m) + integrand / (sp_MEV pc * e))%o)
      end.
    Definition int_value (k : cell) : T * T :=
      match k with
      | C5 _ _ _ _ _ => ((#0)%o, (#0)%o)
      | C4 i t y s => let a := isum (lj i t y s) (Z.to_nat NE) in
        (sp_toLog (fst a * g_dx ge)%o, sp_toLog (snd a * g_dx ge)%o)
      end.
    Definition has_jnu (d : sp_data T) : Prop := sized NR NT NY NS NE d /\
      forall i t y s e, valid_cell NR NT NY NS NE (C5 i t y s e) ->
      at_flat (d_jnu d) (sp_cell5 NT NY NS NE i t y s e) = Ok (lj i t y s e).

    Lemma integral_ok d i t y s : has_jnu d -> valid_cell NR NT NY NS NE (C4 i t y s) ->
      sp_integral pc ge (d_jnu d) (sp_cell4 NT NY NS i t y s) = Ok (isum (lj i t y s) (Z.to_nat NE)).
    Proof.
      intros [_ H] V. unfold sp_integral, for_int, for_loop.
      assert (G : forall m, (m <= Z.to_nat NE)%nat ->
        for_from m 0 (sp_integral_step pc ge (d_jnu d) (sp_cell4 NT NY NS i t y s)) ((#0)%o, (#0)%o) = Ok (isum (lj i t y s) m)).
      { induction m as [|m IH]; intros Hm; [reflexivity|]. rewrite for_from_S_last, Nat.add_0_l, IH by lia. cbn [bind].
        unfold sp_integral_step. cbv zeta. change (sp_cell4 NT NY NS i t y s * NE + Z.of_nat m)%Z with (sp_cell5 NT NY NS NE i t y s m).
        rewrite H by (cbn in V |- *; lia). reflexivity. }
      apply G. lia.
    Qed.

    Lemma integrals_writes :
      writes (valid_cell NR NT NY NS NE) (get_cell NT NY NS NE) int_value has_jnu
        (ComputeIntegrals pc gR gT gY ge NS)
        (fun k => match k with C4 _ _ _ _ => valid_cell NR NT NY NS NE k | C5 _ _ _ _ _ => False end).
    Proof.
      apply (writes_iff _ _ _ _ _ (fun k => exists i, (Z.of_nat i < NR)%Z /\ exists t, (Z.of_nat t < NT)%Z /\
        exists y, (Z.of_nat y < NY)%Z /\ exists s, (Z.of_nat s < NS)%Z /\ C4 i t y s = k)).
      { intros [i t y s|i t y s e]; split.
        - intros (i' & H1 & t' & H2 & y' & H3 & s' & H4 & E). injection E as <- <- <- <-. cbn. auto.
        - intros (H1 & H2 & H3 & H4). exists i. split; [exact H1|]. exists t. split; [exact H2|]. exists y. split; [exact H3|].
          exists s. auto.
        - intros (? & _ & ? & _ & ? & _ & ? & _ & E). discriminate.
        - contradiction. }
      unfold ComputeIntegrals. apply writes_for. intros i Hi. apply writes_for. intros t Ht. apply writes_for. intros y Hy.
      apply writes_for. intros s Hs.
      assert (V : valid_cell NR NT NY NS NE (C4 i t y s)) by (cbn; auto).
      intros d Hd. unfold sp_integral_cell. rewrite (integral_ok d i t y s Hd V). cbn [bind].
      set (a := isum (lj i t y s) (Z.to_nat NE)). destruct Hd as [Sd Jd].
      destruct (set4 NR NT NY NS NE d i t y s (sp_toLog (fst a * g_dx ge)%o) (sp_toLog (snd a * g_dx ge)%o) Sd V)
        as (dJ & dY & F1 & F2 & F3 & F4 & F5).
      rewrite F1. cbn [bind]. rewrite F2. cbn [bind]. eexists. split; [reflexivity|]. split; [split; [exact F3|exact Jd]|]. split.
      - intros k Hk <-. exact F4.
      - intros k Hk Nk. apply F5; auto.
    Qed.
  End Integrals.
End AnyOps.

Open Scope R_scope.
Lemma nth_error_fin l k : (k < length l)%nat -> nth_error (map Fin l) k = Some (Fin (nth k l 0)).
Proof. intros H. rewrite nth_error_map, (nth_error_nth' l 0 H). reflexivity. Qed.
Lemma nth_fin l k d : (k < length l)%nat -> nth k (map Fin l) d = Fin (nth k l 0).
Proof. intros H. apply nth_error_nth. now apply nth_error_fin. Qed.

Section Exact.
  Context (pc : PhysConst R) (Hh : 0 < pc_h pc) (He : 0 < pc_eV pc) (b : nulib) (Hb : nulib_ok b) (fresh : nat -> ER).
  Notation NR := (nb_NR b). Notation NT := (nb_NT b). Notation NY := (nb_NY b). Notation NS := (nb_NS b). Notation NE := (nb_NE b).

  Lemma bounds_ok l n : points l n -> ReadBounds (Some (map Fin l)) n = Ok (Fin (first l), Fin (final l)).
  Proof.
    intros (A & B & C). apply ReadBounds_ok.
    - now rewrite map_length.
    - apply nth_error_fin. lia.
    - rewrite map_length. apply nth_error_fin. lia.
  Qed.
  Lemma log_grid_ok l n : points l n -> 0 < first l ->
    rg_ok {| rg_lo := log10 (first l); rg_hi := log10 (final l); rg_n := n |}.
  Proof. intros (A & B & C) P. split; cbn; [now apply log10_incr|exact A]. Qed.
  Lemma gR_ok : rg_ok (nb_gR b).
  Proof. unfold nulib_ok in Hb. apply log_grid_ok; tauto. Qed.
  Lemma gT_ok : rg_ok (nb_gT b).
  Proof. unfold nulib_ok in Hb. apply log_grid_ok; tauto. Qed.
  Lemma gE_ok : rg_ok (nb_gE b).
  Proof. unfold nulib_ok in Hb. apply log_grid_ok; tauto. Qed.
  Lemma gY_ok : rg_ok (nb_gY b).
  Proof. destruct Hb as (_ & _ & (A & B & C) & _). split; [exact C|exact A]. Qed.

  Lemma size_nonneg : (0 <= nb_size b)%Z.
  Proof. destruct Hb as (_ & _ & _ & _ & _ & _ & _ & _ & L & _). lia. Qed.

  Lemma MEV_fin : sp_MEV (finpc pc) = Fin (10 ^ 6 * pc_eV pc).
  Proof. unfold sp_MEV, finpc, pc_map. cbn [pc_eV]. now rewrite fin_dec, fin_mul, Rmult_1_l. Qed.
  Lemma MEV_pos : 0 < 10 ^ 6 * pc_eV pc.
  Proof. apply Rmult_lt_0_compat; [apply pow_lt; lra|assumption]. Qed.

  (** the absorption dataset at a cell *)
  Definition absorption (i j y s e : Z) : R := nth (nb_index b i j y s e) (nb_absorption b) 0.
  Definition MeV_node (e : Z) : R := pow10 (rg_node (nb_gE b) e).
  Definition total4 (i j y s : Z) : R :=
    rg_dx (nb_gE b) * rsum (Z.to_nat NE) (fun e => 4 * PI * absorption i j y s (Z.of_nat e) * MeV_node (Z.of_nat e)).
  Definition number4 (i j y s : Z) : R :=
    rg_dx (nb_gE b) * rsum (Z.to_nat NE) (fun e => 4 * PI * absorption i j y s (Z.of_nat e) / (10 ^ 6 * pc_eV pc)).
  Definition jnu5 (i j y s e : Z) : R := absorption i j y s e / hz_per_MeV pc.

  Lemma index_range i j y s e : (0 <= i < NR)%Z -> (0 <= j < NT)%Z -> (0 <= y < NY)%Z -> (0 <= s < NS)%Z -> (0 <= e < NE)%Z ->
    (nb_index b i j y s e < Z.to_nat (nb_size b))%nat.
  Proof.
    intros. unfold nb_index.
    assert (0 <= ((((e * NS + s) * NY + y) * NT + j) * NR + i) < nb_size b)%Z.
    { unfold nb_size. repeat (apply flat_lt; [|lia]). lia. }
    lia.
  Qed.
  Lemma absorption_pos i j y s e : (0 <= i < NR)%Z -> (0 <= j < NT)%Z -> (0 <= y < NY)%Z -> (0 <= s < NS)%Z -> (0 <= e < NE)%Z ->
    0 < absorption i j y s e.
  Proof.
    intros. pose proof (index_range i j y s e). unfold absorption. destruct Hb as (_ & _ & _ & _ & _ & _ & _ & _ & _ & L & P).
    apply P. lia.
  Qed.

  Lemma isum_fin i j y s : (0 <= i < NR)%Z -> (0 <= j < NT)%Z -> (0 <= y < NY)%Z -> (0 <= s < NS)%Z ->
    forall n, (Z.of_nat n <= NE)%Z ->
    isum (finpc pc) (grid_of (nb_gE b)) (fun e => Fin (log10 (jnu5 i j y s (Z.of_nat e)))) n =
    (Fin (rsum n (fun e => 4 * PI * absorption i j y s (Z.of_nat e) * MeV_node (Z.of_nat e))),
     Fin (rsum n (fun e => 4 * PI * absorption i j y s (Z.of_nat e) / (10 ^ 6 * pc_eV pc)))).
  Proof.
    intros Hi Hj Hy Hs. pose proof MEV_pos as Mp. pose proof (hz_pos pc Hh He) as Hz. induction n as [|n IH]; intros Hn; [reflexivity|].
    cbn [isum rsum]. rewrite IH by lia. cbn [fst snd]. rewrite g_x_of, MEV_fin by exact gE_ok.
    change (pc_h (finpc pc)) with (Fin (pc_h pc)). rewrite !fin_ofZ, !fin_pow, fin_pi by lra.
    change (Rpower 10 (rg_node (nb_gE b) (Z.of_nat n))) with (MeV_node (Z.of_nat n)).
    change (Rpower 10 (log10 (jnu5 i j y s (Z.of_nat n)))) with (pow10 (log10 (jnu5 i j y s (Z.of_nat n)))).
    pose proof (absorption_pos i j y s (Z.of_nat n) Hi Hj Hy Hs) as Pa. specialize (Pa ltac:(lia)).
    assert (Me : 0 < MeV_node (Z.of_nat n)) by apply pow10_pos.
    rewrite pow10_log10 by (apply Rdiv_lt_0_compat; assumption).
    rewrite !fin_mul, fin_div by lra. rewrite !fin_mul, fin_div by (apply Rgt_not_eq; apply Rmult_lt_0_compat; lra).
    rewrite !fin_add. unfold jnu5, hz_per_MeV. f_equal; f_equal; f_equal; field; repeat split; lra.
  Qed.

  Lemma load_exact : exists t,
    LoadFromNuLib (finpc pc) fresh (Some (file_of b)) = Ok t /\
    rev (combine (db_dims (sp_alpha t)) (db_ranges (sp_alpha t))) = map dim_of (axes5 (nb_gR b) (nb_gT b) (nb_gY b) NS (nb_gE b)) /\
    (forall i j y s e, (0 <= i < NR)%Z -> (0 <= j < NT)%Z -> (0 <= y < NY)%Z -> (0 <= s < NS)%Z -> (0 <= e < NE)%Z ->
      at_flat (db_data (sp_alpha t)) (((((0 * NR + i) * NT + j) * NY + y) * NS + s) * NE + e) =
      Ok (Olog10 (fresh (nb_index b i j y s e)))) /\
    holds (sp_jnu t) (axes5 (nb_gR b) (nb_gT b) (nb_gY b) NS (nb_gE b))
      (fun is => log10 (jnu5 (nth 0 is 0%Z) (nth 1 is 0%Z) (nth 2 is 0%Z) (nth 3 is 0%Z) (nth 4 is 0%Z))) /\
    holds (sp_J t) (axes4 (nb_gR b) (nb_gT b) (nb_gY b) NS)
      (fun is => log10 (guarded (total4 (nth 0 is 0%Z) (nth 1 is 0%Z) (nth 2 is 0%Z) (nth 3 is 0%Z)))) /\
    holds (sp_JYe t) (axes4 (nb_gR b) (nb_gT b) (nb_gY b) NS)
      (fun is => log10 (guarded (number4 (nth 0 is 0%Z) (nth 1 is 0%Z) (nth 2 is 0%Z) (nth 3 is 0%Z)))).
  Proof.
    pose proof MEV_pos as Mp. pose proof (hz_pos pc Hh He) as Hz.
    pose proof gR_ok as OR. pose proof gT_ok as OT. pose proof gY_ok as OY. pose proof gE_ok as OE. pose proof size_nonneg as Sz.
    destruct Hb as (P1 & P2 & P3 & P4 & HS & A1 & A2 & A3 & L1 & L2 & _).
    set (storage := map fresh (seq 0 (Z.to_nat (NE * NS * NY * NT * NR)))).
    assert (Ls : length storage = Z.to_nat (nb_size b)) by (unfold storage; rewrite map_length, seq_length; reflexivity).
    set (ab := map Fin (nb_absorption b)).
    assert (La : length ab = Z.to_nat (nb_size b)) by (unfold ab; rewrite map_length; lia).
    assert (NI : forall i t y s e, nl_cell NS NY NT NR e s y t i =
      ((((Z.of_nat e * NS + Z.of_nat s) * NY + Z.of_nat y) * NT + Z.of_nat t) * NR + Z.of_nat i)%Z) by reflexivity.
    destruct (fun A B => nl_fill_writes (finpc pc) storage ab NR NT NY NS NE A B (sp_zeros NR NT NY NS NE)) as (d & Ed & Sd & Gd & _).
    { rewrite Ls. unfold nb_size in *. lia. }
    { rewrite La. unfold nb_size in *. lia. }
    { apply sized_zeros; unfold points in *; lia. }
    set (lj := fun i t y s e : nat => Fin (log10 (jnu5 (Z.of_nat i) (Z.of_nat t) (Z.of_nat y) (Z.of_nat s) (Z.of_nat e)))).
    assert (V5 : forall i t y s e, valid_cell NR NT NY NS NE (C5 i t y s e) ->
      at_flat (d_alpha d) (sp_cell5 NT NY NS NE i t y s e) =
        Ok (Olog10 (fresh (nb_index b (Z.of_nat i) (Z.of_nat t) (Z.of_nat y) (Z.of_nat s) (Z.of_nat e)))) /\
      at_flat (d_jnu d) (sp_cell5 NT NY NS NE i t y s e) = Ok (lj i t y s e)).
    { intros i t y s e Vc. pose proof (Gd _ Vc Vc) as G. cbn [get_cell cell_index nl_value] in G. apply get2_at in G.
      cbn [valid_cell] in Vc.
      pose proof (index_range (Z.of_nat i) (Z.of_nat t) (Z.of_nat y) (Z.of_nat s) (Z.of_nat e)) as Ir.
      do 5 specialize (Ir ltac:(lia)).
      pose proof (absorption_pos (Z.of_nat i) (Z.of_nat t) (Z.of_nat y) (Z.of_nat s) (Z.of_nat e)) as Pa.
      do 5 specialize (Pa ltac:(lia)). unfold absorption in Pa.
      rewrite NI in G. change (Z.to_nat _) with (nb_index b (Z.of_nat i) (Z.of_nat t) (Z.of_nat y) (Z.of_nat s) (Z.of_nat e)) in G.
      set (k := nb_index b _ _ _ _ _) in *. destruct G as [-> ->]. split.
      - do 2 f_equal. unfold storage. apply nth_error_nth. rewrite nth_error_map, (nth_error_nth' _ 0%nat) by (rewrite seq_length; exact Ir).
        cbn. rewrite seq_nth by exact Ir. reflexivity.
      - unfold ab. rewrite nth_fin by lia. rewrite MEV_fin. change (pc_h (finpc pc)) with (Fin (pc_h pc)).
        rewrite fin_mul, fin_div by lra.
        replace (pc_h pc * nth k (nb_absorption b) 0 / (10 ^ 6 * pc_eV pc)) with (nth k (nb_absorption b) 0 / hz_per_MeV pc)
          by (unfold hz_per_MeV; field; split; lra).
        rewrite fin_log10; [reflexivity|]. now apply Rdiv_lt_0_compat. }
    destruct (fun st => integrals_writes (finpc pc) (grid_of (nb_gR b)) (grid_of (nb_gT b)) (grid_of (nb_gY b)) (grid_of (nb_gE b)) NS lj st)
      with (st := d) as (d' & Ed' & [Sd' Jd'] & Gd' & Kd').
    { split; [exact Sd|]. intros i t y s e Vc. apply (proj2 (V5 i t y s e Vc)). }
    eexists. split.
    { unfold LoadFromNuLib, file_of. cbn [nl_nrho nl_ntemp nl_nye nl_number_groups nl_number_species nl_rho_points nl_temp_points
        nl_neutrino_energies nl_ye_points nl_emissivities nl_absorption_opacity ReadInt bind].
      rewrite !bounds_ok by assumption. cbn [bind]. fold storage. cbv zeta.
      rewrite read_into_full by (rewrite map_length; lia). cbn [bind].
      rewrite read_into_full by (rewrite !map_length; lia). cbn [bind fst snd]. fold ab.
      assert (F : forall l n, points l n -> 0 < first l -> 0 < final l) by (intros l n (_ & _ & ?) ?; lra).
      rewrite !fin_log10 by (assumption || eapply F; eassumption).
      pose proof (mk_grid_of _ OR) as MR. pose proof (mk_grid_of _ OT) as MT. pose proof (mk_grid_of _ OY) as MY. pose proof (mk_grid_of _ OE) as ME.
      cbn [nb_gR nb_gT nb_gY nb_gE rg_lo rg_hi rg_n] in MR, MT, MY, ME. unfold log10 in MR, MT, MY, ME.
      rewrite ME. cbn [bind]. rewrite MY. cbn [bind]. rewrite MT. cbn [bind]. rewrite MR. cbn [bind].
      rewrite Ed. cbn [bind]. setoid_rewrite Ed'. cbn [bind]. reflexivity. }
    cbn [sp_boxes sp_alpha sp_jnu sp_J sp_JYe db_data db_dims db_ranges].
    assert (CA : forall i t y s e, valid_cell NR NT NY NS NE (C5 i t y s e) ->
      at_flat (d_alpha d') (sp_cell5 NT NY NS NE i t y s e) =
        Ok (Olog10 (fresh (nb_index b (Z.of_nat i) (Z.of_nat t) (Z.of_nat y) (Z.of_nat s) (Z.of_nat e))))).
    { intros i t y s e Vc.
      assert (G : get_cell NT NY NS NE d' (C5 i t y s e) = get_cell NT NY NS NE d (C5 i t y s e)) by exact (Kd' (C5 i t y s e) Vc (fun x => x)).
      pose proof (Gd _ Vc Vc) as G0. rewrite G0 in G. pose proof (V5 i t y s e Vc) as [W _].
      destruct (nl_value _ _ _ _ _ _ _) as [u v]. cbn [get_cell cell_index] in G, G0. apply get2_at in G, G0.
      destruct G as [-> _], G0 as [G0 _]. rewrite <- G0. exact W. }
    assert (CJ : forall i t y s, valid_cell NR NT NY NS NE (C4 i t y s) ->
      at_flat (d_J d') (sp_cell4 NT NY NS i t y s) =
        Ok (Fin (log10 (guarded (total4 (Z.of_nat i) (Z.of_nat t) (Z.of_nat y) (Z.of_nat s))))) /\
      at_flat (d_JYe d') (sp_cell4 NT NY NS i t y s) =
        Ok (Fin (log10 (guarded (number4 (Z.of_nat i) (Z.of_nat t) (Z.of_nat y) (Z.of_nat s)))))).
    { intros i t y s Vc. pose proof (Gd' (C4 i t y s) Vc Vc) as G. cbn [get_cell cell_index int_value] in G. apply get2_at in G.
      cbn [valid_cell] in Vc. change (Z.to_nat (g_N (grid_of (nb_gE b)))) with (Z.to_nat NE) in G. unfold lj in G.
      assert (0 <= NE)%Z by (unfold points in P4; lia). cbv beta in G.
      rewrite isum_fin in G by lia. cbn [fst snd] in G. change (g_dx (grid_of (nb_gE b))) with (Fin (rg_dx (nb_gE b))) in G.
      rewrite !fin_mul, !sp_toLog_fin in G. unfold total4, number4.
      rewrite !(Rmult_comm (rg_dx (nb_gE b))). exact G. }
    split; [reflexivity|]. split; [|split; [|split]].
    - intros i j y s e Hi Hj Hy Hs He'. specialize (CA (Z.to_nat i) (Z.to_nat j) (Z.to_nat y) (Z.to_nat s) (Z.to_nat e)).
      rewrite !Z2Nat.id in CA by lia. rewrite Z.mul_0_l, Z.add_0_l. unfold sp_cell5, sp_cell4 in CA. rewrite !Z2Nat.id in CA by lia.
      apply CA. cbn. lia.
    - split; [reflexivity|]. intros i Hi j Hj y Hy s Hs e He'. cbn [rd_size rg_n nb_gR nb_gT nb_gY nb_gE] in *. cbn [stores nth].
      assert (Vc : valid_cell NR NT NY NS NE (C5 (Z.to_nat i) (Z.to_nat j) (Z.to_nat y) (Z.to_nat s) (Z.to_nat e))) by (cbn; lia).
      pose proof (Jd' _ _ _ _ _ Vc) as G. unfold lj in G. change (g_N (grid_of (nb_gT b))) with NT in G.
      change (g_N (grid_of (nb_gY b))) with NY in G. change (g_N (grid_of (nb_gE b))) with NE in G.
      unfold sp_cell5, sp_cell4 in G. rewrite !Z2Nat.id in G by lia. rewrite Z.mul_0_l, Z.add_0_l. exact G.
    - split; [reflexivity|]. intros i Hi j Hj y Hy s Hs. cbn [rd_size rg_n nb_gR nb_gT nb_gY nb_gE] in *. cbn [stores nth].
      pose proof (CJ (Z.to_nat i) (Z.to_nat j) (Z.to_nat y) (Z.to_nat s) ltac:(cbn; lia)) as [G _].
      unfold sp_cell4 in G. rewrite !Z2Nat.id in G by lia. rewrite Z.mul_0_l, Z.add_0_l. exact G.
    - split; [reflexivity|]. intros i Hi j Hj y Hy s Hs. cbn [rd_size rg_n nb_gR nb_gT nb_gY nb_gE] in *. cbn [stores nth].
      pose proof (CJ (Z.to_nat i) (Z.to_nat j) (Z.to_nat y) (Z.to_nat s) ltac:(cbn; lia)) as [_ G].
      unfold sp_cell4 in G. rewrite !Z2Nat.id in G by lia. rewrite Z.mul_0_l, Z.add_0_l. exact G.
  Qed.
End Exact.
