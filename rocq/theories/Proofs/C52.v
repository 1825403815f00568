(** C52. Lookups stay within the tables. *)
From Coq Require Import Reals ZArith List Lia Lra Bool.
From Verif Require Import Base.Outcome Base.Ops Inst.ER Inst.ERTac Inst.RConsts Model.Constants Model.RadTypes Model.PhotonApi
  Model.NeutrinoApi Model.OpacNeutrinos Model.Spiner Model.MeanUtils Model.MeanPhotons Model.MeanNeutrinos Model.SpinerNeutrinos
  Spec.Groups Spec.Tables Spec.TableShape Spec.Tabulated Spec.NuLib Spec.Reach Proofs.ArrayFacts Proofs.OrderLaws Proofs.InterpFacts
  Proofs.TableFacts Proofs.MeanTotal Proofs.FillFacts Proofs.SpinerFacts Proofs.SpinerExact Proofs.NuLibFacts Proofs.C35 Proofs.C37 Proofs.C40 Proofs.C41.
Import ListNotations.
Open Scope Z_scope.

Section Any.
  Context {T : Type} {O : Ops T}.

  (** what a query asks of each dimension *)
  Fixpoint asks (cs : list (coord T)) (dims : list (Z * option (Grid T))) : Prop :=
    match cs, dims with
    | [], [] => True
    | Along x :: cs, (n, Some g) :: ds => proper_axis n g /\ asks cs ds
    | At i :: cs, (n, _) :: ds => 0 <= i < n /\ asks cs ds
    | _, _ => False
    end.
  Fixpoint converts (cs : list (coord T)) (dims : list (Z * option (Grid T))) : Prop :=
    match cs, dims with
    | Along x :: cs, (n, Some g) :: ds => convertible g x /\ converts cs ds
    | At i :: cs, (n, _) :: ds => converts cs ds
    | _, _ => True
    end.

  Lemma entries_pos cs : forall dims, asks cs dims -> 0 < entries dims.
  Proof.
    induction cs as [|[x|i] cs IH]; intros [|[n [g|]] ds] H; cbn in H; try contradiction; cbn [entries]; try lia.
    - destruct H as [[_ H1] H2]. specialize (IH _ H2). nia.
    - destruct H as [H1 H2]. specialize (IH _ H2). nia.
    - destruct H as [H1 H2]. specialize (IH _ H2). nia.
  Qed.

  Lemma bound_range (g : Grid T) i : 2 <= g_N g -> 0 <= g_bound g i <= g_N g - 2.
  Proof.
    intros H. unfold g_bound. destruct (i <? 0) eqn:E.
    - destruct (g_N g - 1 <=? 0) eqn:F; [apply Z.leb_le in F|apply Z.leb_gt in F]; lia.
    - apply Z.ltb_ge in E. destruct (g_N g - 1 <=? i) eqn:F; [apply Z.leb_le in F|apply Z.leb_gt in F]; lia.
  Qed.

  Lemma weights_conv (g : Grid T) x : convertible g x -> 2 <= g_N g ->
    exists i w, g_weights g x = Ok (i, w) /\ 0 <= i <= g_N g - 2.
  Proof.
    unfold convertible, g_weights, g_index. destruct (Otrunc _) as [z|]; [|congruence]. intros _ H. cbn [bind].
    do 2 eexists. split; [reflexivity|]. now apply bound_range.
  Qed.
  Lemma weights_none (g : Grid T) x : ~ convertible g x -> g_weights g x = UB.
  Proof.
    unfold convertible, g_weights, g_index. destruct (Otrunc _); [|reflexivity]. intros H. exfalso. apply H. discriminate.
  Qed.
  Lemma convertible_dec (g : Grid T) x : convertible g x \/ ~ convertible g x.
  Proof. unfold convertible. destruct (Otrunc _); [left; discriminate|right; auto]. Qed.

  Lemma at_flat_ok (d : list T) i : 0 <= i < Z.of_nat (length d) -> exists v, at_flat d i = Ok v.
  Proof.
    intros H. unfold at_flat. destruct (i <? 0) eqn:E; [apply Z.ltb_lt in E; lia|].
    destruct (load_ok d (Z.to_nat i)) as (v & E1 & _); [lia|]. now exists v.
  Qed.
  Lemma at_flat_out (d : list T) i : i < 0 \/ Z.of_nat (length d) <= i -> at_flat d i = UB.
  Proof.
    intros H. unfold at_flat. destruct (i <? 0) eqn:E; [reflexivity|]. apply Z.ltb_ge in E. apply load_ub. lia.
  Qed.

  Lemma interp_ok cs : forall dims d acc A, asks cs dims -> converts cs dims -> 0 <= acc < A ->
    Z.of_nat (length d) = A * entries dims -> exists v, interp cs dims d acc = Ok v.
  Proof.
    induction cs as [|[x|i] cs IH]; intros [|[n og] ds] d acc A Ha Hc Hacc Hl; cbn in Ha; try contradiction.
    - cbn [interp]. apply at_flat_ok. cbn in Hl. lia.
    - destruct og as [g|]; try contradiction. destruct Ha as [[Hn H2] Ha]. destruct Hc as [Hc1 Hc]. cbn [entries] in Hl.
      destruct (weights_conv g x Hc1 ltac:(lia)) as (i & [w0 w1] & E & Hi). cbn [interp]. rewrite E. cbn [bind].
      destruct (IH ds d (acc * n + i) (A * n) Ha Hc ltac:(nia) ltac:(lia)) as [v ->].
      destruct (IH ds d (acc * n + (i + 1)) (A * n) Ha Hc ltac:(nia) ltac:(lia)) as [w ->]. cbn [bind]. eauto.
    - destruct Ha as [Hi Ha]. cbn [entries] in Hl. cbn [converts] in Hc. cbn [interp].
      apply (IH ds d (acc * n + i) (A * n)); auto; [nia|lia].
  Qed.

  Lemma interp_none cs : forall dims d acc A, asks cs dims -> ~ converts cs dims -> 0 <= acc < A ->
    Z.of_nat (length d) = A * entries dims -> interp cs dims d acc = UB.
  Proof.
    induction cs as [|[x|i] cs IH]; intros [|[n og] ds] d acc A Ha Hc Hacc Hl; cbn in Ha; try contradiction.
    - destruct og as [g|]; try contradiction. destruct Ha as [[Hn H2] Ha]. cbn [entries] in Hl. cbn [interp].
      destruct (convertible_dec g x) as [C|C]; [|now rewrite weights_none].
      destruct (weights_conv g x C ltac:(lia)) as (i & [w0 w1] & E & Hi). rewrite E. cbn [bind].
      rewrite (IH ds d (acc * n + i) (A * n) Ha); [reflexivity| |nia|lia].
      intros K. apply Hc. cbn. auto.
    - destruct Ha as [Hi Ha]. cbn [entries] in Hl. cbn [converts] in Hc. cbn [interp].
      apply (IH ds d (acc * n + i) (A * n)); auto; [nia|lia].
  Qed.

  (** reads below the storage *)
  Fixpoint in_place (cs : list (coord T)) (dims : list (Z * option (Grid T))) : Prop :=
    match cs, dims with
    | [], [] => True
    | Along x :: cs, (n, Some g) :: ds => g_N g = n /\ 1 <= n /\ in_place cs ds
    | At i :: cs, (n, _) :: ds => i < n /\ 1 <= n /\ in_place cs ds
    | _, _ => True
    end.
  Lemma bound_upper (g : Grid T) i : 1 <= g_N g -> g_bound g i <= g_N g - 1.
  Proof.
    intros H. unfold g_bound. destruct (g_N g - 1 <=? _) eqn:F; [lia|]. apply Z.leb_gt in F. lia.
  Qed.
  Lemma interp_negative cs : forall dims d acc, in_place cs dims -> acc < 0 -> interp cs dims d acc = UB.
  Proof.
    induction cs as [|[x|i] cs IH]; intros [|[n og] ds] d acc Hi Ha; cbn [interp]; try reflexivity.
    - now apply at_flat_out; left.
    - destruct og as [g|]; [|reflexivity]. destruct Hi as (Hn & H1 & Hi). unfold g_weights, g_index.
      destruct (Otrunc _); cbn [bind]; [|reflexivity].
      rewrite IH; auto. pose proof (bound_upper g z ltac:(lia)). nia.
    - destruct Hi as (Hn & H1 & Hi). apply IH; auto. nia.
  Qed.

  (** a first axis with one node: the cell before the first is read *)
  Lemma interp_single x g cs ds d : g_N g = 1 -> in_place cs ds ->
    interp (Along x :: cs) ((1, Some g) :: ds) d 0 = UB.
  Proof.
    intros H Hi. cbn [interp]. unfold g_weights, g_index. destruct (Otrunc _) as [z|]; cbn [bind]; [|reflexivity].
    assert (B : g_bound g z = -1).
    { unfold g_bound. rewrite H. destruct (z <? 0) eqn:E; [reflexivity|]. apply Z.ltb_ge in E.
      destruct (1 - 1 <=? z) eqn:F; [reflexivity|]. apply Z.leb_gt in F. lia. }
    rewrite B, interp_negative; auto. lia.
  Qed.
  (** the upper corner of the cell of a query is read *)
  Fixpoint corner (cs : list (coord T)) (dims : list (Z * option (Grid T))) (acc : Z) : Z :=
    match cs, dims with
    | Along x :: cs, (n, Some g) :: ds =>
      match Otrunc (Omul (g_idx g) (Osub x (g_min g))) with
      | Some z => corner cs ds (acc * n + (g_bound g z + 1))
      | None => -1
      end
    | At i :: cs, (n, _) :: ds => corner cs ds (acc * n + i)
    | _, _ => acc
    end.
  Lemma interp_corner cs : forall dims d acc v, interp cs dims d acc = Ok v ->
    exists w, at_flat d (corner cs dims acc) = Ok w.
  Proof.
    induction cs as [|[x|i] cs IH]; intros [|[n og] ds] d acc v H; cbn [interp] in H; try discriminate.
    - cbn. eauto.
    - destruct og as [g|]; [|discriminate]. unfold g_weights, g_index in H. cbn [corner].
      destruct (Otrunc _) as [z|]; cbn [bind] in H; [|discriminate].
      destruct (interp cs ds d (acc * n + g_bound g z)); try discriminate.
      destruct (interp cs ds d (acc * n + (g_bound g z + 1))) eqn:E; try discriminate. eapply IH; eauto.
    - cbn [corner]. destruct og; eapply IH; eauto.
  Qed.
  (** a lookup never reports an error *)
  Lemma interp_no_error cs : forall dims d acc, interp cs dims d acc <> Error.
  Proof.
    induction cs as [|[x|i] cs IH]; intros [|[n og] ds] d acc; cbn [interp]; try discriminate.
    - unfold at_flat. destruct (acc <? 0); [discriminate|]. unfold load. now destruct (nth_error _ _).
    - destruct og as [g|]; [|discriminate]. unfold g_weights, g_index. destruct (Otrunc _) as [z|]; cbn [bind]; [|discriminate].
      pose proof (IH ds d (acc * n + g_bound g z)). pose proof (IH ds d (acc * n + (g_bound g z + 1))).
      destruct (interp cs ds d (acc * n + g_bound g z)); cbn [bind]; try congruence.
      destruct (interp cs ds d (acc * n + (g_bound g z + 1))); cbn [bind]; congruence.
    - apply IH.
  Qed.
  (** the two together *)
  Lemma answers_interp cs dims (b : DataBox T) : asks cs dims -> shaped b dims ->
    answers (interpToReal b cs) (converts cs dims).
  Proof.
    intros A [E L]. unfold interpToReal. rewrite E. split; intros C.
    - apply (interp_ok cs dims _ 0 1); auto; lia.
    - apply (interp_none cs dims _ 0 1); auto; lia.
  Qed.
  Lemma answers_bind (r : result T) C (f : T -> T) : answers r C -> answers (v <- r ;; Ok (f v)) C.
  Proof. intros [A B]. split; intros H; [destruct (A H) as [v ->]; cbn [bind]; eauto|now rewrite B]. Qed.
  Lemma answers_iff (r : result T) C C' : (C <-> C') -> answers r C -> answers r C'.
  Proof. unfold answers. tauto. Qed.

  Lemma bound_last (g : Grid T) z : 1 <= g_N g -> g_N g - 1 <= z -> g_bound g z = g_N g - 2.
  Proof.
    intros N H. unfold g_bound. destruct (Z.ltb_spec z 0); [lia|]. destruct (Z.leb_spec (g_N g - 1) z); lia.
  Qed.
End Any.

(** ** Shape of the tables the constructors and loaders make, in any arithmetic *)
Ltac inv H := cbv zeta in H; repeat (match type of H with
  | bind ?r _ = Ok _ => let E := fresh "E" in destruct r eqn:E; cbn [bind] in H; try discriminate H
  | (if ?c then _ else _) = Ok _ => let E := fresh "C" in destruct c eqn:E; try discriminate H
  end).

Section Shapes.
  Context {T : Type} {O : Ops T}.

  Lemma mk_grid_N lo hi N (g : Grid T) : mk_grid lo hi N = Ok g -> g_N g = N /\ 0 < N.
  Proof.
    unfold mk_grid. destruct (_ && _) eqn:E; [|discriminate]. intros H. injection H as <-. cbn.
    apply andb_true_iff in E. destruct E as [_ E]. apply Z.ltb_lt in E. auto.
  Qed.
  Lemma set_flat_len (d d' : list T) i v : set_flat d i v = Ok d' -> length d' = length d.
  Proof. intros H. apply set_flat_ok in H. destruct H as [_ ->]. apply upd_length. Qed.

  Ltac keep2 := cbv zeta; apply for_keeps; [apply same_size_refl|apply same_size_trans|].
  Lemma fill_tables_size pc coef gb (gR gT : Grid T) NR NT n N st st' :
    fill_tables pc coef gb gR gT NR NT n N st = Ok st' -> same_size st st'.
  Proof.
    keep2. intros iT s s' _ H. inv H.
    revert H. keep2. intros iR u u' _ H.
    revert H. keep2. intros g w w' _ H.
    unfold fill_cell in H. inv H. injection H as <-. split; cbn; symmetry; eapply set_flat_len; eauto.
  Qed.

  Lemma nu_store_size c a (st st' : list T * list T) : nu_store c a st = Ok st' -> same_size st st'.
  Proof. unfold nu_store. intros H. inv H. injection H as <-. split; cbn; symmetry; eapply set_flat_len; eauto. Qed.

  Lemma nu_fill_tables_size coef dist ddist inside (gR gT gY : Grid T) NR NT NY lo hi N st st' :
    nu_fill_tables coef dist ddist inside gR gT gY NR NT NY lo hi N st = Ok st' -> same_size st st'.
  Proof.
    keep2. intros iR s s' _. keep2. intros iT u u' _. keep2. intros iY v v' _. keep2. intros idx w w' _ H.
    unfold nu_fill in H. cbv zeta in H. destruct (Idx2RadType _); try discriminate. cbn [bind] in H. destruct inside.
    - destruct (for_int _ _ _) as [e| |] eqn:E; try discriminate. cbn [bind] in H. injection H as <-.
      revert E. apply (for_keeps (fun a b : sums T * (list T * list T) => same_size (snd a) (snd b))).
      + intros; apply same_size_refl.
      + intros ? ? ?; apply same_size_trans.
      + intros k y y' _ H. inv H. injection H as <-. cbn. eapply nu_store_size; eauto.
    - inv H. eapply nu_store_size; eauto.
  Qed.

  Definition same_sizes (a b : sp_data T) : Prop :=
    length (d_alpha b) = length (d_alpha a) /\ length (d_jnu b) = length (d_jnu a) /\
    length (d_J b) = length (d_J a) /\ length (d_JYe b) = length (d_JYe a).
  Lemma same_sizes_refl a : same_sizes a a.
  Proof. repeat split. Qed.
  Lemma same_sizes_trans a b c : same_sizes a b -> same_sizes b c -> same_sizes a c.
  Proof. intros (? & ? & ? & ?) (? & ? & ? & ?). repeat split; congruence. Qed.
  Ltac keeps := cbv zeta; apply for_keeps; [apply same_sizes_refl|apply same_sizes_trans|].
  Ltac lens := repeat split; cbn; try reflexivity; eapply set_flat_len; eauto.

  Lemma sp_fill_size pc o (gR gT gY ge : Grid T) NR NT NY NE d d' :
    sp_fill pc o gR gT gY ge NR NT NY NE d = Ok d' -> same_sizes d d'.
  Proof.
    unfold sp_fill. keeps. intros iR s s' _. keeps. intros iT a a' _. keeps. intros iY b b' _. keeps. intros idx c c' _ H.
    unfold sp_fill_species in H. inv H. apply same_sizes_trans with {| d_alpha := d_alpha c; d_jnu := d_jnu c; d_J := a2; d_JYe := a4 |}; [lens|].
    revert H. keeps. intros ie e e' _ H. unfold sp_fill_energy in H. inv H. injection H as <-. lens.
  Qed.

  Lemma nl_fill_size pc kappa j NR NT NY NS NE (d d' : sp_data T) :
    nl_fill pc kappa j NR NT NY NS NE d = Ok d' -> same_sizes d d'.
  Proof.
    unfold nl_fill. keeps. intros iR s s' _. keeps. intros iT a a' _. keeps. intros iY b b' _. keeps. intros idx c c' _.
    keeps. intros ie e e' _ H. unfold nl_fill_cell in H. inv H. injection H as <-. lens.
  Qed.

  Lemma integrals_size pc (gR gT gY ge : Grid T) NS (d d' : sp_data T) :
    ComputeIntegrals pc gR gT gY ge NS d = Ok d' -> same_sizes d d'.
  Proof.
    unfold ComputeIntegrals. keeps. intros iR s s' _. keeps. intros iT a a' _. keeps. intros iY b b' _. keeps. intros idx c c' _ H.
    unfold sp_integral_cell in H. inv H. injection H as <-. lens.
  Qed.
End Shapes.

(** ** What the boxes of the objects look like *)
Section Built.
  Context {T : Type} {O : Ops T}.

  Lemma MeanImpl_shape pc dbg opc coef lR hR NR lT hT NT gb n N (m : MeanTable T) :
    MeanImpl pc dbg opc coef lR hR NR lT hT NT gb n N = Ok m ->
    exists gR gT, mk_grid lR hR NR = Ok gR /\ mk_grid lT hT NT = Ok gT /\
      (forall b, b = mt_lPlanck m \/ b = mt_lRosseland m -> shaped b [(NR, Some gR); (NT, Some gT); (n, None)]) /\
      1 <= NR /\ 1 <= NT /\ 1 <= n.
  Proof.
    unfold MeanImpl. intros H. inv H. injection H as <-.
    assert (Hn : 0 < n).
    { unfold ValidateGroupBounds in E. destruct (n <=? 0) eqn:K; [discriminate|]. apply Z.leb_gt in K. lia. }
    destruct (mk_grid_N _ _ _ _ E1) as [NT1 NT2]. destruct (mk_grid_N _ _ _ _ E2) as [NR1 NR2].
    pose proof (fill_tables_size _ _ _ _ _ _ _ _ _ _ _ E3) as [S1 S2]. cbn [fst snd] in S1, S2. rewrite repeat_length in S1, S2.
    exists a2, a1. repeat (split; [first [assumption|reflexivity]|]). split; [|lia].
    intros b [-> | ->]; (split; [reflexivity|cbn; nia]).
  Qed.

  Lemma nu_impl_shape pc coef dist ddist inside lR hR NR lT hT NT lY hY NY range N (m : NuMeanTable T) :
    nu_impl pc coef dist ddist inside lR hR NR lT hT NT lY hY NY range N = Ok m ->
    exists gR gT gY, mk_grid lR hR NR = Ok gR /\ mk_grid lT hT NT = Ok gT /\ mk_grid lY hY NY = Ok gY /\
      (forall b, b = nm_lPlanck m \/ b = nm_lRosseland m ->
        shaped b [(NR, Some gR); (NT, Some gT); (NY, Some gY); (NEUTRINO_NTYPES, None)]) /\
      1 <= NR /\ 1 <= NT /\ 1 <= NY.
  Proof.
    unfold nu_impl. intros H. inv H. injection H as <-.
    destruct (mk_grid_N _ _ _ _ E) as [NY1 NY2]. destruct (mk_grid_N _ _ _ _ E0) as [NT1 NT2]. destruct (mk_grid_N _ _ _ _ E1) as [NR1 NR2].
    pose proof (nu_fill_tables_size _ _ _ _ _ _ _ _ _ _ _ _ _ _ _ E2) as [S1 S2]. cbn [fst snd] in S1, S2. rewrite repeat_length in S1, S2.
    exists a1, a0, a. repeat (split; [first [assumption|reflexivity]|]). split; [|lia].
    assert (0 <= NR * NT * NY * NEUTRINO_NTYPES) by (unfold NEUTRINO_NTYPES; nia).
    intros b [-> | ->]; (split; [reflexivity|cbn [nm_lPlanck nm_lRosseland db_data entries]; unfold NEUTRINO_NTYPES in *; lia]).
  Qed.

  Definition dims4 NR NT NY NS (gR gT gY : Grid T) : list (Z * option (Grid T)) :=
    [(NR, Some gR); (NT, Some gT); (NY, Some gY); (NS, None)].
  Definition dims5 NR NT NY NS NE (gR gT gY ge : Grid T) : list (Z * option (Grid T)) :=
    [(NR, Some gR); (NT, Some gT); (NY, Some gY); (NS, None); (NE, Some ge)].
  Definition sp_shaped (t : SpinerTables T) NR NT NY NS NE (gR gT gY ge : Grid T) : Prop :=
    (forall b, b = sp_alpha t \/ b = sp_jnu t -> shaped b (dims5 NR NT NY NS NE gR gT gY ge)) /\
    (forall b, b = sp_J t \/ b = sp_JYe t -> shaped b (dims4 NR NT NY NS gR gT gY)).

  Lemma boxes_shaped NR NT NY NS NE gR gT gY ge (d : sp_data T) : 1 <= NR -> 1 <= NT -> 1 <= NY -> 0 <= NS -> 1 <= NE ->
    same_sizes (sp_zeros NR NT NY NS NE) d -> sp_shaped (sp_boxes NR NT NY NS NE gR gT gY ge d) NR NT NY NS NE gR gT gY ge.
  Proof.
    intros H1 H2 H3 H4 H5 (S1 & S2 & S3 & S4). cbn in S1, S2, S3, S4. rewrite repeat_length in S1, S2, S3, S4.
    assert (0 <= NR * NT * NY) by nia. assert (0 <= NR * NT * NY * NS) by nia. assert (0 <= NR * NT * NY * NS * NE) by nia.
    split; intros b [-> | ->]; (split; [reflexivity|cbn [sp_boxes sp_alpha sp_jnu sp_J sp_JYe db_data entries dims4 dims5]; lia]).
  Qed.

  Lemma tabulate_shape pc o lR hR NR lT hT NT lY hY NY le he NE (t : SpinerTables T) :
    sp_tabulate pc o lR hR NR lT hT NT lY hY NY le he NE = Ok t ->
    exists gR gT gY ge, mk_grid lR hR NR = Ok gR /\
      mk_grid (Oadd lT (Olog10 sp_K2MeV)) (Oadd hT (Olog10 sp_K2MeV)) NT = Ok gT /\
      mk_grid lY hY NY = Ok gY /\ mk_grid le he NE = Ok ge /\
      sp_shaped t NR NT NY NEUTRINO_NTYPES NE gR gT gY ge /\ 1 <= NR /\ 1 <= NT /\ 1 <= NY /\ 1 <= NE.
  Proof.
    unfold sp_tabulate. intros H. inv H. injection H as <-.
    destruct (mk_grid_N _ _ _ _ E) as [_ NE2]. destruct (mk_grid_N _ _ _ _ E0) as [_ NY2].
    destruct (mk_grid_N _ _ _ _ E1) as [_ NT2]. destruct (mk_grid_N _ _ _ _ E2) as [_ NR2].
    exists a2, a1, a0, a. repeat (split; [first [assumption|reflexivity]|]). split; [|lia].
    apply boxes_shaped; try lia; [unfold NEUTRINO_NTYPES; lia|]. eapply sp_fill_size; eauto.
  Qed.

  Lemma nulib_shape pc fresh f (t : SpinerTables T) : LoadFromNuLib pc fresh (Some f) = Ok t ->
    exists NR NT NY NS NE lR hR lT hT lY hY le he gR gT gY ge,
      nl_nrho f = Some NR /\ nl_ntemp f = Some NT /\ nl_nye f = Some NY /\ nl_number_species f = Some NS /\
      nl_number_groups f = Some NE /\
      ReadBounds (nl_rho_points f) NR = Ok (lR, hR) /\ ReadBounds (nl_temp_points f) NT = Ok (lT, hT) /\
      ReadBounds (nl_ye_points f) NY = Ok (lY, hY) /\ ReadBounds (nl_neutrino_energies f) NE = Ok (le, he) /\
      mk_grid (Olog10 lR) (Olog10 hR) NR = Ok gR /\ mk_grid (Olog10 lT) (Olog10 hT) NT = Ok gT /\
      mk_grid lY hY NY = Ok gY /\ mk_grid (Olog10 le) (Olog10 he) NE = Ok ge /\
      (0 <= NS -> sp_shaped t NR NT NY NS NE gR gT gY ge) /\ 1 <= NR /\ 1 <= NT /\ 1 <= NY /\ 1 <= NE.
  Proof.
    unfold LoadFromNuLib. intros H.
    destruct (nl_nrho f) as [NR|]; [cbn [ReadInt bind] in H|discriminate].
    destruct (nl_ntemp f) as [NT|]; [cbn [ReadInt bind] in H|discriminate].
    destruct (nl_nye f) as [NY|]; [cbn [ReadInt bind] in H|discriminate].
    destruct (nl_number_groups f) as [NE|]; [cbn [ReadInt bind] in H|discriminate].
    destruct (nl_number_species f) as [NS|]; [cbn [ReadInt bind] in H|discriminate].
    destruct (ReadBounds (nl_rho_points f) NR) as [[lR hR]| |] eqn:B1; try discriminate H. cbn [bind fst snd] in H.
    destruct (ReadBounds (nl_temp_points f) NT) as [[lT hT]| |] eqn:B2; try discriminate H. cbn [bind fst snd] in H.
    destruct (ReadBounds (nl_neutrino_energies f) NE) as [[le he]| |] eqn:B3; try discriminate H. cbn [bind fst snd] in H.
    destruct (ReadBounds (nl_ye_points f) NY) as [[lY hY]| |] eqn:B4; try discriminate H. cbn [bind fst snd] in H.
    inv H. injection H as <-.
    destruct (mk_grid_N _ _ _ _ E1) as [_ NE2]. destruct (mk_grid_N _ _ _ _ E2) as [_ NY2].
    destruct (mk_grid_N _ _ _ _ E3) as [_ NT2]. destruct (mk_grid_N _ _ _ _ E4) as [_ NR2].
    exists NR, NT, NY, NS, NE, lR, hR, lT, hT, lY, hY, le, he, a4, a3, a2, a1.
    repeat (split; [first [assumption|reflexivity]|]). split; [|lia].
    intros HS. apply boxes_shaped; try lia. eapply same_sizes_trans; [eapply nl_fill_size|eapply integrals_size]; eauto.
  Qed.
End Built.

Section Loaded.
  Context {T : Type} {O : Ops T}.

  Lemma map_tables_len (f : T -> T) n p r d : map_tables f n p r = Ok d ->
    length (fst d) = Z.to_nat n /\ length (snd d) = Z.to_nat n.
  Proof.
    unfold map_tables, for_int, for_loop.
    assert (G : forall k a0 b, for_from k 0 (fun i acc => a <- at_flat p (Z.of_nat i) ;; b <- at_flat r (Z.of_nat i) ;;
        Ok (fst acc ++ [f a], snd acc ++ [f b])) a0 = Ok b ->
      length (fst b) = (length (fst a0) + k)%nat /\ length (snd b) = (length (snd a0) + k)%nat).
    { induction k as [|k IH]; intros a0 b H.
      - cbn in H. injection H as <-. lia.
      - rewrite for_from_S_last, Nat.add_0_l in H. inv H. injection H as <-. apply IH in E. cbn. rewrite !app_length. cbn. lia. }
    intros H. apply G in H. cbn in H. lia.
  Qed.

  Lemma load_shape p r gb (m : MeanTable T) n NT NR x gT gR y gT' gR' : LoadTables p r gb = Ok m ->
    db_dims p = [n; NT; NR] -> db_ranges p = [x; Some gT; Some gR] -> db_ranges r = [y; Some gT'; Some gR'] ->
    db_size p = n * NT * NR ->
    shaped (mt_lPlanck m) [(NR, Some gR); (NT, Some gT); (n, x)] /\
    shaped (mt_lRosseland m) [(NR, Some gR'); (NT, Some gT'); (n, y)].
  Proof.
    unfold LoadTables. intros H Dp Rp Rr Sz. inv H. injection H as <-. destruct (map_tables_len _ _ _ _ _ E2) as [L1 L2].
    assert (Dr : db_dims r = [n; NT; NR]).
    { unfold validate_tables in E. destruct (negb (db_rank p =? 3) || negb (db_rank r =? 3)) eqn:K; [discriminate|].
      apply orb_false_iff in K. destruct K as [_ K]. apply negb_false_iff, Z.eqb_eq in K.
      unfold db_rank in K. unfold db_dim in E. rewrite Dp in E.
      destruct (db_dims r) as [|u [|v [|w [|]]]]; cbn [length] in K; try lia. cbn [nth Nat.sub] in E.
      destruct (n =? u) eqn:K1; cbn in E; [|discriminate]. destruct (NT =? v) eqn:K2; cbn in E; [|discriminate].
      destruct (NR =? w) eqn:K3; cbn in E; [|discriminate]. apply Z.eqb_eq in K1, K2, K3. now subst. }
    unfold shaped. cbn [mt_lPlanck mt_lRosseland with_data db_dims db_ranges db_data]. rewrite Dp, Dr, Rp, Rr. cbn [combine rev app entries].
    unfold db_size in *. repeat split; nia.
  Qed.
End Loaded.

(** A photon mean table as constructed, over at least two densities and two temperatures: a
    lookup of an existing group gives a value exactly if the distances of density and
    temperature from the first nodes, counted in cells, are ints; otherwise the conversion to
    int is undefined, and there is no other outcome. In any arithmetic. *)
Lemma C52_photon_proof :
  forall (T : Type) (O : Ops T) (pc : PhysConst T) (dbg : bool) (opc : RuntimePC T) (coef : T -> T -> T -> result T)
    (lR hR : T) (NR : Z) (lT hT : T) (NT : Z) (gb : list T) (n N : Z) (m : MeanTable T),
  MeanImpl pc dbg opc coef lR hR NR lT hT NT gb n N = Ok m -> 2 <= NR -> 2 <= NT ->
  exists gR gT, mk_grid lR hR NR = Ok gR /\ mk_grid lT hT NT = Ok gT /\
  forall rho temp group gmode, 0 <= group < n ->
  answers (mt_Coefficient m rho temp group gmode) (convertible gR (ToLog rho) /\ convertible gT (ToLog temp)).
Proof.
  intros T O pc dbg opc coef lR hR NR lT hT NT gb n N m H H1 H2.
  destruct (MeanImpl_shape _ _ _ _ _ _ _ _ _ _ _ _ _ _ H) as (gR & gT & ER & ET & S & _).
  exists gR, gT. split; [exact ER|]. split; [exact ET|]. intros rho temp group gmode Hg.
  destruct (mk_grid_N _ _ _ _ ER) as [NR1 _]. destruct (mk_grid_N _ _ _ _ ET) as [NT1 _].
  assert (G : forall b, b = mt_lPlanck m \/ b = mt_lRosseland m ->
    answers (group_coefficient b rho temp group) (convertible gR (ToLog rho) /\ convertible gT (ToLog temp))).
  { intros b Hb. unfold group_coefficient. cbv zeta. apply answers_bind.
    eapply answers_iff; [|eapply answers_interp; [|exact (S b Hb)]; cbn [asks dims4 dims5]; unfold proper_axis; auto 10]. cbn. tauto. }
  unfold mt_Coefficient. destruct (gmode =? Planck); apply G; auto.
Qed.

(** The same of tables from a file or from the caller, if the sizes of their grids are those
    of the dimensions; with the grids of the table asked. *)
Lemma C52_loaded_proof :
  forall (T : Type) (O : Ops T) (p r : DataBox T) (gb : list T) (m : MeanTable T) (n NT NR : Z) x gT gR y gT' gR',
  LoadTables p r gb = Ok m ->
  db_dims p = [n; NT; NR] -> db_ranges p = [x; Some gT; Some gR] -> db_ranges r = [y; Some gT'; Some gR'] ->
  db_size p = n * NT * NR -> proper_axis NR gR -> proper_axis NT gT -> proper_axis NR gR' -> proper_axis NT gT' ->
  forall rho temp group, 0 <= group < n ->
  answers (mt_PlanckGroup m rho temp group) (convertible gR (ToLog rho) /\ convertible gT (ToLog temp)) /\
  answers (mt_RosselandGroup m rho temp group) (convertible gR' (ToLog rho) /\ convertible gT' (ToLog temp)).
Proof.
  intros T O p r gb m n NT NR x gT gR y gT' gR' H Dp Rp Rr Sz P1 P2 P3 P4 rho temp group Hg.
  destruct (load_shape _ _ _ _ _ _ _ _ _ _ _ _ _ H Dp Rp Rr Sz) as [S1 S2].
  split; unfold mt_PlanckGroup, mt_RosselandGroup, group_coefficient; cbv zeta; apply answers_bind.
  - eapply answers_iff; [|eapply answers_interp; [|exact S1]; cbn [asks dims4 dims5]; auto 10]. cbn. tauto.
  - eapply answers_iff; [|eapply answers_interp; [|exact S2]; cbn [asks dims4 dims5]; auto 10]. cbn. tauto.
Qed.

(** Neutrino mean tables, absorption and scattering: one of the three neutrino species. *)
Lemma C52_neutrino_proof :
  forall (T : Type) (O : Ops T) (pc : PhysConst T) (coef : T -> T -> T -> RadiationType -> T -> result T)
    (dist ddist : T -> RadiationType -> T -> result T) (dbg : bool) (opc : RuntimePC T)
    (lR hR : T) (NR : Z) (lT hT : T) (NT : Z) (lY hY : T) (NY : Z) (range : option (T * T * Z)) (m : NuMeanTable T),
  NuMeanOpacity pc coef dist ddist dbg opc lR hR NR lT hT NT lY hY NY range = Ok m \/
  NuMeanSOpacity pc coef dist ddist lR hR NR lT hT NT lY hY NY range = Ok m ->
  2 <= NR -> 2 <= NT -> 2 <= NY ->
  exists gR gT gY, mk_grid lR hR NR = Ok gR /\ mk_grid lT hT NT = Ok gT /\ mk_grid lY hY NY = Ok gY /\
  forall rho temp Ye type, neutrino_species type ->
  let C := convertible gR (ToLog rho) /\ convertible gT (ToLog temp) /\ convertible gY Ye in
  answers (nm_Planck m rho temp Ye type) C /\ answers (nm_Rosseland m rho temp Ye type) C.
Proof.
  intros T O pc coef dist ddist dbg opc lR hR NR lT hT NT lY hY NY range m H H1 H2 H3.
  assert (I : exists inside r N, nu_impl pc coef dist ddist inside lR hR NR lT hT NT lY hY NY r N = Ok m).
  { destruct H as [H|H]; [unfold NuMeanOpacity in H; destruct (dbg && _); [discriminate|]|unfold NuMeanSOpacity in H];
      destruct range as [[? ?]|]; eauto. }
  destruct I as (inside & r & N & E). clear H.
  destruct (nu_impl_shape _ _ _ _ _ _ _ _ _ _ _ _ _ _ _ _ _ E) as (gR & gT & gY & ER & ET & EY & S & _).
  exists gR, gT, gY. repeat (split; [assumption|]). intros rho temp Ye type Hs C.
  destruct (mk_grid_N _ _ _ _ ER) as [NR1 _]. destruct (mk_grid_N _ _ _ _ ET) as [NT1 _]. destruct (mk_grid_N _ _ _ _ EY) as [NY1 _].
  assert (Hi : 0 <= RadType2Idx type < NEUTRINO_NTYPES) by (destruct Hs as [-> |[-> | ->]]; unfold NEUTRINO_NTYPES; cbn; lia).
  assert (G : forall b, b = nm_lPlanck m \/ b = nm_lRosseland m -> answers (nm_lookup b rho temp Ye type) C).
  { intros b Hb. unfold nm_lookup. cbv zeta. apply answers_bind.
    eapply answers_iff; [|eapply answers_interp; [|exact (S b Hb)]; cbn [asks dims4 dims5]; unfold proper_axis; auto 12].
    unfold C. cbn -[RadType2Idx]. tauto. }
  split; apply G; auto.
Qed.

Section SpinerLookups.
  Context {T : Type} {O : Ops T} (pc : PhysConst T) (n : Z).

  Lemma shaped_answers t NR NT NY NS NE (gR gT gY ge : Grid T) : sp_shaped t NR NT NY NS NE gR gT gY ge ->
    proper_axis NR gR -> proper_axis NT gT -> proper_axis NY gY -> proper_axis NE ge ->
    forall rho temp Ye type, 0 <= RadType2Idx type < NS -> all_answer pc n t gR gT gY ge rho temp Ye type.
  Proof.
    intros [S5 S4] P1 P2 P3 P4 rho temp Ye type Hs.
    assert (G4 : forall b, b = sp_J t \/ b = sp_JYe t -> answers (sp_lookup4 b rho temp Ye type) (reach4 gR gT gY rho temp Ye)).
    { intros b Hb. unfold sp_lookup4. cbv zeta. apply answers_bind.
      eapply answers_iff; [|eapply answers_interp; [|exact (S4 b Hb)]; cbn [asks dims4 dims5]; auto 12].
      unfold reach4. cbn -[RadType2Idx]. tauto. }
    assert (G5 : forall b nu, b = sp_alpha t \/ b = sp_jnu t -> answers (sp_lookup5 pc b rho temp Ye type nu)
      (reach4 gR gT gY rho temp Ye /\ convertible ge (sp_toLog (Omul (sp_Hz2MeV pc) nu)))).
    { intros b nu Hb. unfold sp_lookup5. cbv zeta. apply answers_bind.
      eapply answers_iff; [|eapply answers_interp; [|exact (S5 b Hb)]; cbn [asks dims4 dims5]; auto 14].
      unfold reach4. cbn -[RadType2Idx]. tauto. }
    split; [apply G4; auto|]. split; [apply G4; auto|]. intros nu C. split; [apply G5; auto|]. split; [apply G5; auto|].
    change (nu_EmissivityPerNu (SpinerOpacity n pc t) rho temp Ye type nu) with
      (j <- sp_lookup5 pc (sp_jnu t) rho temp Ye type nu ;; Ok (#4 * Opi * j)%o).
    apply answers_bind. apply G5; auto.
  Qed.
End SpinerLookups.

(** Tabulated neutrino opacities: all five lookups, for the three species. *)
Lemma C52_tabulated_proof :
  forall (T : Type) (O : Ops T) (pc : PhysConst T) (k : Z) (o : NuOpac T) (lR hR : T) (NR : Z) (lT hT : T) (NT : Z)
    (lY hY : T) (NY : Z) (le he : T) (NE : Z) (t : SpinerTables T),
  sp_tabulate pc o lR hR NR lT hT NT lY hY NY le he NE = Ok t -> 2 <= NR -> 2 <= NT -> 2 <= NY -> 2 <= NE ->
  exists gR gT gY ge, mk_grid lR hR NR = Ok gR /\
  mk_grid (Oadd lT (Olog10 sp_K2MeV)) (Oadd hT (Olog10 sp_K2MeV)) NT = Ok gT /\ mk_grid lY hY NY = Ok gY /\ mk_grid le he NE = Ok ge /\
  forall rho temp Ye type, neutrino_species type -> all_answer pc k t gR gT gY ge rho temp Ye type.
Proof.
  intros T O pc k o lR hR NR lT hT NT lY hY NY le he NE t H H1 H2 H3 H4.
  destruct (tabulate_shape _ _ _ _ _ _ _ _ _ _ _ _ _ _ _ H) as (gR & gT & gY & ge & ER & ET & EY & EE & S & _).
  exists gR, gT, gY, ge. repeat (split; [assumption|]). intros rho temp Ye type Hs.
  destruct (mk_grid_N _ _ _ _ ER) as [? _]. destruct (mk_grid_N _ _ _ _ ET) as [? _].
  destruct (mk_grid_N _ _ _ _ EY) as [? _]. destruct (mk_grid_N _ _ _ _ EE) as [? _].
  apply (shaped_answers _ _ _ _ _ _ _ _ _ _ _ _ S); try (split; assumption).
  destruct Hs as [-> |[-> | ->]]; unfold NEUTRINO_NTYPES; cbn; lia.
Qed.

(** Opacities from NuLib files: the same for the species the file has. *)
Lemma C52_nulib_proof :
  forall (T : Type) (O : Ops T) (pc : PhysConst T) (k : Z) (fresh : nat -> T) (f : NuLibFile T) (t : SpinerTables T) (NR NT NY NS NE : Z),
  LoadFromNuLib pc fresh (Some f) = Ok t ->
  nl_nrho f = Some NR -> nl_ntemp f = Some NT -> nl_nye f = Some NY -> nl_number_species f = Some NS -> nl_number_groups f = Some NE ->
  2 <= NR -> 2 <= NT -> 2 <= NY -> 2 <= NE ->
  exists lR hR lT hT lY hY le he gR gT gY ge,
  ReadBounds (nl_rho_points f) NR = Ok (lR, hR) /\ ReadBounds (nl_temp_points f) NT = Ok (lT, hT) /\
  ReadBounds (nl_ye_points f) NY = Ok (lY, hY) /\ ReadBounds (nl_neutrino_energies f) NE = Ok (le, he) /\
  mk_grid (Olog10 lR) (Olog10 hR) NR = Ok gR /\ mk_grid (Olog10 lT) (Olog10 hT) NT = Ok gT /\
  mk_grid lY hY NY = Ok gY /\ mk_grid (Olog10 le) (Olog10 he) NE = Ok ge /\
  forall rho temp Ye type, 0 <= RadType2Idx type < NS -> all_answer pc k t gR gT gY ge rho temp Ye type.
Proof.
  intros T O pc k fresh f t NR NT NY NS NE H F1 F2 F3 F4 F5 H1 H2 H3 H4.
  destruct (nulib_shape _ _ _ _ H) as (NR' & NT' & NY' & NS' & NE' & lR & hR & lT & hT & lY & hY & le & he & gR & gT & gY & ge &
    G1 & G2 & G3 & G4 & G5 & B1 & B2 & B3 & B4 & ER & ET & EY & EE & S & _).
  rewrite F1 in G1. rewrite F2 in G2. rewrite F3 in G3. rewrite F4 in G4. rewrite F5 in G5.
  injection G1 as <-. injection G2 as <-. injection G3 as <-. injection G4 as <-. injection G5 as <-.
  exists lR, hR, lT, hT, lY, hY, le, he, gR, gT, gY, ge. repeat (split; [assumption|]). intros rho temp Ye type Hs.
  destruct (mk_grid_N _ _ _ _ ER) as [? _]. destruct (mk_grid_N _ _ _ _ ET) as [? _].
  destruct (mk_grid_N _ _ _ _ EY) as [? _]. destruct (mk_grid_N _ _ _ _ EE) as [? _].
  apply (shaped_answers _ _ _ _ _ _ _ _ _ _ _ _ (S ltac:(lia))); try (split; assumption). exact Hs.
Qed.

(** *** Exact arithmetic *)
Lemma trunc_outside r : ~ (-2147483649 < r < 2147483648)%R -> er_trunc (Fin r) = None.
Proof.
  intros H. unfold er_trunc. cbv zeta. replace (int_fits (Ztrunc_R r)) with false; [reflexivity|].
  symmetry. unfold int_fits. change (2 ^ 31)%Z with 2147483648%Z. apply andb_false_iff.
  destruct (Rlt_dec r 0) as [N|N].
  - destruct (Ztrunc_neg r N) as [A B]. left. apply Z.leb_gt.
    assert (IZR (Ztrunc_R r) < IZR (-2147483648))%R by (apply (Rlt_le_trans _ (r + 1)); lra). now apply lt_IZR in H0.
  - destruct (Ztrunc_nonneg r ltac:(lra)) as [A B]. right. apply Z.ltb_ge.
    assert (IZR 2147483647 < IZR (Ztrunc_R r))%R by lra. apply lt_IZR in H0. lia.
Qed.

Lemma convertible_fits g x : rg_ok g -> (convertible (grid_of g) (Fin x) <-> rg_fits g x).
Proof.
  intros G. pose proof (dx_pos g G) as D. unfold convertible.
  assert (U : (g_idx (grid_of g) * (Fin x - g_min (grid_of g)))%o = Fin (rg_u g x)).
  { unfold grid_of, rg_u. cbn [g_idx g_min]. rewrite fin_sub, fin_mul. f_equal. field. lra. }
  rewrite U. change (@Otrunc ER ER_ops) with er_trunc. split; intros H.
  - destruct (Rlt_dec (-2147483649) (rg_u g x)); destruct (Rlt_dec (rg_u g x) 2147483648);
      try (exfalso; apply H; apply trunc_outside; lra). split; assumption.
  - rewrite trunc_fits by exact H. discriminate.
Qed.
Lemma convertible_special g x : rg_ok g -> (forall r, x <> Fin r) -> ~ convertible (grid_of g) x.
Proof.
  intros G N. pose proof (dx_pos g G) as D. unfold convertible.
  assert (P : (0 < 1 / rg_dx g)%R) by (apply Rdiv_lt_0_compat; lra).
  intros H. apply H. clear H. destruct x as [r| | |]; [now specialize (N r)| | |];
    unfold grid_of; cbn [g_idx g_min]; change (@Otrunc ER ER_ops) with er_trunc;
    change (@Omul ER ER_ops) with er_mul; change (@Osub ER ER_ops) with er_sub; cbn; unfold inf_of_sign; try reflexivity;
    repeat (destruct (Rlt_dec _ _); try reflexivity).
Qed.

(** In exact arithmetic, grids of at least two nodes: a lookup at a density and temperature
    gives a value exactly if both are less than 2^31 cells from the first node; and at a
    density or temperature that is infinite or not a number the behaviour is undefined. *)
Lemma C52_photon_exact_proof :
  forall (pc : PhysConst ER) (dbg : bool) (opc : RuntimePC ER) (coef : ER -> ER -> ER -> result ER) (gR gT : rgrid)
    (gb : list ER) (n N : Z) (m : MeanTable ER) (group gmode : Z),
  rg_ok gR -> rg_ok gT ->
  MeanImpl pc dbg opc coef (Fin (rg_lo gR)) (Fin (rg_hi gR)) (rg_n gR) (Fin (rg_lo gT)) (Fin (rg_hi gT)) (rg_n gT) gb n N = Ok m ->
  0 <= group < n ->
  (forall rho temp, (0 <= rho)%R -> (0 <= temp)%R ->
   answers (mt_Coefficient m (Fin rho) (Fin temp) group gmode) (rg_fits gR (log10 (rho + tiny)) /\ rg_fits gT (log10 (temp + tiny)))) /\
  (forall rho temp, (forall r, rho <> Fin r) \/ (forall r, temp <> Fin r) -> mt_Coefficient m rho temp group gmode = UB).
Proof.
  intros pc dbg opc coef gR gT gb n N m group gmode GR GT H Hg.
  destruct (C52_photon_proof _ _ _ _ _ _ _ _ _ _ _ _ _ _ _ _ H ltac:(apply GR) ltac:(apply GT)) as (hR & hT & ER & ET & A).
  rewrite mk_grid_of in ER by assumption. rewrite mk_grid_of in ET by assumption. injection ER as <-. injection ET as <-. split.
  - intros rho temp Pr Pt. eapply answers_iff; [|apply (A _ _ group gmode Hg)]. rewrite !ToLog_pos by assumption.
    rewrite !convertible_fits by assumption. tauto.
  - intros rho temp Sp. apply (A _ _ group gmode Hg). intros [C1 C2].
    assert (L : forall x : ER, (forall r, x <> Fin r) -> forall r, ToLog x <> Fin r).
    { intros [r| | |] K r'; [now specialize (K r)|discriminate..]. }
    destruct Sp as [Sp|Sp]; [revert C1|revert C2]; apply convertible_special; auto.
Qed.

(** The condition is met by every density and temperature from 0 to the largest double on
    grids starting between 10^-400 and 10^400 with cells of 10^-6 decades or more. *)
Lemma C52_ordinary_proof :
  forall (g : rgrid) (x : R), rg_ok g -> (0 <= x <= 10 ^ 309)%R -> (-400 <= rg_lo g <= 400)%R -> (/ 10 ^ 6 <= rg_dx g)%R ->
  rg_fits g (log10 (x + tiny)).
Proof.
  intros g x G [X0 X1] [L0 L1] D. pose proof tiny_pos as Tp. pose proof tiny_lt_1 as Tl.
  assert (LL : (-309 <= log10 (x + tiny) <= 310)%R).
  { assert (Lp : (0 < ln 10)%R) by (rewrite <- ln_1; apply ln_increasing; lra).
    assert (Lr : forall n, log10 (10 ^ n) = INR n).
    { intros n. unfold log10. rewrite <- Rpower_pow by lra. unfold Rpower. rewrite ln_exp. field. lra. }
    assert (Mono : forall a b, (0 < a <= b)%R -> (log10 a <= log10 b)%R).
    { intros a b [Ha Hb]. unfold log10, Rdiv. apply Rmult_le_compat_r; [left; now apply Rinv_0_lt_compat|].
      destruct Hb as [Hb| ->]; [left; now apply ln_increasing|lra]. }
    split.
    - apply (Rle_trans _ (log10 (/ 10 ^ 309))).
      + unfold log10. rewrite ln_Rinv by (apply pow_lt; lra).
        replace (- ln (10 ^ 309) / ln 10)%R with (- log10 (10 ^ 309))%R by (unfold log10; field; lra). rewrite Lr.
        rewrite INR_IZR_INZ. apply Req_le. reflexivity.
      + apply Mono. split; [apply Rinv_0_lt_compat, pow_lt; lra|]. apply (Rle_trans _ tiny); [|lra].
        unfold tiny, R_num_min. change (powerRZ 2 (-1022)) with (/ 2 ^ Pos.to_nat 1022)%R.
        assert (B : (2 ^ Pos.to_nat 1022 <= 10 * 10 ^ 309)%R).
        { change (2 ^ Pos.to_nat 1022)%R with (IZR 2 ^ Pos.to_nat 1022)%R. change (10 ^ 309)%R with (IZR 10 ^ 309)%R.
          rewrite !pow_IZR, <- mult_IZR. apply IZR_le. rewrite positive_nat_Z. vm_compute. discriminate. }
        assert (P2 : (0 < 2 ^ Pos.to_nat 1022)%R) by (apply pow_lt; lra). assert (P10 : (0 < 10 ^ 309)%R) by (apply pow_lt; lra).
        apply (Rmult_le_reg_r (10 ^ 309 * 2 ^ Pos.to_nat 1022)); [now apply Rmult_lt_0_compat|].
        replace (/ 10 ^ 309 * (10 ^ 309 * 2 ^ Pos.to_nat 1022))%R with (2 ^ Pos.to_nat 1022)%R by (field; lra).
        replace (10 * / 2 ^ Pos.to_nat 1022 * (10 ^ 309 * 2 ^ Pos.to_nat 1022))%R with (10 * 10 ^ 309)%R by (field; lra). exact B.
    - apply (Rle_trans _ (log10 (10 ^ 310))).
      + apply Mono. split; [lra|]. change (10 ^ 310)%R with (10 * 10 ^ 309)%R.
        assert (1 <= 10 ^ 309)%R by (apply pow_R1_Rle; lra). lra.
      + rewrite Lr, INR_IZR_INZ. apply Req_le. reflexivity. }
  unfold rg_fits. assert (Dp : (0 < rg_dx g)%R) by now apply dx_pos.
  assert (I : (0 < / rg_dx g <= 10 ^ 6)%R).
  { split; [now apply Rinv_0_lt_compat|]. rewrite <- (Rinv_inv (10 ^ 6)). apply Rinv_le_contravar; [apply Rinv_0_lt_compat, pow_lt; lra|exact D]. }
  unfold Rdiv. change (10 ^ 6)%R with (10 * (10 * (10 * (10 * (10 * (10 * 1))))))%R in I. nra.
Qed.

(** *** One node along an axis *)

(** The full statement, a value for every finite state, is false of the code. A table with a
    single density is accepted from the caller or a file and made by the tabulating
    constructor, and every lookup in it reads before the start of the storage. In any
    arithmetic. *)
Lemma C52_single_density_proof :
  forall (T : Type) (O : Ops T),
  (forall (p r : DataBox T) gb m n NT x gT gR y gT' gR', LoadTables p r gb = Ok m ->
   db_dims p = [n; NT; 1] -> db_ranges p = [x; Some gT; Some gR] -> db_ranges r = [y; Some gT'; Some gR'] ->
   g_N gR = 1 -> g_N gR' = 1 -> g_N gT = NT -> g_N gT' = NT -> 1 <= n -> 1 <= NT -> db_size p = n * NT ->
   forall rho temp group gmode, group < n -> mt_Coefficient m rho temp group gmode = UB) /\
  (forall pc k o (lR hR lT hT lY hY le he : T) NT NY NE t, sp_tabulate pc o lR hR 1 lT hT NT lY hY NY le he NE = Ok t ->
   forall rho temp Ye type nu, neutrino_species type ->
   nu_Absorption (SpinerOpacity k pc t) rho temp Ye type nu = UB /\ nu_EmissivityPerNuOmega (SpinerOpacity k pc t) rho temp Ye type nu = UB /\
   nu_Emissivity (SpinerOpacity k pc t) rho temp Ye type = UB /\ nu_NumberEmissivity (SpinerOpacity k pc t) rho temp Ye type = UB).
Proof.
  intros T O.
  assert (One : forall (b : DataBox T) x g cs ds, shaped b ((1, Some g) :: ds) -> g_N g = 1 -> in_place cs ds ->
    interpToReal b (Along x :: cs) = UB).
  { intros b x g cs ds [E _] G I. unfold interpToReal. rewrite E. now apply interp_single. }
  assert (Sp : forall type, neutrino_species type -> RadType2Idx type < NEUTRINO_NTYPES).
  { intros type [-> |[-> | ->]]; unfold NEUTRINO_NTYPES; cbn; lia. }
  split.
  - intros p r gb m n NT x gT gR y gT' gR' H Dp Rp Rr N1 N2 N3 N4 Hn HT Sz rho temp group gmode Hg.
    destruct (load_shape _ _ _ _ _ _ _ _ _ _ _ _ _ H Dp Rp Rr ltac:(lia)) as [S1 S2].
    unfold mt_Coefficient, mt_PlanckGroup, mt_RosselandGroup, group_coefficient. cbv zeta.
    destruct (gmode =? Planck); [rewrite (One _ _ _ _ _ S1)|rewrite (One _ _ _ _ _ S2)]; auto; cbn [in_place]; auto 10.
  - intros pc k o lR hR lT hT lY hY le he NT NY NE t H rho temp Ye type nu Hs.
    destruct (tabulate_shape _ _ _ _ _ _ _ _ _ _ _ _ _ _ _ H) as (gR & gT & gY & ge & ER & ET & EY & EE & [S5 S4] & _ & H2 & H3 & H4).
    destruct (mk_grid_N _ _ _ _ ER) as [NR1 _]. destruct (mk_grid_N _ _ _ _ ET) as [NT1 _].
    destruct (mk_grid_N _ _ _ _ EY) as [NY1 _]. destruct (mk_grid_N _ _ _ _ EE) as [NE1 _].
    assert (3 <= NEUTRINO_NTYPES) by (unfold NEUTRINO_NTYPES; lia). specialize (Sp type Hs).
    cbn [SpinerOpacity nu_Absorption nu_EmissivityPerNuOmega nu_Emissivity nu_NumberEmissivity].
    unfold sp_Absorption, sp_EmissivityPerNuOmega, sp_Emissivity, sp_NumberEmissivity, sp_lookup5, sp_lookup4. cbv zeta.
    repeat split;
      (rewrite (One _ _ gR _ [(NT, Some gT); (NY, Some gY); (NEUTRINO_NTYPES, None); (NE, Some ge)]);
       [reflexivity|solve [apply S5; auto]|exact NR1|cbn [in_place]; repeat split; auto; lia]) ||
      (rewrite (One _ _ gR _ [(NT, Some gT); (NY, Some gY); (NEUTRINO_NTYPES, None)]);
       [reflexivity|apply S4; auto|exact NR1|cbn [in_place]; repeat split; auto; lia]).
Qed.

(** The averaging constructors refuse a single density: its coordinate is not a number, and
    neither are the means. In exact arithmetic, whatever the opacity answers. *)
Lemma er_div_nan a : (a / NaN)%o = NaN.
Proof. destruct a; reflexivity. Qed.
Lemma er_nan_div a : (NaN / a)%o = NaN.
Proof. destruct a; reflexivity. Qed.
Lemma er_mul_nan a : (NaN * a)%o = NaN.
Proof. destruct a; reflexivity. Qed.
Lemma er_add_nan a : (a + NaN)%o = NaN.
Proof. destruct a; reflexivity. Qed.
Lemma single_node lo hi g : mk_grid (Fin lo) (Fin hi) 1 = Ok g -> FromLog (g_x g 0) = NaN.
Proof.
  unfold mk_grid. rewrite fin_ltb. unfold Rltb. destruct (Rlt_dec lo hi) as [L|L]; [|discriminate]. cbn [andb Z.ltb Z.compare]. intros H.
  assert (G : g_dx g = (Fin (hi - lo) / Fin 0)%o) by (injection H as <-; reflexivity).
  assert (M : g_min g = Fin lo) by (injection H as <-; reflexivity).
  unfold g_x. rewrite G, M, fin_ofZ.
  change (@Odiv ER ER_ops) with er_div. unfold er_div. destruct (Req_EM_T 0 0) as [_|K]; [|lra]. unfold inf_of_sign.
  destruct (Rlt_dec 0 (hi - lo)) as [_|K]; [|lra]. change (@Omul ER ER_ops) with er_mul. unfold er_mul, inf_of_sign.
  destruct (Rlt_dec 0 0); [lra|]. unfold FromLog. rewrite fin_ofZ. change (NaN + Fin lo)%o with NaN.
  change (@Opow ER ER_ops) with er_pow. unfold er_pow. destruct (Req_EM_T 10 1); [lra|reflexivity].
Qed.
Lemma for_first {S} n (body : nat -> S -> result S) s s' : 0 < n -> for_int n body s = Ok s' -> exists t, body 0%nat s = Ok t.
Proof.
  intros H. unfold for_int, for_loop. destruct (Z.to_nat n) as [|m] eqn:E; [lia|]. cbn [for_from].
  destruct (body 0%nat s); [eauto|discriminate..].
Qed.
Lemma for_last {S} n (body : nat -> S -> result S) s s' : 0 < n -> for_int n body s = Ok s' -> exists k t, body k t = Ok s'.
Proof.
  intros H. unfold for_int, for_loop. destruct (Z.to_nat n) as [|m] eqn:E; [lia|]. rewrite for_from_S_last.
  destruct (for_from m 0 body s); [cbn [bind]; eauto|discriminate..].
Qed.

Lemma C52_averaged_single_density_proof :
  (forall pc dbg opc coef (lR hR : R) (lT hT : ER) NT gb n N m,
   MeanImpl pc dbg opc coef (Fin lR) (Fin hR) 1 lT hT NT gb n N <> Ok m) /\
  (forall pc coef dist ddist dbg opc (lR hR : R) (lT hT lY hY : ER) NT NY range m,
   (forall r N, range = Some (r, N) -> 0 < N) ->
   NuMeanOpacity pc coef dist ddist dbg opc (Fin lR) (Fin hR) 1 lT hT NT lY hY NY range <> Ok m /\
   NuMeanSOpacity pc coef dist ddist (Fin lR) (Fin hR) 1 lT hT NT lY hY NY range <> Ok m).
Proof.
  split.
  - intros pc dbg opc coef lR hR lT hT NT gb n N m H. unfold MeanImpl in H. inv H. clear H.
    assert (Hn : 0 < n).
    { unfold ValidateGroupBounds in E. destruct (n <=? 0) eqn:K; [discriminate|]. apply Z.leb_gt in K. lia. }
    apply Z.ltb_ge in C0. destruct (mk_grid_N _ _ _ _ E1) as [_ NT2]. apply single_node in E2. unfold fill_tables in E3.
    apply for_first in E3; [|lia]. destruct E3 as [s1 E3]. cbv zeta in E3.
    match type of E3 with bind ?r _ = _ => destruct r as [den| |]; try discriminate E3 end. cbn [bind] in E3.
    apply for_first in E3; [|lia]. destruct E3 as [s2 E3]. apply for_first in E3; [|lia]. destruct E3 as [s3 E3].
    change (Z.of_nat 0) with 0 in E3. rewrite E2 in E3. unfold fill_cell in E3. inv E3.
    assert (X : fst a6 = NaN).
    { match goal with G : group_nums _ _ _ _ _ _ _ = Ok a6 |- _ => rename G into GN end. unfold group_nums, ForEachGroupFrequencySample in GN.
      apply for_last in GN; [|lia]. destruct GN as (k & t & GN). cbv zeta in GN. inv GN. injection GN as <-. cbn [fst].
      now rewrite er_div_nan, !er_mul_nan, er_add_nan. }
    unfold planck_mean, Robust.ratio in C1. rewrite X, er_nan_div in C1. discriminate C1.
  - assert (Last : forall coef rho temp Ye type l d k a a' dist ddist, rho = NaN ->
      nu_step coef dist ddist rho temp Ye type l d k a = Ok a' -> forall c st st', nu_store c a' st <> Ok st').
    { intros coef rho temp Ye type l d k a a' dist ddist -> H c st st' K. unfold nu_step in H. inv H. unfold nu_store in K. inv K.
      assert (X : s_pn a' = NaN).
      { rewrite er_div_nan, !er_mul_nan, er_add_nan in H. destruct (Ogtb a0 Robust.SMALL); injection H as <-; reflexivity. }
      assert (Y : fst (nu_means a') = NaN).
      { unfold nu_means. cbn [fst]. rewrite X. unfold Robust.ratio. apply er_nan_div. }
      rewrite Y in C. discriminate C. }
    assert (I : forall pc coef dist ddist inside (lR hR : R) (lT hT lY hY : ER) NT NY r N m, 0 < N ->
      nu_impl pc coef dist ddist inside (Fin lR) (Fin hR) 1 lT hT NT lY hY NY r N <> Ok m).
    { intros pc coef dist ddist inside lR hR lT hT lY hY NT NY r N m HN H. unfold nu_impl in H. inv H. clear H.
      destruct (mk_grid_N _ _ _ _ E) as [_ N1]. destruct (mk_grid_N _ _ _ _ E0) as [_ N2]. apply single_node in E1.
      unfold nu_fill_tables in E2. apply for_first in E2; [|lia]. destruct E2 as [s1 E2]. cbv zeta in E2.
      apply for_first in E2; [|lia]. destruct E2 as [s2 E2]. apply for_first in E2; [|lia]. destruct E2 as [s3 E2].
      apply for_first in E2; [|reflexivity]. destruct E2 as [s4 E2]. change (Z.of_nat 0) with 0 in E2. rewrite E1 in E2.
      unfold nu_fill in E2. destruct inside; inv E2.
      - apply for_last in E4; [|lia]. destruct E4 as (k & t & E4). inv E4. eapply Last; [reflexivity|eassumption|eassumption].
      - apply for_last in E4; [|lia]. destruct E4 as (k & t & E4). eapply Last; [reflexivity|exact E4|exact E2]. }
    intros pc coef dist ddist dbg opc lR hR lT hT lY hY NT NY range m Hr. split.
    + unfold NuMeanOpacity. destruct (dbg && _); [discriminate|]. destruct range as [[r N]|]; apply I; [eauto|lia].
    + unfold NuMeanSOpacity. destruct range as [[r N]|]; apply I; lia.
Qed.

(** *** A species the file does not have *)

(** The number of species of a NuLib file is not compared with the three species of the
    library: asked for a species the file lacks, at or beyond the last nodes, the lookups
    read past the end of the storage. In any arithmetic. *)
Lemma C52_species_proof :
  forall (T : Type) (O : Ops T) (pc : PhysConst T) (k : Z) (fresh : nat -> T) (f : NuLibFile T) (t : SpinerTables T) (NR NT NY NS NE : Z),
  LoadFromNuLib pc fresh (Some f) = Ok t ->
  nl_nrho f = Some NR -> nl_ntemp f = Some NT -> nl_nye f = Some NY -> nl_number_species f = Some NS -> nl_number_groups f = Some NE ->
  0 <= NS ->
  exists lR hR lT hT lY hY gR gT gY,
  ReadBounds (nl_rho_points f) NR = Ok (lR, hR) /\ ReadBounds (nl_temp_points f) NT = Ok (lT, hT) /\
  ReadBounds (nl_ye_points f) NY = Ok (lY, hY) /\
  mk_grid (Olog10 lR) (Olog10 hR) NR = Ok gR /\ mk_grid (Olog10 lT) (Olog10 hT) NT = Ok gT /\ mk_grid lY hY NY = Ok gY /\
  forall rho temp Ye type nu, NS <= RadType2Idx type ->
  beyond gR (sp_toLog rho) -> beyond gT (sp_toLog (Omul temp sp_K2MeV)) -> beyond gY Ye ->
  nu_Emissivity (SpinerOpacity k pc t) rho temp Ye type = UB /\ nu_NumberEmissivity (SpinerOpacity k pc t) rho temp Ye type = UB /\
  (2 <= NE -> nu_Absorption (SpinerOpacity k pc t) rho temp Ye type nu = UB /\
   nu_EmissivityPerNuOmega (SpinerOpacity k pc t) rho temp Ye type nu = UB).
Proof.
  intros T O pc k fresh f t NR NT NY NS NE H F1 F2 F3 F4 F5 HS.
  destruct (nulib_shape _ _ _ _ H) as (NR' & NT' & NY' & NS' & NE' & lR & hR & lT & hT & lY & hY & le & he & gR & gT & gY & ge &
    G1 & G2 & G3 & G4 & G5 & B1 & B2 & B3 & B4 & ER & ET & EY & EE & S & P1 & P2 & P3 & P4).
  rewrite F1 in G1. rewrite F2 in G2. rewrite F3 in G3. rewrite F4 in G4. rewrite F5 in G5.
  injection G1 as <-. injection G2 as <-. injection G3 as <-. injection G4 as <-. injection G5 as <-.
  destruct (S HS) as [S5 S4]. exists lR, hR, lT, hT, lY, hY, gR, gT, gY. repeat (split; [assumption|]).
  intros rho temp Ye type nu Hs (z1 & Z1 & L1) (z2 & Z2 & L2) (z3 & Z3 & L3).
  destruct (mk_grid_N _ _ _ _ ER) as [NR1 _]. destruct (mk_grid_N _ _ _ _ ET) as [NT1 _].
  destruct (mk_grid_N _ _ _ _ EY) as [NY1 _]. destruct (mk_grid_N _ _ _ _ EE) as [NE1 _].
  pose proof (bound_last gR z1 ltac:(lia) L1) as C1. pose proof (bound_last gT z2 ltac:(lia) L2) as C2.
  pose proof (bound_last gY z3 ltac:(lia) L3) as C3.
  assert (U : forall r : result T, r <> Error -> (forall v, r = Ok v -> False) -> (v <- r ;; Ok (sp_fromLog v)) = UB).
  { intros [v| |] N K; [now specialize (K v eq_refl)|congruence|reflexivity]. }
  assert (G4 : forall b, b = sp_J t \/ b = sp_JYe t -> sp_lookup4 b rho temp Ye type = UB).
  { intros b Hb. unfold sp_lookup4. cbv zeta. destruct (S4 b Hb) as [E L]. unfold interpToReal. rewrite E. apply U; [apply interp_no_error|].
    intros v K. apply interp_corner in K. destruct K as [w K]. unfold dims4 in K. cbn [corner] in K.
    rewrite Z1, Z2, Z3, C1, C2, C3, NR1, NT1, NY1 in K.
    rewrite at_flat_out in K; [discriminate|]. right. rewrite L. cbn [entries dims4]. nia. }
  assert (G5 : forall b, 2 <= NE -> b = sp_alpha t \/ b = sp_jnu t -> sp_lookup5 pc b rho temp Ye type nu = UB).
  { intros b H2 Hb. unfold sp_lookup5. cbv zeta. destruct (S5 b Hb) as [E L]. unfold interpToReal. rewrite E. apply U; [apply interp_no_error|].
    intros v K. apply interp_corner in K. destruct K as [w K]. unfold dims5 in K. cbn [corner] in K.
    rewrite Z1, Z2, Z3, C1, C2, C3, NR1, NT1, NY1 in K.
    match type of K with context [Otrunc ?a] => destruct (Otrunc a) as [z4|] end; [|rewrite (at_flat_out (db_data b) (-1)) in K; [discriminate|left; lia]].
    pose proof (bound_range ge z4 ltac:(lia)) as C4.
    rewrite at_flat_out in K; [discriminate|]. right. rewrite L. cbn [entries dims5].
    assert (NR * NT * NY * NS <= (((0 * NR + (NR - 2 + 1)) * NT + (NT - 2 + 1)) * NY + (NY - 2 + 1)) * NS + RadType2Idx type) by nia.
    nia. }
  split; [apply G4; auto|]. split; [apply G4; auto|]. intros H2. split; apply G5; auto.
Qed.

(** *** Witnesses *)

(** One density, one group: accepted, and every lookup is undefined. *)
Lemma C52_single_density_refuted_proof :
  exists (p : DataBox ER) (gb : list ER) (m : MeanTable ER),
  well_formed p /\ (exists g, mk_grid (Fin 0) (Fin 1) 1 = Ok g /\ nth 2 (db_ranges p) None = Some g) /\
  LoadTables p p gb = Ok m /\ forall rho temp gmode, mt_Coefficient m rho temp 0 gmode = UB.
Proof.
  assert (G : mk_grid (Fin 0) (Fin 1) 1 =
    Ok {| g_min := Fin 0; g_max := Fin 1; g_dx := PInf; g_idx := Fin 0; g_N := 1 |}).
  { unfold mk_grid. rewrite fin_ltb, Rltb_true by lra. cbn [andb Z.ltb Z.compare]. change (1 - 1)%Z with 0%Z.
    rewrite fin_sub, !fin_ofZ. change (@Odiv ER ER_ops) with er_div. unfold er_div.
    destruct (Req_EM_T 0 0) as [_|K]; [|lra]. unfold inf_of_sign. destruct (Rlt_dec 0 (1 - 0)) as [_|K]; [|lra]. reflexivity. }
  set (g := {| g_min := Fin 0; g_max := Fin 1; g_dx := PInf; g_idx := Fin 0; g_N := 1 |} : Grid ER) in *.
  set (p := {| db_dims := [1; 2; 1]; db_ranges := [None; Some (grid_of ex_grid); Some g]; db_data := [Fin 1; Fin 1] |} : DataBox ER).
  assert (W : well_formed p) by (split; [repeat constructor; lia|reflexivity]).
  assert (P : partition (edge (fun x : ER => x) [Fin 0; PInf]) 1).
  { split; [lia|]. intros [|] H; [|lia]. exists 0%R. cbn. split; [reflexivity|]. split; [lra|]. right. auto. }
  assert (C : compatible (fun x => x) p p).
  { split; [reflexivity|]. split; [reflexivity|]. split; [cbn; lia|].
    intros k [->| ->]; [exists (grid_of ex_grid), (grid_of ex_grid)|exists g, g]; repeat split; discriminate. }
  destruct (C37_load_proof ER ER_ops _ er_values p p [Fin 0; PInf] C W W ltac:(cbn; lia)) as [_ H].
  destruct (H P) as (m & E & _). exists p, [Fin 0; PInf], m. split; [exact W|]. split; [exists g; auto|]. split; [exact E|].
  destruct (C52_single_density_proof ER ER_ops) as [L _]. intros rho temp gmode.
  apply (L p p [Fin 0; PInf] m 1 2 None (grid_of ex_grid) g None (grid_of ex_grid) g E); try reflexivity; lia.
Qed.

(** Cells of 10^-8 decades and a density of 10^30: the number of cells in between is no int. *)
Lemma C52_far_state_refuted_proof :
  exists (p : DataBox ER) (gb : list ER) (m : MeanTable ER) (g : rgrid),
  well_formed p /\ rg_ok g /\ nth 2 (db_ranges p) None = Some (grid_of g) /\
  LoadTables p p gb = Ok m /\ forall gmode, mt_Coefficient m (Fin (10 ^ 30)) (Fin 1) 0 gmode = UB.
Proof.
  set (g := {| rg_lo := 0; rg_hi := / 10 ^ 8; rg_n := 2 |}).
  assert (G : rg_ok g) by (split; cbn [rg_lo rg_hi rg_n g]; [apply Rinv_0_lt_compat; lra|lia]).
  set (p := {| db_dims := [1; 2; 2]; db_ranges := [None; Some (grid_of ex_grid); Some (grid_of g)];
    db_data := [Fin 1; Fin 1; Fin 1; Fin 1] |} : DataBox ER).
  assert (W : well_formed p) by (split; [repeat constructor; lia|reflexivity]).
  assert (P : partition (edge (fun x : ER => x) [Fin 0; PInf]) 1).
  { split; [lia|]. intros [|] H; [|lia]. exists 0%R. cbn. split; [reflexivity|]. split; [lra|]. right. auto. }
  assert (C : compatible (fun x => x) p p).
  { split; [reflexivity|]. split; [reflexivity|]. split; [cbn; lia|].
    intros k [->| ->]; [exists (grid_of ex_grid), (grid_of ex_grid)|exists (grid_of g), (grid_of g)]; repeat split; discriminate. }
  destruct (C37_load_proof ER ER_ops _ er_values p p [Fin 0; PInf] C W W ltac:(cbn; lia)) as [_ H].
  destruct (H P) as (m & E & _). exists p, [Fin 0; PInf], m, g. split; [exact W|]. split; [exact G|]. split; [reflexivity|].
  split; [exact E|]. intros gmode.
  destruct (C52_loaded_proof ER ER_ops p p [Fin 0; PInf] m 1 2 2 None (grid_of ex_grid) (grid_of g) None (grid_of ex_grid) (grid_of g) E
    eq_refl eq_refl eq_refl eq_refl (conj eq_refl (Z.le_refl 2)) (conj eq_refl (Z.le_refl 2)) (conj eq_refl (Z.le_refl 2))
    (conj eq_refl (Z.le_refl 2)) (Fin (10 ^ 30)) (Fin 1) 0 ltac:(lia)) as [A1 A2].
  assert (N : ~ (convertible (grid_of g) (ToLog (Fin (10 ^ 30))) /\ convertible (grid_of ex_grid) (ToLog (Fin 1)))).
  { intros [K _]. rewrite ToLog_pos in K by (apply pow_le; lra). apply (convertible_fits g _ G) in K. destruct K as [_ K].
    pose proof tiny_pos as Tp. assert (Lp : (0 < ln 10)%R) by (rewrite <- ln_1; apply ln_increasing; lra).
    assert (B : (30 <= log10 (10 ^ 30 + tiny))%R).
    { apply (Rle_trans _ (log10 (10 ^ 30))).
      - unfold log10. rewrite <- Rpower_pow by lra. unfold Rpower. rewrite ln_exp, INR_IZR_INZ. apply Req_le.
        change (Z.of_nat 30) with 30. field. lra.
      - unfold log10, Rdiv. apply Rmult_le_compat_r; [left; now apply Rinv_0_lt_compat|]. left. apply ln_increasing; [apply pow_lt; lra|lra]. }
    unfold rg_dx in K. cbn [rg_lo rg_hi rg_n g] in K. change (IZR (2 - 1)) with 1%R in K.
    replace ((log10 (10 ^ 30 + tiny) - 0) / ((/ 10 ^ 8 - 0) / 1))%R with (log10 (10 ^ 30 + tiny) * 100000000)%R in K by field. lra. }
  unfold mt_Coefficient. destruct (gmode =? Planck); [apply A1|apply A2]; exact N.
Qed.

(** A file with two species, as for electron neutrinos and antineutrinos only: the heavy
    species at the upper corner of the table. *)
Definition two_species_file : nulib := {|
  nb_NR := 2; nb_NT := 2; nb_NY := 2; nb_NS := 2; nb_NE := 2;
  nb_rho := ends 1 3 2; nb_temp := ends 1 3 2; nb_ye := ends 0 1 2; nb_energy := ends 1 10 2;
  nb_emissivities := repeat 1%R 32; nb_absorption := repeat 1%R 32 |}.
Lemma two_species_ok : nulib_ok two_species_file.
Proof.
  unfold nulib_ok, nb_size, two_species_file.
  cbn [nb_NR nb_NT nb_NY nb_NS nb_NE nb_rho nb_temp nb_ye nb_energy nb_emissivities nb_absorption].
  repeat (split; [apply points_ends; lia || lra|]). split; [lia|]. rewrite !first_ends. repeat (split; [lra|]).
  rewrite !repeat_length. split; [lia|]. split; [lia|]. intros k Hk. rewrite nth_repeat_in by exact Hk. lra.
Qed.

Lemma beyond_hi g x : rg_ok g -> (rg_hi g <= x)%R -> rg_fits g x -> beyond (grid_of g) (Fin x).
Proof.
  intros G Hx F. pose proof (dx_pos g G) as D. unfold beyond.
  assert (U : (g_idx (grid_of g) * (Fin x - g_min (grid_of g)))%o = Fin (rg_u g x)).
  { unfold grid_of, rg_u. cbn [g_idx g_min]. rewrite fin_sub, fin_mul. f_equal. field. lra. }
  rewrite U. change (@Otrunc ER ER_ops) with er_trunc. rewrite trunc_fits by exact F. eexists. split; [reflexivity|].
  cbn [g_N grid_of].
  assert (K : (IZR (rg_n g - 1) <= rg_u g x)%R).
  { apply (Rmult_le_reg_r (rg_dx g)); [exact D|]. unfold rg_u, Rdiv. rewrite Rmult_assoc, Rinv_l, Rmult_1_r by lra.
    rewrite (hi_node g G) in Hx. unfold rg_node in Hx. lra. }
  assert (N0 : (0 <= rg_u g x)%R) by (apply (Rle_trans _ (IZR (rg_n g - 1))); [apply (IZR_le 0); destruct G; lia|exact K]).
  destruct (Ztrunc_nonneg _ N0) as [[A B] _].
  assert (IZR (rg_n g - 1) < IZR (Ztrunc_R (rg_u g x) + 1))%R by (rewrite plus_IZR; lra). apply lt_IZR in H. lia.
Qed.

Lemma C52_species_refuted_proof :
  exists (b : nulib) (rho temp Ye nu : R), nulib_ok b /\ nb_NS b = 2%Z /\ (0 < rho)%R /\ (0 < temp)%R /\ (0 <= Ye <= 1)%R /\ (0 < nu)%R /\
  forall (k : Z) (fresh : nat -> ER) (t : SpinerTables ER), LoadFromNuLib (finpc cgsR) fresh (Some (file_of b)) = Ok t ->
  nu_Emissivity (SpinerOpacity k (finpc cgsR) t) (Fin rho) (Fin temp) (Fin Ye) NU_HEAVY = UB /\
  nu_Absorption (SpinerOpacity k (finpc cgsR) t) (Fin rho) (Fin temp) (Fin Ye) NU_HEAVY (Fin nu) = UB.
Proof.
  pose proof kelvin_pos as Kp. pose proof tiny_pos as Tp. pose proof tiny_lt_1 as Tl. pose proof two_species_ok as Hb.
  exists two_species_file, 3%R, (3 * kelvin_per_MeV)%R, 1%R, 1%R. split; [exact Hb|]. split; [reflexivity|]. split; [lra|]. split; [lra|].
  split; [lra|]. split; [lra|]. intros k fresh t Et. set (b := two_species_file) in *.
  pose proof (gR_ok b Hb) as OR. pose proof (gT_ok b Hb) as OT. pose proof (gY_ok b Hb) as OY.
  destruct (C52_species_proof ER ER_ops (finpc cgsR) k fresh (file_of b) t 2 2 2 2 2 Et eq_refl eq_refl eq_refl eq_refl eq_refl ltac:(lia))
    as (lR & hR & lT & hT & lY & hY & gR & gT & gY & B1 & B2 & B3 & ER & ET & EY & A).
  cbn [file_of nl_rho_points nl_temp_points nl_ye_points] in B1, B2, B3.
  rewrite bounds_ok in B1 by apply Hb. rewrite bounds_ok in B2 by apply Hb. rewrite bounds_ok in B3 by apply Hb.
  injection B1 as <- <-. injection B2 as <- <-. injection B3 as <- <-.
  change (first (ends 1 3 2)) with 1%R in ER, ET. change (final (ends 1 3 2)) with 3%R in ER, ET.
  rewrite !fin_log10 in ER by lra. rewrite !fin_log10 in ET by lra.
  assert (HR : Ok (grid_of (nb_gR b)) = Ok gR) by (rewrite <- ER; symmetry; exact (mk_grid_of _ OR)).
  assert (HT : Ok (grid_of (nb_gT b)) = Ok gT) by (rewrite <- ET; symmetry; exact (mk_grid_of _ OT)).
  assert (HY : Ok (grid_of (nb_gY b)) = Ok gY) by (rewrite <- EY; symmetry; exact (mk_grid_of _ OY)).
  injection HR as <-. injection HT as <-. injection HY as <-.
  assert (I3 : (log10 3 < log10 (3 + tiny))%R).
  { unfold log10, Rdiv. assert (Lp : (0 < ln 10)%R) by (rewrite <- ln_1; apply ln_increasing; lra).
    apply Rmult_lt_compat_r; [now apply Rinv_0_lt_compat|]. apply ln_increasing; lra. }
  assert (X : forall g, rg_ok g -> rg_lo g = log10 1 -> rg_hi g = log10 3 -> rg_n g = 2%Z -> beyond (grid_of g) (Fin (log10 (3 + tiny)))).
  { intros g G L0 L1 N2. apply beyond_hi; [exact G|lra|]. unfold rg_fits, rg_dx. rewrite L0, L1, N2. change (IZR (2 - 1)) with 1%R.
    assert (Lp : (0 < ln 10)%R) by (rewrite <- ln_1; apply ln_increasing; lra).
    assert (Z0 : log10 1 = 0%R) by (unfold log10; rewrite ln_1; field; lra). rewrite Z0.
    assert (P3 : (0 < log10 3)%R).
    { unfold log10. apply Rdiv_lt_0_compat; [|exact Lp]. rewrite <- ln_1. apply ln_increasing; lra. }
    assert (U : (log10 (3 + tiny) <= 2 * log10 3)%R).
    { unfold log10, Rdiv. rewrite <- Rmult_assoc. apply Rmult_le_compat_r; [left; now apply Rinv_0_lt_compat|].
      replace (2 * ln 3)%R with (ln 9) by (replace 9%R with (3 * 3)%R by ring; rewrite ln_mult by lra; ring).
      left. apply ln_increasing; lra. }
    replace ((log10 (3 + tiny) - 0) / ((log10 3 - 0) / 1))%R with (log10 (3 + tiny) * / log10 3)%R by (field; lra).
    assert (0 < / log10 3)%R by now apply Rinv_0_lt_compat.
    assert (0 <= log10 (3 + tiny) * / log10 3)%R by (apply Rmult_le_pos; lra).
    assert (log10 (3 + tiny) * / log10 3 <= 2 * log10 3 * / log10 3)%R by (apply Rmult_le_compat_r; lra).
    rewrite Rmult_assoc, Rinv_r in H1 by lra. lra. }
  destruct (A (Fin 3) (Fin (3 * kelvin_per_MeV)) (Fin 1) NU_HEAVY (Fin 1)) as (U1 & _ & U2).
  - cbn. lia.
  - rewrite sp_toLog_fin, guarded_nonneg by lra. apply X; [exact OR|reflexivity..].
  - rewrite K2MeV_fin, fin_mul, sp_toLog_fin. replace (3 * kelvin_per_MeV * / kelvin_per_MeV)%R with 3%R by (field; lra).
    rewrite guarded_nonneg by lra. apply X; [exact OT|reflexivity..].
  - apply beyond_hi; [exact OY|change (rg_hi (nb_gY b)) with 1%R; lra|]. apply inside_fits; [exact OY|].
    split; [change (rg_lo (nb_gY b)) with 0%R|change (rg_hi (nb_gY b)) with 1%R]; lra.
  - split; [exact U1|]. exact (proj1 (U2 (Z.le_refl 2))).
Qed.

(** *** Cases meeting the hypotheses *)

(** A table of one group with a constant opacity, 10 densities from 10^-6 and 7 temperatures
    from 100: it exists, and the lookup at density 1 and temperature 0 gives a value. *)
Lemma C52_photon_exact_example :
  let gR := {| rg_lo := -6; rg_hi := 3; rg_n := 10 |} in let gT := {| rg_lo := 2; rg_hi := 8; rg_n := 7 |} in
  exists m v, rg_ok gR /\ rg_ok gT /\
  MeanImpl (finpc cgsR) false (RuntimePC_of (finpc cgsR)) (fun _ _ _ => Ok (Fin 1)) (Fin (rg_lo gR)) (Fin (rg_hi gR)) (rg_n gR)
    (Fin (rg_lo gT)) (Fin (rg_hi gT)) (rg_n gT) [Fin 0; PInf] 1 100 = Ok m /\
  mt_Coefficient m (Fin 1) (Fin 0) 0 Planck = Ok v.
Proof.
  intros gR gT. assert (OR : rg_ok gR) by (split; cbn; [lra|lia]). assert (OT : rg_ok gT) by (split; cbn; [lra|lia]).
  assert (P : partition (edge (fun x : ER => x) [Fin 0; PInf]) 1).
  { split; [lia|]. intros [|] H; [|lia]. exists 0%R. cbn. split; [reflexivity|]. split; [lra|]. right. auto. }
  destruct (MeanImpl_exact cgsR cgs_hkc (fun _ _ _ => Ok (Fin 1)) (fun _ _ _ => 1%R) (fun _ _ _ _ _ _ => eq_refl) gR gT [Fin 0; PInf] 1 100
    OR OT P ltac:(cbn; lia) ltac:(lia) false (RuntimePC_of (finpc cgsR)) ltac:(discriminate)) as (m & E & _).
  destruct (C52_photon_exact_proof _ _ _ _ _ _ _ _ _ _ 0 Planck OR OT E ltac:(lia)) as [A _].
  destruct (A 1%R 0%R ltac:(lra) ltac:(lra)) as [B _].
  destruct B as [v Ev].
  { split; (apply C52_ordinary_proof; [assumption|split; [lra|first [apply pow_R1_Rle; lra|apply pow_le; lra]]|cbn; lra|unfold rg_dx; cbn; lra]). }
  exists m, v. auto.
Qed.

(** The example tables of two groups, asked for their second group at density and
    temperature 0. *)
Lemma C52_loaded_example :
  exists m v, LoadTables (ex_box [1; 2; 3; 4; 5; 6; 7; 8]%R) (ex_box [1; 2; 3; 4; 5; 6; 7; 8]%R) [Fin 0; Fin 1; PInf] = Ok m /\
  mt_PlanckGroup m (Fin 0) (Fin 0) 1 = Ok v.
Proof.
  set (p := ex_box [1; 2; 3; 4; 5; 6; 7; 8]%R).
  destruct (C37_load_proof ER ER_ops _ er_values p p [Fin 0; Fin 1; PInf] (ex_compatible _ _)
    (ex_well_formed [1; 2; 3; 4; 5; 6; 7; 8]%R eq_refl) (ex_well_formed [1; 2; 3; 4; 5; 6; 7; 8]%R eq_refl) ltac:(cbn; lia)) as [_ H].
  destruct (H ex_partition) as (m & E & _). exists m.
  assert (Ax : proper_axis 2 (grid_of ex_grid)) by (split; [reflexivity|lia]).
  destruct (C52_loaded_proof ER ER_ops p p _ m 2 2 2 None (grid_of ex_grid) (grid_of ex_grid) None (grid_of ex_grid) (grid_of ex_grid) E
    eq_refl eq_refl eq_refl eq_refl Ax Ax Ax Ax (Fin 0) (Fin 0) 1 ltac:(lia)) as [[A _] _].
  destruct A as [v Ev]; [|now exists v].
  rewrite ToLog_pos by lra. split; (apply (convertible_fits ex_grid _ ex_grid_ok), C52_ordinary_proof;
    [apply ex_grid_ok|split; [lra|apply pow_le; lra]|cbn; lra|unfold rg_dx; cbn; lra]).
Qed.

(** A NuLib file with three species: loaded, and asked for the heavy one at its first node. *)
Lemma C52_nulib_example :
  exists t v, LoadFromNuLib (finpc cgsR) (fun _ => Fin 7) (Some (file_of (flat_file 2 2 5))) = Ok t /\
  nu_Emissivity (SpinerOpacity 3 (finpc cgsR) t) (Fin 1) (Fin kelvin_per_MeV) (Fin 0) NU_HEAVY = Ok v.
Proof.
  assert (Hb : nulib_ok (flat_file 2 2 5)) by (apply flat_ok; [lia|lra]). pose proof cgs_pos as Cp.
  assert (Hh : (0 < pc_h cgsR)%R) by apply Cp. assert (He : (0 < pc_eV cgsR)%R) by apply Cp.
  destruct C41_load_example as (_ & N1 & N2 & _).
  destruct (C41_load_proof cgsR 3 (flat_file 2 2 5) (fun _ => Fin 7) Hh He Hb) as (t & Et & A).
  destruct (A 0%Z 0%Z 0%Z 0%Z 1%R kelvin_per_MeV 0%R _ NU_HEAVY N1 N2) as (_ & _ & B & _); [cbn; lia|].
  exists t. eexists. split; [exact Et|exact B].
Qed.

(** A neutrino mean table of constant functions on 2 x 2 x 2 nodes, asked for the heavy
    species at its first density and temperature and Ye = 1/2. *)
Lemma C52_neutrino_example :
  let g := ex_grid in
  exists m v, NuMeanOpacity (finpc cgsR) (fun _ _ _ _ _ => Ok (Fin 1)) (fun _ _ _ => Ok (Fin 1)) (fun _ _ _ => Ok (Fin 1))
    false (RuntimePC_of (finpc cgsR)) (Fin 0) (Fin 1) 2 (Fin 0) (Fin 1) 2 (Fin 0) (Fin 1) 2 (Some (Fin 0, Fin 1, 10)) = Ok m /\
  nm_Planck m (Fin 1) (Fin 1) (Fin (1 / 2)) NU_HEAVY = Ok v.
Proof.
  intros g.
  destruct (nu_impl_exact (finpc cgsR) (fun _ _ _ _ _ => Ok (Fin 1)) (fun _ _ _ => Ok (Fin 1)) (fun _ _ _ => Ok (Fin 1))
    (fun _ _ _ _ _ => 1%R) (fun _ _ _ => 1%R) (fun _ _ _ => 1%R) (fun _ _ _ _ _ _ _ _ => eq_refl)
    (fun _ _ _ _ _ => conj eq_refl Rlt_0_1) (fun _ _ _ _ _ => eq_refl) g g g ex_grid_ok ex_grid_ok ex_grid_ok (0%R, 1%R) 10
    Rlt_0_1 eq_refl false (Some (Fin 0, Fin 1)) eq_refl) as (m & E & _).
  exists m.
  destruct (C52_neutrino_proof ER ER_ops (finpc cgsR) (fun _ _ _ _ _ => Ok (Fin 1)) (fun _ _ _ => Ok (Fin 1)) (fun _ _ _ => Ok (Fin 1))
    false (RuntimePC_of (finpc cgsR)) (Fin 0) (Fin 1) 2 (Fin 0) (Fin 1) 2 (Fin 0) (Fin 1) 2 (Some (Fin 0, Fin 1, 10)) m
    (or_introl E) ltac:(lia) ltac:(lia) ltac:(lia)) as (gR & gT & gY & ER & ET & EY & A).
  pose proof (mk_grid_of g ex_grid_ok) as K. change (mk_grid (Fin 0) (Fin 1) 2 = Ok (grid_of g)) in K.
  rewrite K in ER, ET, EY. injection ER as <-. injection ET as <-. injection EY as <-.
  destruct (A (Fin 1) (Fin 1) (Fin (1 / 2)) NU_HEAVY ltac:(right; right; reflexivity)) as [[B _] _].
  destruct B as [v Ev].
  - assert (C : convertible (grid_of g) (ToLog (Fin 1))).
    { rewrite ToLog_pos by lra. apply (convertible_fits g _ ex_grid_ok), C52_ordinary_proof;
        [apply ex_grid_ok|split; [lra|apply pow_R1_Rle; lra]|cbn; lra|unfold rg_dx; cbn; lra]. }
    split; [exact C|]. split; [exact C|]. apply (convertible_fits g _ ex_grid_ok). unfold rg_fits, rg_dx. cbn. lra.
  - exists v. split; [exact E|exact Ev].
Qed.

(** A gray opacity tabulated on two nodes per axis, asked at its last node. *)
Lemma C52_tabulated_example : let g := {| rg_lo := 0; rg_hi := 1; rg_n := 2 |} in
  exists t v T' nu', tabulated cgsR (NuGrayOpacity 3 (finpc cgsR) (Fin 2)) g g g g = Ok t /\
  nu_Absorption (SpinerOpacity 3 (finpc cgsR) t) (Fin (10 - tiny)) (Fin T') (Fin 1) NU_HEAVY (Fin nu') = Ok v.
Proof.
  intros g. destruct C40_nodes_example as (_ & _ & _ & _ & _ & t & E & A). exists t. do 3 eexists. split; [exact E|exact A].
Qed.
