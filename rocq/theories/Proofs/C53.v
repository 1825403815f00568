(** C53. Saved tables are read back only as what they are. *)
From Coq Require Import ZArith List String Bool Lia Reals.
From Verif Require Import Base.Outcome Base.Ops Inst.ER Model.Spiner Model.MeanUtils Model.MeanPhotons Model.MeanNeutrinos Model.SpinerNeutrinos Model.Files
  Spec.Kept Spec.Groups Spec.Tables Spec.TableShape Proofs.OrderLaws Proofs.TableFacts Proofs.C35 Proofs.C36 Proofs.C37.
Import ListNotations.
Open Scope Z_scope.

Section Any.
  Context {T : Type} {O : Ops T}.
  Implicit Types (fs : FileSystem T) (f : H5File T) (b : DataBox T).

  Lemma dataset_in f n b : dataset f n = Some b -> In (n, b) f.
  Proof.
    induction f as [|[m c] f IH]; cbn [dataset]; [discriminate|]. destruct (String.eqb_spec m n) as [E|E].
    - intros H. injection H as <-. subst. now left.
    - intros H. right. auto.
  Qed.
  Lemma dataset_own f n b : NoDup (map fst f) -> In (n, b) f -> dataset f n = Some b.
  Proof.
    induction f as [|[m c] f IH]; cbn [dataset map fst]; [contradiction|]. intros N [H|H].
    - injection H as <- <-. now rewrite String.eqb_refl.
    - apply NoDup_cons_iff in N. destruct N as [N1 N2]. destruct (String.eqb_spec m n) as [E|E]; [|auto].
      subst. exfalso. apply N1. now apply (in_map fst) in H.
  Qed.
  Lemma dataset_none f n : dataset f n = None <-> ~ In n (map fst f).
  Proof.
    induction f as [|[m c] f IH]; cbn [dataset map fst]; [intuition|]. destruct (String.eqb_spec m n) as [E|E]; cbn.
    - split; [discriminate|]. intros H. exfalso. auto.
    - rewrite IH. intuition.
  Qed.

  Lemma F2_length {A B} (P : A -> B -> Prop) l m : Forall2 P l m -> List.length l = List.length m.
  Proof. induction 1; cbn; congruence. Qed.

  Lemma load_each_spec h file : forall names k st,
    fst (load_each h k file st names) <= st /\
    (fst (load_each h k file st names) = st ->
     (forall i, (i < List.length names)%nat -> h5_data h (k + i) = true) /\
     exists bs, snd (load_each h k file st names) = map Some bs /\
       Forall2 (fun n b => exists f, file = Some f /\ dataset f n = Some b) names bs).
  Proof.
    induction names as [|n names IH]; intros k st; cbn [load_each fst snd List.length].
    - split; [lia|]. intros _. split; [lia|]. exists []. split; [reflexivity|constructor].
    - destruct (IH (Datatypes.S k) (st + fst (loadHDF (h5_data h k) file n))) as [I1 I2].
      assert (L : fst (loadHDF (h5_data h k) file n) <= 0 /\ (fst (loadHDF (h5_data h k) file n) = 0 -> h5_data h k = true /\
        exists f b, file = Some f /\ dataset f n = Some b /\ snd (loadHDF (h5_data h k) file n) = Some b)).
      { unfold loadHDF, H5_SUCCESS. destruct file as [f|]; cbn [fst]; [|split; [lia|discriminate]].
        destruct (dataset f n) as [b|] eqn:D; [|split; cbn; [lia|discriminate]].
        destruct (h5_data h k); cbn; [split; [lia|]|split; [lia|discriminate]]. intros _. split; [reflexivity|]. exists f, b. auto. }
      destruct L as [L1 L2]. split; [lia|]. intros E. destruct L2 as (A & f & b & F & D & Sb); [lia|].
      destruct I2 as (B & bs & E2 & F2); [lia|]. split.
      + intros [|i] Hi; [now rewrite Nat.add_0_r|]. rewrite <- Nat.add_succ_comm. apply B. lia.
      + exists (b :: bs). rewrite Sb, E2. split; [reflexivity|]. constructor; [eauto|exact F2].
  Qed.
  Lemma load_each_ok h f : forall names bs k st, (forall i, (i < List.length names)%nat -> h5_data h (k + i) = true) ->
    Forall2 (fun n b => dataset f n = Some b) names bs -> load_each h k (Some f) st names = (st, map Some bs).
  Proof.
    intros names bs k st H F. revert k st H. induction F as [|n b names bs D F IH]; intros k st H; [reflexivity|].
    cbn [load_each loadHDF]. rewrite D. pose proof (H 0%nat ltac:(cbn; lia)) as H0. rewrite Nat.add_0_r in H0. rewrite H0.
    cbn [fst snd]. rewrite IH; [cbn; f_equal; unfold H5_SUCCESS; lia|]. intros i Hi. rewrite Nat.add_succ_comm. apply H. cbn. lia.
  Qed.

  Lemma save_each_spec h : forall boxes k f st,
    exists g, snd (save_each h k (Some f) st boxes) = Some g /\ fst (save_each h k (Some f) st boxes) <= st /\
      incl g (f ++ boxes) /\ (NoDup (map fst f) -> NoDup (map fst g)) /\
      (fst (save_each h k (Some f) st boxes) = st ->
       g = f ++ boxes /\ forall i, (i < List.length boxes)%nat -> h5_data h (k + i) = true).
  Proof.
    induction boxes as [|[n b] boxes IH]; intros k f st; cbn [save_each List.length].
    - exists f. cbn. rewrite app_nil_r. repeat split; auto using incl_refl; lia.
    - assert (S1 : exists f1 s, saveHDF (h5_data h k) (Some f) n b = (s, Some f1) /\
        (s = -1 /\ f1 = f \/ s = 0 /\ f1 = f ++ [(n, b)] /\ dataset f n = None /\ h5_data h k = true)).
      { unfold saveHDF. destruct (dataset f n) eqn:D; [eexists _, _; split; [reflexivity|auto]|].
        destruct (h5_data h k); eexists _, _; (split; [reflexivity|]); [right|left]; auto. }
      destruct S1 as (f1 & s & -> & S1). cbn [fst snd]. destruct (IH (Datatypes.S k) f1 (st + s)) as (g & E & L & I & N & R).
      exists g. split; [exact E|]. destruct S1 as [[-> ->]|(-> & -> & D & Hk)].
      + repeat split; [lia| |exact N|lia|lia]. intros x Hx. apply I in Hx. rewrite in_app_iff in *. cbn. tauto.
      + repeat split; [lia| | |destruct R as [-> _]; [lia|]; now rewrite <- app_assoc|].
        * rewrite <- app_assoc in I. exact I.
        * intros Nf. apply N. rewrite map_app. cbn. apply dataset_none in D. clear - Nf D.
          induction (map fst f) as [|x l IHl]; cbn; [constructor; [intros []|constructor]|]. apply NoDup_cons_iff in Nf. destruct Nf as [A B].
          cbn in D. constructor; [rewrite in_app_iff; cbn; intuition|]. apply IHl; intuition.
        * intros [|i] Hi; [now rewrite Nat.add_0_r|]. rewrite <- Nat.add_succ_comm. apply R; lia.
  Qed.
  Lemma save_each_ok h : forall boxes k f st, (forall i, (i < List.length boxes)%nat -> h5_data h (k + i) = true) ->
    NoDup (map fst (f ++ boxes)) -> save_each h k (Some f) st boxes = (st, Some (f ++ boxes)).
  Proof.
    induction boxes as [|[n b] boxes IH]; intros k f st H N; cbn [save_each]; [now rewrite app_nil_r|].
    assert (D : dataset f n = None).
    { apply dataset_none. intros I. rewrite map_app in N. cbn in N. apply NoDup_remove_2 in N. apply N. rewrite in_app_iff. auto. }
    cbn [saveHDF]. rewrite D. pose proof (H 0%nat ltac:(cbn; lia)) as H0. rewrite Nat.add_0_r in H0. rewrite H0. cbn [fst snd].
    assert (A : f ++ (n, b) :: boxes = (f ++ [(n, b)]) ++ boxes) by now rewrite <- app_assoc.
    rewrite A in N |- *. rewrite IH; [f_equal; unfold H5_SUCCESS; lia| |exact N]. intros i Hi. rewrite Nat.add_succ_comm. apply H. cbn. lia.
  Qed.

  (** reading: the status is zero exactly when everything is there and nothing fails *)
  Lemma read_file_spec h fs path names :
    (reported (fst (read_file h fs path names)) = Error /\
     ~ (h5_open h = true /\ h5_close h = true /\ (forall i, (i < List.length names)%nat -> h5_data h i = true) /\
        exists f, fs path = Some f /\ forall n, In n names -> dataset f n <> None)) \/
    (reported (fst (read_file h fs path names)) = Ok tt /\
     h5_open h = true /\ h5_close h = true /\ (forall i, (i < List.length names)%nat -> h5_data h i = true) /\
     exists f bs, fs path = Some f /\ Forall2 (fun n b => dataset f n = Some b) names bs /\
       snd (read_file h fs path names) = map Some bs).
  Proof.
    unfold read_file. set (file := if h5_open h then fs path else None). cbn [fst snd].
    destruct (load_each_spec h file names 0 H5_SUCCESS) as [L1 L2].
    set (s := fst (load_each h 0 file H5_SUCCESS names)) in *.
    assert (C : (s = H5_SUCCESS /\ is_open file && h5_close h = true) \/ ~ (s = H5_SUCCESS /\ is_open file && h5_close h = true)).
    { destruct (Z.eq_dec s H5_SUCCESS); destruct (is_open file && h5_close h); intuition; try discriminate. }
    destruct C as [[Es Ec]|C].
    - right. rewrite Ec, Es. split; [reflexivity|]. destruct (L2 Es) as (Hd & bs & Eb & F). apply andb_prop in Ec. destruct Ec as [Eo Ec].
      assert (Ho : h5_open h = true) by (subst file; destruct (h5_open h); [reflexivity|discriminate]). unfold file in Eo, Eb, F |- *. rewrite Ho in Eo, Eb, F |- *.
      destruct (fs path) as [f|]; [|discriminate]. repeat split; auto. exists f, bs. repeat split; [|exact Eb].
      clear - F. induction F as [|n b ns bs (g & E & D) F IH]; constructor; auto. now injection E as ->.
    - left. split.
      + unfold reported. destruct (Z.eqb_spec (s + herr (is_open file && h5_close h)) H5_SUCCESS) as [E|E]; [|reflexivity].
        exfalso. apply C. unfold herr, H5_SUCCESS in *. destruct (is_open file && h5_close h); cbn in E; [split; [lia|reflexivity]|lia].
      + intros (Ho & Hc & Hd & f & Ef & Hf). apply C. unfold s, file. rewrite Ho, Ef, Hc. split; [|reflexivity].
        assert (B : exists bs, Forall2 (fun n b => dataset f n = Some b) names bs).
        { clear - Hf. induction names as [|n names IH]; [exists []; constructor|]. destruct IH as [bs F]; [intros; apply Hf; now right|].
          destruct (dataset f n) as [b|] eqn:D; [exists (b :: bs); now constructor|]. exfalso. apply (Hf n); [now left|exact D]. }
        destruct B as [bs F]. now rewrite (load_each_ok h f names bs 0 H5_SUCCESS Hd F).
  Qed.

  (** writing under distinct names *)
  Lemma write_file_spec h fs path boxes : NoDup (map fst boxes) ->
    let w := write_file h fs path boxes in
    (forall q, q <> path -> snd w q = fs q) /\
    (h5_open h = false -> snd w = fs /\ reported (fst w) = Error) /\
    (h5_open h = true -> exists g, snd w path = Some g /\ incl g boxes /\ NoDup (map fst g) /\
       (reported (fst w) = Ok tt -> g = boxes)) /\
    (reported (fst w) = Ok tt <-> h5_open h = true /\ h5_close h = true /\ forall i, (i < List.length boxes)%nat -> h5_data h i = true) /\
    (reported (fst w) = Ok tt \/ reported (fst w) = Error).
  Proof.
    intros N w. unfold w, write_file. cbv zeta. clear w. destruct (h5_open h) eqn:Ho.
    - destruct (save_each_spec h boxes 0 empty_file H5_SUCCESS) as (g & E & L & I & Ng & R). cbn [fst snd is_open andb].
      set (s := fst (save_each h 0 (Some empty_file) H5_SUCCESS boxes)) in *. rewrite E.
      assert (Q : reported (s + herr (h5_close h)) = Ok tt <-> s = H5_SUCCESS /\ h5_close h = true).
      { unfold reported, herr. destruct (h5_close h).
        - replace (s + H5_SUCCESS) with s by (unfold H5_SUCCESS; lia). destruct (Z.eqb_spec s H5_SUCCESS); intuition discriminate.
        - destruct (Z.eqb_spec (s + -1) H5_SUCCESS) as [K|K]; [unfold H5_SUCCESS in *; lia|]. intuition discriminate. }
      repeat split.
      + intros q Hq. unfold put. now rewrite (proj2 (String.eqb_neq q path) Hq).
      + discriminate.
      + discriminate.
      + intros _. exists g. split; [unfold put; now rewrite String.eqb_refl|]. split; [exact I|]. split; [apply Ng; constructor|].
        intros K. apply Q in K. destruct K as [K _]. now destruct (R K).
      + now apply Q in H.
      + apply Q in H. destruct H as [K _]. now destruct (R K).
      + intros (_ & Hc & Hd). apply Q. split; [|exact Hc]. unfold s. now rewrite (save_each_ok h boxes 0 empty_file H5_SUCCESS Hd N).
      + unfold reported. destruct (_ =? _); auto.
    - cbn [is_open andb]. assert (X : forall (bs : list (string * DataBox T)) k st, snd (save_each h k None st bs) = None /\ fst (save_each h k None st bs) <= st).
      { clear. induction bs as [|[n b] bs IH]; intros k st; cbn; [split; [reflexivity|lia]|].
        destruct (IH (Datatypes.S k) (st + -1)) as [A B]. split; [exact A|lia]. }
      destruct (X boxes 0%nat H5_SUCCESS) as [A B]. cbn [fst snd]. rewrite A.
      assert (Q : reported (fst (save_each h 0 None H5_SUCCESS boxes) + herr false) = Error).
      { unfold reported, H5_SUCCESS in *. cbn. destruct (Z.eqb_spec (fst (save_each h 0 None 0 boxes) + -1) 0); [lia|reflexivity]. }
      rewrite Q. repeat split; auto; try discriminate. intros (K & _). discriminate.
  Qed.

  (** the names of a kind *)
  Definition names_of (k : kind) : list string :=
    match k with
    | PhotonMeans s => let '(a, b, c) := photon_names s in [a; b; c]
    | NeutrinoMeans s => let '(a, b) := neutrino_names s in [a; b]
    | NeutrinoTables => [SP5_AbsorptionCoefficient; SP5_EmissivityPerNu; SP5_TotalEmissivity; SP5_NumberEmissivity]
    end.
  Definition build (k : kind) (bs : list (DataBox T)) : result (thing T) :=
    match k, bs with
    | PhotonMeans s, [p; r; g] => m <- LoadTables p r (db_data g) ;; Ok (PhotonThing s m)
    | NeutrinoMeans s, [p; r] => Ok (NeutrinoThing s {| nm_lPlanck := p; nm_lRosseland := r |})
    | NeutrinoTables, [a; j; J; JYe] => Ok (TableThing {| sp_alpha := a; sp_jnu := j; sp_J := J; sp_JYe := JYe |})
    | _, _ => UB
    end.
  Definition boxes_of (x : thing T) : result (list (string * DataBox T)) :=
    match x with
    | PhotonThing s m => e <- ExportTables m ;; let '(p, r, b) := e in Ok (combine (names_of (PhotonMeans s)) [p; r; bounds_box b])
    | NeutrinoThing s m => Ok (combine (names_of (NeutrinoMeans s)) [nm_lPlanck m; nm_lRosseland m])
    | TableThing t => Ok (combine (names_of NeutrinoTables) [sp_alpha t; sp_jnu t; sp_J t; sp_JYe t])
    end.
  Lemma names_distinct k : NoDup (names_of k).
  Proof.
    destruct k as [[|]|[|]|]; cbn; repeat (constructor; [cbn; intuition discriminate|]); constructor.
  Qed.
  Lemma names_foreign k k' : k <> k' -> exists n, In n (names_of k') /\ ~ In n (names_of k).
  Proof.
    intros H. destruct k' as [[|]|[|]|].
    - exists SP5_PlanckGroupSOpacity. split; [cbn; auto|]. destruct k as [[|]|[|]|]; cbn; intuition discriminate.
    - exists SP5_PlanckGroupOpacity. split; [cbn; auto|]. destruct k as [[|]|[|]|]; cbn; intuition discriminate.
    - exists SP5_PlanckMeanSOpacity. split; [cbn; auto|]. destruct k as [[|]|[|]|]; cbn; intuition discriminate.
    - exists SP5_PlanckMeanOpacity. split; [cbn; auto|]. destruct k as [[|]|[|]|]; cbn; intuition discriminate.
    - exists SP5_AbsorptionCoefficient. split; [cbn; auto|]. destruct k as [[|]|[|]|]; cbn; intuition discriminate.
  Qed.
  Lemma names_count k : List.length (names_of k) = datasets_of k.
  Proof. destruct k as [[|]|[|]|]; reflexivity. Qed.

  Lemma load_error k h fs path : reported (fst (read_file h fs path (names_of k))) = Error -> load_as k h fs path = Error.
  Proof.
    intros E. destruct k as [[|]|[|]|]; unfold load_as, photon_load, neutrino_load, table_load; cbn [photon_names neutrino_names];
      cbn [names_of photon_names neutrino_names] in E; rewrite E; reflexivity.
  Qed.
  Lemma load_ok k h fs path bs : reported (fst (read_file h fs path (names_of k))) = Ok tt ->
    snd (read_file h fs path (names_of k)) = map Some bs -> List.length bs = datasets_of k -> load_as k h fs path = build k bs.
  Proof.
    intros E Eb L. destruct k as [[|]|[|]|]; unfold load_as, photon_load, neutrino_load, table_load; cbn [photon_names neutrino_names];
      cbn [names_of photon_names neutrino_names datasets_of] in *; rewrite E, Eb;
      repeat (destruct bs as [|? bs]; try discriminate L); reflexivity.
  Qed.

  Lemma load_spec k h fs path :
    (load_as k h fs path = Error /\
     ~ (no_failure h k /\ exists f, fs path = Some f /\ forall n, In n (names_of k) -> dataset f n <> None)) \/
    (no_failure h k /\ exists f bs, fs path = Some f /\ Forall2 (fun n b => dataset f n = Some b) (names_of k) bs /\
      load_as k h fs path = build k bs).
  Proof.
    unfold no_failure. rewrite <- names_count.
    destruct (read_file_spec h fs path (names_of k)) as [[E N]|(E & Ho & Hc & Hd & f & bs & Ef & F & Eb)].
    - left. split; [now apply load_error|]. intuition.
    - right. split; [auto|]. exists f, bs. repeat split; auto. pose proof (F2_length _ _ _ F) as L. rewrite names_count in L.
      now apply load_ok.
  Qed.

  Lemma save_unfold h fs path x :
    save_thing h fs path x = match boxes_of x with
      | Ok bs => (snd (write_file h fs path bs), reported (fst (write_file h fs path bs)))
      | Error => (fs, Error) | UB => (fs, UB) end.
  Proof.
    destruct x as [[|] m|[|] m|t]; cbn [save_thing boxes_of]; unfold photon_save; cbn [photon_names];
      try destruct (ExportTables m) as [[[p r] b]| |]; reflexivity.
  Qed.
  Lemma boxes_kept x bs : boxes_of x = Ok bs -> map fst bs = names_of (kind_of x) /\ build (kind_of x) (map snd bs) = kept x.
  Proof.
    destruct x as [s m|s m|t]; cbn [boxes_of kept kind_of].
    - unfold Save. destruct (ExportTables m) as [[[p r] b]| |]; cbn [bind]; try discriminate. intros H. injection H as <-.
      destruct s; split; reflexivity.
    - intros H. injection H as <-. destruct s, m; split; reflexivity.
    - intros H. injection H as <-. destruct t; split; reflexivity.
  Qed.
  Lemma kept_fails x : (forall bs, boxes_of x <> Ok bs) -> boxes_of x = Error /\ kept x = Error \/ boxes_of x = UB /\ kept x = UB.
  Proof.
    destruct x as [s m|s m|t]; cbn [boxes_of kept]; [|intros H; exfalso; now apply (H _ eq_refl)..].
    unfold Save. destruct (ExportTables m) as [[[p r] b]| |]; cbn [bind]; intros H; [exfalso; now apply (H _ eq_refl)|auto..].
  Qed.
  (** looking up boxes that were all written *)
  Lemma own_boxes names (bs' : list (DataBox T)) g bs : Forall2 (fun n b => dataset g n = Some b) names bs' -> incl g bs ->
    NoDup (map fst bs) -> map fst bs = names -> bs' = map snd bs.
  Proof.
    intros F I N E. assert (F' : Forall2 (fun n b => dataset bs n = Some b) names bs').
    { clear E. induction F; constructor; auto. apply dataset_own; [exact N|]. apply I. now apply dataset_in. }
    clear F I g. subst names. assert (G : Forall2 (fun n b => dataset bs n = Some b) (map fst bs) (map snd bs)).
    { assert (A : forall l, incl l bs -> Forall2 (fun n b => dataset bs n = Some b) (map fst l) (map snd l)).
      { induction l as [|[n b] l IH]; intros I; constructor; [apply dataset_own; [exact N|apply I; now left]|apply IH; intros z Hz; apply I; now right]. }
      apply A, incl_refl. }
    clear N. revert F' G. generalize (map snd bs). generalize (map fst bs). intros ns l F' G. revert l G.
    induction F' as [|n b ns bs' D F IH]; intros l G; inversion G; subst; [reflexivity|]. f_equal; [congruence|auto].
  Qed.
  Lemma own_lookup (bs : H5File T) : NoDup (map fst bs) -> forall n, In n (map fst bs) -> dataset bs n <> None.
  Proof. intros _ n H K. apply dataset_none in K. auto. Qed.
End Any.

(** Nothing failing, whatever the file system held before: an object saved and loaded as its own
    kind is the one C36 describes, neutrino objects unchanged bit for bit; other files are left
    alone. In any arithmetic. *)
Lemma C53_round_trip_proof :
  forall (T : Type) (O : Ops T) (h h' : H5) (fs : FileSystem T) (path : string) (x : thing T),
  no_failure h (kind_of x) -> no_failure h' (kind_of x) ->
  let saved := save_thing h fs path x in
  (_ <- snd saved ;; load_as (kind_of x) h' (fst saved) path) = kept x /\
  forall q, q <> path -> fst saved q = fs q.
Proof.
  intros T O h h' fs path x Hh Hh' saved. unfold saved. clear saved. rewrite save_unfold.
  destruct (boxes_of x) as [bs| |] eqn:B.
  - destruct (boxes_kept x bs B) as [En Ek]. assert (N : NoDup (map fst bs)) by (rewrite En; apply names_distinct).
    destruct (write_file_spec h fs path bs N) as (W1 & _ & W3 & W4 & _). cbn [fst snd]. split; [|exact W1].
    assert (Len : List.length bs = datasets_of (kind_of x)) by (rewrite <- names_count, <- En; now rewrite map_length).
    destruct Hh as (Ho & Hc & Hd). assert (R : reported (fst (write_file h fs path bs)) = Ok tt) by (apply W4; rewrite Len; auto).
    rewrite R. cbn [bind]. destruct (W3 Ho) as (g & Eg & _ & _ & G). specialize (G R). subst g.
    destruct (load_spec (kind_of x) h' (snd (write_file h fs path bs)) path) as [[_ K]|(_ & f & bs' & Ef & F & ->)].
    + exfalso. apply K. split; [exact Hh'|]. exists bs. split; [exact Eg|]. rewrite <- En. now apply own_lookup.
    + rewrite Eg in Ef. injection Ef as <-. rewrite <- Ek. f_equal. exact (own_boxes _ _ _ _ F (incl_refl _) N En).
  - cbn [fst snd bind]. split; [|auto]. destruct (kept_fails x) as [[_ ->]|[K _]]; [rewrite B; discriminate|reflexivity|congruence].
  - cbn [fst snd bind]. split; [|auto]. destruct (kept_fails x) as [[K _]|[_ ->]]; [rewrite B; discriminate|congruence|reflexivity].
Qed.

(** With C36: photon means in order come back with the same groups, bounds, dimensions and grids,
    every stored logarithm x having become ToLog(FromLog(x)); in exact arithmetic and in binary64. *)
Lemma C53_photon_proof :
  forall (T : Type) (O : Ops T) (val : T -> ER), values O val ->
  forall (h h' : H5) (fs : FileSystem T) (path : string) (scattering : bool) (m : MeanTable T),
  in_order val m -> no_failure h (PhotonMeans scattering) -> no_failure h' (PhotonMeans scattering) ->
  snd (photon_save scattering h fs path m) = Ok tt /\
  photon_load scattering h' (fst (photon_save scattering h fs path m)) path = Ok (remap (fun x => ToLog (FromLog x)) m).
Proof.
  intros T O val V h h' fs path s m H A B.
  destruct (C53_round_trip_proof T O h h' fs path (PhotonThing s m) A B) as [R _].
  pose proof (proj1 (C36_photon_cycle_proof T O val V m H)) as C. unfold cycle in C. cbn [kept kind_of save_thing load_as] in R.
  destruct (Save true m) as [f| |]; cbn [bind] in *; try discriminate. rewrite C in R. cbn [bind] in R.
  destruct (snd (photon_save s h fs path m)) as [[]| |]; cbn [bind] in R; try discriminate. split; [reflexivity|].
  destruct (photon_load s h' (fst (photon_save s h fs path m)) path); cbn [bind] in R; try discriminate. now injection R as ->.
Qed.

(** Any HDF5 call may fail, on saving and on loading. Either nothing was written and the save
    did not report success, or loading the file as any other kind is an error, and loading it as
    its own kind is an error or gives the object the failure-free round trip gives: never a
    mixture, never undefined behaviour of its own. *)
Lemma C53_failures_proof :
  forall (T : Type) (O : Ops T) (h : H5) (fs : FileSystem T) (path : string) (x : thing T),
  let saved := save_thing h fs path x in
  (fst saved = fs /\ snd saved <> Ok tt) \/
  (forall k h', k <> kind_of x -> load_as k h' (fst saved) path = Error) /\
  (forall h', load_as (kind_of x) h' (fst saved) path = Error \/ load_as (kind_of x) h' (fst saved) path = kept x).
Proof.
  intros T O h fs path x saved. unfold saved. clear saved. rewrite save_unfold.
  destruct (boxes_of x) as [bs| |] eqn:B; [|left; split; [reflexivity|discriminate]..].
  destruct (boxes_kept x bs B) as [En Ek]. assert (N : NoDup (map fst bs)) by (rewrite En; apply names_distinct).
  destruct (write_file_spec h fs path bs N) as (_ & W2 & W3 & _ & _). cbn [fst snd].
  destruct (h5_open h) eqn:Ho; [|left; destruct (W2 eq_refl) as [-> ->]; split; [reflexivity|discriminate]].
  right. destruct (W3 eq_refl) as (g & Eg & I & _). split.
  - intros k h' Hk. destruct (load_spec k h' (snd (write_file h fs path bs)) path) as [[-> _]|(_ & f & bs' & Ef & F & _)]; [reflexivity|].
    exfalso. rewrite Eg in Ef. injection Ef as <-. destruct (names_foreign (kind_of x) k) as (n & A & C); [congruence|]. apply C.
    rewrite <- En. clear - F I A. induction F as [|m b ns bs' D F IH]; [contradiction|]. destruct A as [->|A]; [|auto].
    apply dataset_in, I in D. now apply (in_map fst) in D.
  - intros h'. destruct (load_spec (kind_of x) h' (snd (write_file h fs path bs)) path) as [[-> _]|(_ & f & bs' & Ef & F & ->)]; [auto|].
    right. rewrite Eg in Ef. injection Ef as <-. rewrite <- Ek. f_equal. exact (own_boxes _ _ _ _ F I N En).
Qed.

(** A save reports success exactly when no call failed and the object could be exported; a load
    succeeds only if no call failed and every dataset of the class is in the file. *)
Lemma C53_reported_proof :
  forall (T : Type) (O : Ops T) (h : H5) (fs : FileSystem T) (path : string),
  (forall x, (exists y, kept x = Ok y) ->
    (snd (save_thing h fs path x) = Ok tt <-> no_failure h (kind_of x))) /\
  (forall k y, load_as k h fs path = Ok y -> no_failure h k /\ kind_of y = k /\ exists f, fs path = Some f) /\
  (forall k, ~ no_failure h k \/ fs path = None -> load_as k h fs path = Error).
Proof.
  intros T O h fs path. split; [|split].
  - intros x K. rewrite save_unfold. destruct (boxes_of x) as [bs| |] eqn:B.
    + destruct (boxes_kept x bs B) as [En _]. assert (N : NoDup (map fst bs)) by (rewrite En; apply names_distinct).
      destruct (write_file_spec h fs path bs N) as (_ & _ & _ & W4 & _). cbn [snd]. rewrite W4. unfold no_failure.
      rewrite <- names_count, <- En, map_length. reflexivity.
    + exfalso. destruct (kept_fails x) as [[_ E]|[E _]]; [rewrite B; discriminate| |congruence]. rewrite E in K. destruct K; discriminate.
    + exfalso. destruct (kept_fails x) as [[E _]|[_ E]]; [rewrite B; discriminate|congruence|]. rewrite E in K. destruct K; discriminate.
  - intros k y H. destruct (load_spec k h fs path) as [[E _]|(A & f & bs & Ef & _ & E)]; [congruence|]. split; [exact A|]. split; [|eauto].
    rewrite E in H. destruct k as [s|s|]; cbn [build] in H; repeat (destruct bs as [|? bs]; try discriminate H).
    + destruct (LoadTables d d0 (db_data d1)); [|discriminate H..]. injection H as <-. reflexivity.
    + injection H as <-. reflexivity.
    + injection H as <-. reflexivity.
  - intros k H. destruct (load_spec k h fs path) as [[-> _]|(A & f & bs & Ef & _)]; [reflexivity|]. destruct H; [contradiction|congruence].
Qed.

(** A load looks at the datasets of its class only: two files with the same datasets under those
    names, in any order and among any others, load alike. *)
Lemma C53_only_own_datasets_proof :
  forall (T : Type) (O : Ops T) (k : kind) (h : H5) (fs fs' : FileSystem T) (path path' : string) (f f' : H5File T),
  fs path = Some f -> fs' path' = Some f' ->
  (forall n, In n ["absorption coefficient"; "emissivity per nu"; "total emissivity"; "number emissivity";
                   "Planck mean opacity"; "Rosseland mean opacity"; "Planck mean scattering opacity";
                   "Rosseland mean scattering opacity"; "Planck group opacity"; "Rosseland group opacity"; "group bounds";
                   "Planck group scattering opacity"; "Rosseland group scattering opacity"]%string ->
    dataset f n = dataset f' n) ->
  load_as k h fs path = load_as k h fs' path'.
Proof.
  intros T O k h fs fs' path path' f f' E E' D.
  assert (D' : forall n, In n (names_of k) -> dataset f n = dataset f' n).
  { intros n Hn. apply D. destruct k as [[|]|[|]|]; cbn in *; intuition. }
  destruct (load_spec k h fs path) as [[-> K]|(A & g & bs & Eg & F & ->)],
           (load_spec k h fs' path') as [[-> K']|(A' & g' & bs' & Eg' & F' & ->)].
  - reflexivity.
  - exfalso. apply K. split; [exact A'|]. exists f. split; [exact E|]. intros n Hn. rewrite (D' n Hn). rewrite E' in Eg'. injection Eg' as <-.
    clear - F' Hn. induction F'; [contradiction|]. destruct Hn as [->|Hn]; [congruence|auto].
  - exfalso. apply K'. split; [exact A|]. exists f'. split; [exact E'|]. intros n Hn. rewrite <- (D' n Hn). rewrite E in Eg. injection Eg as <-.
    clear - F Hn. induction F; [contradiction|]. destruct Hn as [->|Hn]; [congruence|auto].
  - f_equal. rewrite E in Eg. injection Eg as <-. rewrite E' in Eg'. injection Eg' as <-. revert D' bs' F'. clear - F.
    induction F as [|n b ns bs H F IH]; intros D' bs' F'; inversion F'; subst; [reflexivity|]. f_equal.
    + pose proof (D' n (or_introl eq_refl)). congruence.
    + apply IH; [intros; apply D'; now right|assumption].
Qed.

(** Save truncates first: when a write then fails, the file that was there is lost, and so is
    the object that was in it. *)
Lemma C53_failed_save_loses_proof :
  forall (T : Type) (O : Ops T) (h h' : H5) (fs : FileSystem T) (path : string) (x : thing T) (k : kind),
  (exists y, kept x = Ok y) -> h5_open h = true -> h5_data h 0 = false ->
  snd (save_thing h fs path x) = Error /\ load_as k h' (fst (save_thing h fs path x)) path = Error.
Proof.
  intros T O h h' fs path x k [y Ky] Ho Hd. rewrite save_unfold. destruct (boxes_of x) as [bs| |] eqn:B.
  2, 3: exfalso; destruct (kept_fails x) as [[E1 E2]|[E1 E2]]; [rewrite B; discriminate|congruence|congruence].
  destruct (boxes_kept x bs B) as [En _]. assert (N : NoDup (map fst bs)) by (rewrite En; apply names_distinct).
  destruct (write_file_spec h fs path bs N) as (_ & _ & W3 & W4 & W5). cbn [fst snd].
  assert (Len : (0 < List.length bs)%nat) by (rewrite <- (map_length fst), En, names_count; destruct (kind_of x); cbn; lia). split.
  - destruct W5 as [W5|W5]; [|exact W5]. apply W4 in W5. destruct W5 as (_ & _ & W5). rewrite (W5 0%nat Len) in Hd. discriminate.
  - destruct (W3 Ho) as (g & Eg & I & Ng & _). destruct (load_spec k h' (snd (write_file h fs path bs)) path) as [[-> _]|(_ & f & bs' & Ef & F & _)]; [reflexivity|].
    exfalso. rewrite Eg in Ef. injection Ef as <-.
    destruct bs as [|[n b] bs]; [cbn in Len; lia|]. cbn [map fst] in En, N. apply NoDup_cons_iff in N. destruct N as [N1 N2].
    assert (Hn : dataset g n = None).
    { unfold write_file in Eg. rewrite Ho in Eg. cbn [snd save_each saveHDF empty_file dataset] in Eg. rewrite Hd in Eg. cbn [fst snd] in Eg.
      destruct (save_each_spec h bs 1 empty_file (H5_SUCCESS + -1)) as (g' & E' & _ & I' & _). rewrite E' in Eg. unfold put in Eg. rewrite String.eqb_refl in Eg.
      injection Eg as <-. apply dataset_none. intros Hin. apply N1. apply in_map_iff in Hin. destruct Hin as ([m c] & <- & Hin). apply I' in Hin.
      now apply (in_map fst) in Hin. }
    assert (Hk : k = kind_of x \/ k <> kind_of x).
    { assert (kd : forall a c : kind, {a = c} + {a <> c}) by (decide equality; apply Bool.bool_dec). destruct (kd k (kind_of x)); auto. }
    destruct Hk as [-> |Hk].
    + rewrite <- En in F. inversion F; subst. congruence.
    + destruct (names_foreign (kind_of x) k) as (m & A & C); [congruence|]. apply C. rewrite <- En.
      clear - F I A. induction F as [|m' b' ns bs' D F IH]; [contradiction|]. destruct A as [->|A]; [|auto].
      apply dataset_in, I in D. now apply (in_map fst) in D.
Qed.

(** three successful calls; the second write fails; a neutrino object over a file of another kind *)
Definition all_well : H5 := {| h5_open := true; h5_close := true; h5_data := fun _ => true |}.
Definition second_fails : H5 := {| h5_open := true; h5_close := true; h5_data := fun k => negb (Nat.eqb k 1) |}.
Definition small_box (z : Z) : DataBox ER := {| db_dims := [1]; db_ranges := [None]; db_data := [Fin (IZR z)] |}.
Definition small_nu : NuMeanTable ER := {| nm_lPlanck := small_box 1; nm_lRosseland := small_box 2 |}.
Definition small_tables : SpinerTables ER :=
  {| sp_alpha := small_box 3; sp_jnu := small_box 4; sp_J := small_box 5; sp_JYe := small_box 6 |}.
Definition nothing : FileSystem ER := fun _ => None.
Lemma C53_round_trip_example :
  let fs1 := fst (table_save all_well nothing "a" small_tables) in
  let fs2 := fst (neutrino_save true all_well fs1 "a" small_nu) in
  let fs3 := fst (neutrino_save false second_fails fs2 "a" small_nu) in
  no_failure all_well NeutrinoTables /\ table_load all_well fs1 "a" = Ok small_tables /\
  neutrino_load true all_well fs1 "a" = Error /\ neutrino_load true all_well fs2 "a" = Ok small_nu /\
  neutrino_load false all_well fs2 "a" = Error /\ table_load all_well fs2 "a" = Error /\
  snd (neutrino_save false second_fails fs2 "a" small_nu) = Error /\ neutrino_load false all_well fs3 "a" = Error /\
  neutrino_load true all_well fs3 "a" = Error.
Proof. repeat split; reflexivity. Qed.
(** a photon table of two groups *)
Lemma C53_photon_example :
  exists m : MeanTable ER, in_order (fun x => x) m /\ mt_ngroups m = 2 /\
  photon_load true all_well (fst (photon_save true all_well nothing "b" m)) "b" = Ok (remap (fun x => ToLog (FromLog x)) m) /\
  photon_load false all_well (fst (photon_save true all_well nothing "b" m)) "b" = Error.
Proof.
  set (l := [1; 2; 3; 4; 5; 6; 7; 8]%R). set (p := ex_box l).
  destruct (C37_load_proof ER ER_ops _ er_values p p [Fin 0; Fin 1; PInf] (ex_compatible _ _)
    (ex_well_formed l eq_refl) (ex_well_formed l eq_refl)) as [_ H]; [cbn; lia|].
  destruct (H ex_partition) as (m & E & N & _).
  pose proof (C36_loaded_in_order_proof ER ER_ops _ er_values p p _ m (ex_well_formed l eq_refl) (ex_well_formed l eq_refl) E) as IO.
  exists m. split; [exact IO|]. split; [exact N|].
  assert (A : forall k, no_failure all_well k) by (intros k; repeat split).
  destruct (C53_photon_proof ER ER_ops _ er_values all_well all_well nothing "b" true m IO (A _) (A _)) as [S L]. split; [exact L|].
  destruct (C53_failures_proof ER ER_ops all_well nothing "b" (PhotonThing true m)) as [[_ K]|[K _]].
  - exfalso. apply K. exact S.
  - specialize (K (PhotonMeans false) all_well ltac:(discriminate)). cbn [load_as save_thing] in K.
    destruct (photon_load false all_well (fst (photon_save true all_well nothing "b" m)) "b"); cbn [bind] in K; congruence.
Qed.
