(** Group bounds: validation, storage and search, for any arithmetic whose comparisons
    are those of the extended reals. *)
From Coq Require Import Reals ZArith List Lia Lra Bool.
From Verif Require Import Base.Outcome Base.Ops Inst.ER Model.Constants Model.Robust Model.Spiner Model.MeanUtils
  Model.MeanPhotons Spec.Groups Proofs.OrderLaws.
Import ListNotations.
Open Scope R_scope.

Section Groups.
  Context {T : Type} {O : Ops T} {val : T -> ER} (V : values O val).

  Lemma GroupBoundAt_ok (gb : list T) (g : nat) : (g < length gb)%nat ->
    exists x, GroupBoundAt gb (Z.of_nat g) = Ok x /\ nth_error gb g = Some x.
  Proof.
    intros H. unfold GroupBoundAt. destruct (Z.ltb_spec (Z.of_nat g) 0); [lia|].
    rewrite Nat2Z.id. unfold load. destruct (nth_error gb g) as [x|] eqn:E.
    - exists x. auto.
    - apply nth_error_None in E. lia.
  Qed.

  (** what one pass of the validation loop accepts *)
  Definition good_edge (b : nat -> ER) (n g : nat) : Prop :=
    b g <> NaN /\ b g <> NInf /\ (g = 0%nat -> leE (Fin 0) (b g)) /\
    (forall k, g = S k -> ltE (b k) (b g)) /\ (b g = PInf -> g = n).

  Lemma not_true b : b <> true -> b = false.
  Proof. destruct b; [intros H; now destruct H|reflexivity]. Qed.

  Lemma validate_bound_spec (gb : list T) (ng : Z) (g : nat) :
    (g < length gb)%nat -> (0 < ng)%Z ->
    (validate_bound gb ng g = Ok tt <-> good_edge (edge val gb) (Z.to_nat ng) g) /\
    validate_bound gb ng g <> UB.
  Proof.
    intros Hg Hn. unfold validate_bound. destruct (GroupBoundAt_ok gb g Hg) as (x & -> & Ex).
    cbn [bind]. assert (Eb : edge val gb g = val x) by (unfold edge; now rewrite Ex).
    unfold good_edge. rewrite Eb.
    destruct (Oisnan x) eqn:N.
    { apply (val_nan _ _ V) in N. split; [|discriminate]. split; [discriminate|]. intros (H & _). contradiction. }
    assert (Nx : val x <> NaN) by (intros E; apply (val_nan _ _ V) in E; congruence).
    destruct (Oisinf x && Oltb x (OofZ 0)) eqn:M.
    { apply andb_true_iff in M. destruct M as [M1 M2]. apply (val_inf _ _ V) in M1. apply (val_ltb _ _ V) in M2.
      rewrite (val_0 _ _ V) in M2. split; [|discriminate]. split; [discriminate|]. intros (_ & H & _).
      destruct M1 as [E|E]; [rewrite E in M2; cbn in M2; contradiction|contradiction]. }
    assert (Mx : val x <> NInf).
    { intros E. apply andb_false_iff in M. destruct M as [M|M].
      - assert (Oisinf x = true) by (apply (val_inf _ _ V); auto). congruence.
      - assert (Oltb x (OofZ 0) = true) by (apply (val_ltb _ _ V); rewrite E, (val_0 _ _ V); exact I). congruence. }
    (* last test *)
    assert (F : negb (Oisfinite x) && negb (Z.of_nat g =? ng)%Z = true <-> ~ (val x = PInf -> g = Z.to_nat ng)).
    { unfold Oisfinite. rewrite N. cbn [negb andb]. rewrite negb_involutive, andb_true_iff, negb_true_iff, Z.eqb_neq.
      rewrite (val_inf _ _ V). split.
      - intros [[E|E] K] A; [|contradiction]. specialize (A E). lia.
      - intros A. split.
        + destruct (val x) eqn:E; auto; exfalso; apply A; intros; discriminate.
        + intros E. apply A. intros _. lia. }
    destruct (Nat.eqb_spec g 0) as [->|G0].
    - destruct (Ogeb x (OofZ 0)) eqn:B; cbn [negb bind].
      + apply (val_leb _ _ V) in B. rewrite (val_0 _ _ V) in B.
        destruct (negb (Oisfinite x) && negb (Z.of_nat 0 =? ng)%Z) eqn:L.
        * pose proof (proj1 F eq_refl) as L'. split; [|discriminate]. split; [discriminate|]. intros (_ & _ & _ & _ & H). contradiction.
        * split; [|discriminate]. split; [intros _|reflexivity].
          split; [exact Nx|]. split; [exact Mx|]. split; [intros _; exact B|]. split; [intros; discriminate|].
          destruct (Nat.eq_dec 0 (Z.to_nat ng)); [intros; assumption|].
          intros E. assert (~ (val x = PInf -> 0%nat = Z.to_nat ng)) by auto.
          discriminate (proj2 F H).
      + split; [|discriminate]. split; [discriminate|]. intros (_ & _ & H & _).
        specialize (H eq_refl). rewrite <- (val_0 _ _ V) in H. apply (val_leb _ _ V) in H. unfold Ogeb in B. congruence.
    - destruct g as [|k]; [lia|]. replace (Z.of_nat (S k) - 1)%Z with (Z.of_nat k) by lia.
      destruct (GroupBoundAt_ok gb k) as (y & -> & Ey); [lia|]. cbn [bind].
      assert (Ek : edge val gb k = val y) by (unfold edge; now rewrite Ey).
      destruct (Ogtb x y) eqn:B; cbn [negb bind].
      + apply (val_ltb _ _ V) in B.
        destruct (negb (Oisfinite x) && negb (Z.of_nat (S k) =? ng)%Z) eqn:L.
        * pose proof (proj1 F eq_refl) as L'. split; [|discriminate]. split; [discriminate|]. intros (_ & _ & _ & _ & H). contradiction.
        * split; [|discriminate]. split; [intros _|reflexivity].
          split; [exact Nx|]. split; [exact Mx|]. split; [intros; discriminate|].
          split; [intros k' E; injection E as <-; now rewrite Ek|].
          destruct (Nat.eq_dec (S k) (Z.to_nat ng)); [intros; assumption|].
          intros E. assert (~ (val x = PInf -> S k = Z.to_nat ng)) by auto. discriminate (proj2 F H).
      + split; [|discriminate]. split; [discriminate|]. intros (_ & _ & _ & H & _).
        specialize (H k eq_refl). rewrite Ek in H. apply (val_ltb _ _ V) in H. unfold Ogtb in B. congruence.
  Qed.

  Lemma partition_good (b : nat -> ER) (n : nat) : (0 < n)%nat ->
    (partition b n <-> forall g, (g <= n)%nat -> good_edge b n g).
  Proof.
    intros Hn. split.
    - intros [_ P] g Hg. destruct (Nat.eq_dec g n) as [->|].
      + destruct n as [|k]; [lia|]. destruct (P k) as (lo & El & H0 & [(hi & Eh & H)|[_ Eh]]); [lia| |].
        * unfold good_edge. rewrite Eh. repeat split; try discriminate.
          intros k' E. injection E as <-. rewrite El. exact H.
        * unfold good_edge. rewrite Eh. repeat split; try discriminate.
          intros k' E. injection E as <-. rewrite El. exact I.
      + destruct (P g) as (lo & El & H0 & _); [lia|]. unfold good_edge. rewrite El.
        repeat split; try discriminate.
        * intros _. destruct (Req_dec 0 lo) as [<-|]; [right; split; [reflexivity|discriminate]|left; cbn; lra].
        * intros k ->. destruct (P k) as (lo' & El' & _ & [(hi & Eh & H)|[E _]]); [lia| |lia].
          rewrite El'. rewrite El in Eh. injection Eh as <-. exact H.
    - intros G. split; [exact Hn|].
      assert (P : forall g, (g < n)%nat -> exists lo, b g = Fin lo /\ 0 <= lo).
      { induction g as [|k IH]; intros Hg.
        - destruct (G 0%nat) as (A & B & C & D & E); [lia|]. specialize (C eq_refl).
          destruct (b 0%nat) as [lo| | |] eqn:Eb; try contradiction.
          + exists lo. split; [reflexivity|]. destruct C as [C|[C _]]; [cbn in C; lra|injection C; intros; lra].
          + specialize (E eq_refl). lia.
        - destruct IH as (lo & El & H0); [lia|].
          destruct (G (S k)) as (A & B & C & D & E); [lia|]. specialize (D k eq_refl). rewrite El in D.
          destruct (b (S k)) as [hi| | |] eqn:Eb; try contradiction.
          + exists hi. cbn in D. split; [reflexivity|lra].
          + specialize (E eq_refl). lia. }
      intros g Hg. destruct (P g Hg) as (lo & El & H0). exists lo. split; [exact El|]. split; [exact H0|].
      destruct (G (S g)) as (A & B & C & D & E); [lia|]. specialize (D g eq_refl). rewrite El in D.
      destruct (b (S g)) as [hi| | |] eqn:Eb; try contradiction.
      + left. exists hi. auto.
      + right. split; [now apply E|reflexivity].
  Qed.

  Lemma Validate_spec (gb : list T) (ng : Z) : (ng < Z.of_nat (length gb))%Z ->
    (ValidateGroupBounds gb ng = Ok tt <-> partition (edge val gb) (Z.to_nat ng)) /\
    ValidateGroupBounds gb ng <> UB.
  Proof.
    intros L. unfold ValidateGroupBounds. destruct (Z.leb_spec ng 0) as [H|H].
    - split; [|discriminate]. split; [discriminate|]. intros [K _]. lia.
    - unfold for_int, for_loop. rewrite for_from_unit_ok, partition_good by lia. split.
      + split; intros G g Hg; apply (validate_bound_spec gb ng g); try lia; apply G; lia.
      + apply for_from_unit_cases. intros g Hg. apply validate_bound_spec; lia.
  Qed.

  Lemma Validate_error (gb : list T) (ng : Z) : (ng < Z.of_nat (length gb))%Z ->
    ~ partition (edge val gb) (Z.to_nat ng) -> ValidateGroupBounds gb ng = Error.
  Proof.
    intros L N. destruct (Validate_spec gb ng L) as [[H _] U].
    destruct (ValidateGroupBounds gb ng) as [[]| |]; [exfalso; auto|reflexivity|congruence].
  Qed.

  (** SetGroupBounds copies exactly the first ngroups + 1 numbers *)
  Lemma set_from (gb : list T) n i out :
    (i + n <= length gb)%nat ->
    for_from n i (fun g out => b <- GroupBoundAt gb (Z.of_nat g) ;; Ok (out ++ [b])) out =
    Ok (out ++ firstn n (skipn i gb)).
  Proof.
    revert i out. induction n as [|n IH]; intros i out H; cbn [for_from].
    - now rewrite firstn_O, app_nil_r.
    - destruct (GroupBoundAt_ok gb i) as (x & -> & Ex); [lia|]. cbn [bind]. rewrite IH by lia.
      f_equal. rewrite <- app_assoc. f_equal.
      rewrite <- (firstn_skipn i gb) in Ex.
      assert (Li : length (firstn i gb) = i) by (rewrite firstn_length; lia).
      rewrite nth_error_app2 in Ex by lia. rewrite Li, Nat.sub_diag in Ex.
      destruct (skipn i gb) as [|y l] eqn:Es; [discriminate|]. cbn in Ex. injection Ex as ->.
      cbn. f_equal. f_equal.
      clear -Es. revert i Es. induction gb as [|a gb IH]; intros [|i] Es; cbn in Es; try discriminate.
      + now injection Es.
      + now apply IH.
  Qed.
  Lemma Set_spec (gb : list T) (ng : Z) : (0 <= ng < Z.of_nat (length gb))%Z ->
    SetGroupBounds gb ng = Ok (firstn (Z.to_nat (ng + 1)) gb).
  Proof. intros H. unfold SetGroupBounds, for_int, for_loop. rewrite set_from by lia. reflexivity. Qed.

  Lemma edge_firstn (gb : list T) (ng : Z) (g : nat) : (0 <= ng)%Z -> (g <= Z.to_nat ng)%nat ->
    edge val (firstn (Z.to_nat (ng + 1)) gb) g = edge val gb g.
  Proof.
    intros Hn Hg. unfold edge. replace (nth_error (firstn (Z.to_nat (ng + 1)) gb) g) with (nth_error gb g); [reflexivity|].
    assert (H : (g < Z.to_nat (ng + 1))%nat) by lia. revert H. generalize (Z.to_nat (ng + 1)). clear.
    intros n H. revert gb g H. induction n as [|n IH]; intros gb g H; [lia|].
    destruct gb as [|x gb]; [reflexivity|]. destruct g; cbn; [reflexivity|]. apply IH. lia.
  Qed.

  Lemma partition_ext (b b' : nat -> ER) n : (forall g, (g <= n)%nat -> b g = b' g) ->
    partition b n -> partition b' n.
  Proof.
    intros E [Hn P]. split; [exact Hn|]. intros g Hg. rewrite <- !E by lia. now apply P.
  Qed.

  (** ** Order facts of a partition *)
  Lemma partition_incr b n : partition b n -> forall i j, (i < j <= n)%nat -> ltE (b i) (b j).
  Proof.
    intros [_ P] i j. induction j as [|j IH]; intros H; [lia|].
    assert (S : ltE (b j) (b (S j))).
    { destruct (P j) as (lo & El & _ & [(hi & Eh & K)|[_ Eh]]); [lia| |]; rewrite El, Eh; cbn; auto. }
    destruct (Nat.eq_dec i j) as [->|]; [exact S|]. eapply ltE_trans; [apply IH; lia|exact S].
  Qed.
  Lemma partition_le b n : partition b n -> forall i j, (i <= j <= n)%nat -> leE (b i) (b j).
  Proof.
    intros P i j H. destruct (Nat.eq_dec i j) as [<-|]; [|left; eapply partition_incr; eauto; lia].
    apply leE_refl. destruct (proj1 (partition_good b n (proj1 P)) P i) as (N & _); [lia|exact N].
  Qed.

  Lemma in_group_unique b n g h nu : partition b n -> in_group b n g nu -> in_group b n h nu -> g = h.
  Proof.
    intros P. assert (K : forall g h, in_group b n g nu -> in_group b n h nu -> (g < h)%nat -> False).
    { clear g h. intros g h (G1 & G2 & G3) (H1 & H2 & H3) L.
      destruct G3 as [G3|[G3 _]]; [|lia].
      assert (leE (b (S g)) (b h)) by (apply (partition_le b n P); lia).
      apply (ltE_irrefl nu). eapply ltE_leE_trans; [exact G3|]. eapply leE_trans; eauto. }
    intros G H. destruct (Nat.lt_trichotomy g h) as [L|[E|L]]; [exfalso; eauto|exact E|exfalso; eauto].
  Qed.

  (** ** The binary search *)
  Lemma search_spec (gb : list T) (nu : T) (n : nat) :
    partition (edge val gb) n -> (n < length gb)%nat -> (Z.of_nat n <= 2 ^ 30)%Z ->
    forall fuel lo hi, (lo < hi <= n)%nat -> (hi - lo <= fuel)%nat ->
    leE (edge val gb lo) (val nu) -> ltE (val nu) (edge val gb hi) ->
    exists g, group_search fuel gb nu (Z.of_nat lo) (Z.of_nat hi) = Ok (Z.of_nat g) /\ (lo <= g < hi)%nat /\
      leE (edge val gb g) (val nu) /\ ltE (val nu) (edge val gb (S g)).
  Proof.
    intros P L B. induction fuel as [|k IH]; intros lo hi R F Hl Hh; [lia|].
    cbn [group_search]. destruct (Z.ltb_spec 1 (Z.of_nat hi - Z.of_nat lo)) as [W|W].
    - assert (If : int_fits (Z.of_nat lo + Z.of_nat hi) = true).
      { unfold int_fits. apply andb_true_iff. split; [apply Z.leb_le|apply Z.ltb_lt]; lia. }
      rewrite If. cbv zeta.
      assert (Eq : Z.quot (Z.of_nat lo + Z.of_nat hi) 2 = Z.of_nat (Nat.div2 (lo + hi))).
      { rewrite Z.quot_div_nonneg by lia. rewrite <- Nat2Z.inj_add.
        rewrite Nat.div2_div, Nat2Z.inj_div. reflexivity. }
      rewrite Eq. set (mid := Nat.div2 (lo + hi)).
      assert (M : (lo < mid < hi)%nat).
      { unfold mid. rewrite Nat.div2_div. pose proof (Nat.div_mod (lo + hi) 2 ltac:(lia)).
        pose proof (Nat.mod_upper_bound (lo + hi) 2 ltac:(lia)). lia. }
      destruct (GroupBoundAt_ok gb mid) as (x & -> & Ex); [lia|]. cbn [bind].
      assert (Em : edge val gb mid = val x) by (unfold edge; now rewrite Ex).
      destruct (Oltb nu x) eqn:C.
      + apply (val_ltb _ _ V) in C. rewrite <- Em in C.
        destruct (IH lo mid) as (g & E & G1 & G2 & G3); try lia; auto.
        exists g. repeat split; auto; lia.
      + assert (C' : leE (edge val gb mid) (val nu)).
        { apply not_ltE_leE.
          - apply (ltE_not_nan _ _ Hh).
          - apply (proj1 (partition_good _ n (proj1 P)) P mid). lia.
          - rewrite Em. intros K. apply (val_ltb _ _ V) in K. congruence. }
        destruct (IH mid hi) as (g & E & G1 & G2 & G3); try lia; auto.
        exists g. repeat split; auto; lia.
    - exists lo. assert (hi = S lo) by lia. subst hi. repeat split; auto.
  Qed.

  Lemma GroupOfNuImpl_spec (gb : list T) (ng : Z) (nu : T) :
    partition (edge val gb) (Z.to_nat ng) -> (ng < Z.of_nat (length gb))%Z -> (ng <= 2 ^ 30)%Z ->
    covered (edge val gb) (Z.to_nat ng) (val nu) ->
    exists g, GroupOfNuImpl gb ng nu = Ok (Z.of_nat g) /\ in_group (edge val gb) (Z.to_nat ng) g (val nu).
  Proof.
    intros P L B [C0 Cn]. pose proof (proj1 P) as Hn. set (n := Z.to_nat ng) in *.
    assert (En : ng = Z.of_nat n) by (unfold n; lia).
    unfold GroupOfNuImpl. change 0%Z with (Z.of_nat 0).
    destruct (GroupBoundAt_ok gb 0) as (x & -> & Ex); [lia|]. cbn [bind].
    assert (E0 : edge val gb 0 = val x) by (unfold edge; now rewrite Ex).
    destruct (Oleb nu x) eqn:H0.
    { exists 0%nat. split; [reflexivity|]. apply (val_leb _ _ V) in H0. rewrite <- E0 in H0.
      split; [lia|]. split; [exact C0|]. left. eapply leE_ltE_trans; [exact H0|]. apply (partition_incr _ n P). lia. }
    rewrite En. destruct (GroupBoundAt_ok gb n) as (y & -> & Ey); [lia|]. cbn [bind].
    assert (Ey' : edge val gb n = val y) by (unfold edge; now rewrite Ey).
    destruct (Ogeb nu y) eqn:H1.
    { apply (val_leb _ _ V) in H1. exists (n - 1)%nat. split; [f_equal; lia|].
      split; [lia|]. replace (S (n - 1)) with n by lia. split; [|right; auto].
      eapply leE_trans; [|rewrite <- Ey' in H1; exact H1]. apply (partition_le _ n P). lia. }
    rewrite Nat2Z.id.
    assert (Hlt : ltE (val nu) (edge val gb n)).
    { destruct Cn as [K|[K N]]; [exact K|]. exfalso. rewrite Ey' in K.
      assert (Ogeb nu y = true); [|congruence]. apply (val_leb _ _ V). right. split; [now symmetry|congruence]. }
    destruct (search_spec gb nu n P ltac:(lia) ltac:(lia) n 0 n ltac:(lia) ltac:(lia) C0 Hlt)
      as (g & -> & G1 & G2 & G3).
    exists g. split; [reflexivity|]. split; [lia|]. auto.
  Qed.

  (** ** Objects that exist have accepted bounds *)
  Lemma Validate_length (gb : list T) (ng : Z) :
    ValidateGroupBounds gb ng = Ok tt -> (0 < ng < Z.of_nat (length gb))%Z.
  Proof.
    unfold ValidateGroupBounds. destruct (Z.leb_spec ng 0) as [H|H]; [discriminate|].
    unfold for_int, for_loop. rewrite for_from_unit_ok. intros G. split; [exact H|].
    specialize (G (Z.to_nat ng) ltac:(lia)). unfold validate_bound, GroupBoundAt in G.
    destruct (Z.ltb_spec (Z.of_nat (Z.to_nat ng)) 0); [discriminate|]. rewrite Nat2Z.id in G. unfold load in G.
    destruct (nth_error gb (Z.to_nat ng)) eqn:E; [|discriminate].
    assert (nth_error gb (Z.to_nat ng) <> None) by congruence. apply nth_error_Some in H1. lia.
  Qed.

  (** the bounds of m are the first ngroups + 1 numbers of gb, and were accepted *)
  Definition bounds_from (gb : list T) (m : MeanTable T) : Prop :=
    mt_bounds m = firstn (Z.to_nat (mt_ngroups m + 1)) gb /\
    ValidateGroupBounds gb (mt_ngroups m) = Ok tt.

  Lemma bounds_from_partition gb m : bounds_from gb m ->
    partition (edge val (mt_bounds m)) (Z.to_nat (mt_ngroups m)) /\
    partition (edge val gb) (Z.to_nat (mt_ngroups m)) /\
    length (mt_bounds m) = Z.to_nat (mt_ngroups m + 1) /\ (0 < mt_ngroups m)%Z.
  Proof.
    intros [E A]. pose proof (Validate_length _ _ A) as L.
    assert (P : partition (edge val gb) (Z.to_nat (mt_ngroups m))) by (apply Validate_spec; [lia|exact A]).
    split; [|split; [exact P|]].
    - rewrite E. apply (partition_ext (edge val gb)); [|exact P]. intros g Hg. rewrite edge_firstn by lia. reflexivity.
    - rewrite E, firstn_length. split; lia.
  Qed.

  Lemma GroupOfNu_spec (m : MeanTable T) (nu : T) :
    let b := edge val (mt_bounds m) in let n := Z.to_nat (mt_ngroups m) in
    partition b n -> (mt_ngroups m < Z.of_nat (length (mt_bounds m)))%Z -> (mt_ngroups m <= 2 ^ 30)%Z ->
    (covered b n (val nu) -> exists g, mt_GroupOfNu m nu = Ok (Z.of_nat g) /\ in_group b n g (val nu)) /\
    (~ covered b n (val nu) -> mt_GroupOfNu m nu = Error).
  Proof.
    cbv zeta. intros P L B. pose proof (proj1 P) as Hn.
    set (gb := mt_bounds m) in *. set (n := Z.to_nat (mt_ngroups m)) in *.
    assert (En : mt_ngroups m = Z.of_nat n) by (unfold n; lia).
    assert (D : forall nu0, exists inside,
      (b0 <- GroupBoundAt gb 0 ;;
       (if Ogeb nu0 b0 then bn <- GroupBoundAt gb (mt_ngroups m) ;; Ok (Oleb nu0 bn) else Ok false)) = Ok inside /\
      (inside = true <-> covered (edge val gb) n (val nu0))).
    { intros nu0. change 0%Z with (Z.of_nat 0). destruct (GroupBoundAt_ok gb 0) as (x & -> & Ex); [lia|]. cbn [bind].
      assert (E0 : edge val gb 0 = val x) by (unfold edge; now rewrite Ex).
      rewrite En. destruct (GroupBoundAt_ok gb n) as (y & -> & Ey); [lia|]. cbn [bind].
      assert (Ey' : edge val gb n = val y) by (unfold edge; now rewrite Ey).
      unfold covered. rewrite E0, Ey'. destruct (Ogeb nu0 x) eqn:H0.
      - eexists. split; [reflexivity|]. apply (val_leb _ _ V) in H0. rewrite (val_leb _ _ V). tauto.
      - eexists. split; [reflexivity|]. split; [discriminate|]. intros [K _].
        apply (val_leb _ _ V) in K. unfold Ogeb in H0. congruence. }
    destruct (D nu) as (ins & Ei & Hi).
    assert (Eg : mt_GroupOfNu m nu = if negb ins then Error else GroupOfNuImpl gb (mt_ngroups m) nu).
    { unfold mt_GroupOfNu. fold gb. destruct (GroupBoundAt gb 0) as [b0| |]; cbn [bind] in *; try discriminate.
      rewrite Ei. reflexivity. }
    rewrite Eg. split.
    - intros C. apply Hi in C as C'. rewrite C'. cbn [negb].
      destruct (GroupOfNuImpl_spec gb (mt_ngroups m) nu) as (g & E & G); auto. exists g. auto.
    - intros N. destruct ins; [exfalso; apply N; now apply Hi|reflexivity].
  Qed.
End Groups.

(** every constructor leaves accepted bounds *)
Lemma LoadTables_bounds {T} {O : Ops T} (p r : DataBox T) gb m :
  LoadTables p r gb = Ok m -> bounds_from gb m /\ mt_ngroups m = db_dim p 1.
Proof.
  unfold LoadTables. destruct (validate_tables p r) as [[]| |]; cbn [bind]; try discriminate.
  destruct (ValidateGroupBounds gb (db_dim p 1)) as [[]| |] eqn:A; cbn [bind]; try discriminate.
  pose proof (Validate_length _ _ A) as L. rewrite Set_spec by lia. cbn [bind].
  destruct (map_tables ToLog (db_size p) (db_data p) (db_data r)) as [d| |]; cbn [bind]; try discriminate.
  intros E. injection E as <-. unfold bounds_from. cbn. auto.
Qed.
Lemma MeanImpl_bounds {T} {O : Ops T} pc dbg opc coef a b c d e f gb ng N m :
  MeanImpl pc dbg opc coef a b c d e f gb ng N = Ok m -> bounds_from gb m /\ mt_ngroups m = ng.
Proof.
  unfold MeanImpl. destruct (dbg && _); [discriminate|]. destruct (N <? 2)%Z; [discriminate|].
  destruct (ValidateGroupBounds gb ng) as [[]| |] eqn:A; cbn [bind]; try discriminate.
  pose proof (Validate_length _ _ A) as L. rewrite Set_spec by lia. cbn [bind].
  destruct (mk_grid d e f) as [gT| |]; cbn [bind]; try discriminate.
  destruct (mk_grid a b c) as [gR| |]; cbn [bind]; try discriminate.
  destruct (fill_tables _ _ _ _ _ _ _ _ _ _) as [dd| |]; cbn [bind]; try discriminate.
  intros E. injection E as <-. unfold bounds_from. cbn. auto.
Qed.
Lemma LoadFile_bounds {T} {O : Ops T} f m :
  LoadFile f = Ok m -> exists gb, bounds_from gb m.
Proof.
  destruct f as [[[p|] [r|] [gb|]]|]; cbn; try discriminate. intros H.
  exists gb. now apply (LoadTables_bounds p r).
Qed.
