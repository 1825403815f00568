(** The comparisons of exact arithmetic and of IEEE binary64 are those of the extended
    reals; facts about the extended order and about loops that only test. *)
From Coq Require Import Reals ZArith List Lia Lra Bool.
From Flocq Require Import Core IEEE754.BinarySingleNaN.
From Verif Require Import Base.Outcome Base.Ops Inst.ER Inst.B64 Spec.Groups.
Import ListNotations.
Open Scope R_scope.

Lemma er_values : values ER_ops (fun x => x).
Proof.
  split.
  - intros [x| | |] [y| | |]; cbn; try (split; intros; [exact I|reflexivity]);
      try (split; [discriminate|contradiction]); try tauto.
    apply Rltb_iff.
  - assert (L : forall a b, er_ltb a b = true <-> ltE a b).
    { intros [x| | |] [y| | |]; cbn; try (split; intros; [exact I|reflexivity]);
      try (split; [discriminate|contradiction]); try tauto. apply Rltb_iff. }
    intros a b. cbn [Oleb ER_ops]. unfold er_leb, leE. rewrite orb_true_iff, L.
    apply or_iff_compat_l. destruct a, b; cbn; try (split; [discriminate|intros [E _]; discriminate]);
      try (split; [intros _; split; [reflexivity|discriminate]|reflexivity]);
      try (split; [discriminate|intros [_ N]; exfalso; now apply N]).
    rewrite Reqb_iff. split; [intros ->; split; [reflexivity|discriminate]|].
    intros [E _]. now injection E.
  - intros [x| | |] [y| | |]; cbn; try (split; [discriminate|intros [E _]; discriminate]);
      try (split; [intros _; split; [reflexivity|discriminate]|reflexivity]);
      try (split; [discriminate|intros [_ N]; exfalso; now apply N]).
    rewrite Reqb_iff. split; [intros ->; split; [reflexivity|discriminate]|].
    intros [E _]. now injection E.
  - intros [x| | |]; cbn; split; intros H; try discriminate; reflexivity.
  - intros [x| | |]; cbn; split; intros H; try discriminate; auto; destruct H; discriminate.
  - reflexivity.
Qed.

(** the value of a double *)
Definition b64_val (x : b64) : ER :=
  match x with
  | B754_infinity false => PInf
  | B754_infinity true => NInf
  | B754_nan => NaN
  | _ => Fin (B2R x)
  end.

Lemma b64_val_fin x : is_finite x = true -> b64_val x = Fin (B2R x).
Proof. destruct x as [s|[|]| |s m e H]; cbn; try discriminate; reflexivity. Qed.

Lemma b64_values L : values (B64_ops L) b64_val.
Proof.
  split.
  - intros a b. cbn [Oltb B64_ops].
    destruct (is_finite a) eqn:Fa, (is_finite b) eqn:Fb.
    + rewrite Bltb_correct, !b64_val_fin by assumption. cbn. unfold Rlt_bool.
      destruct (Rcompare_spec (B2R a) (B2R b)); split; intros; try discriminate; try reflexivity; lra.
    + rewrite (b64_val_fin a) by assumption.
      destruct a as [s|[|]| |s m e H], b as [s'|[|]| |s' m' e' H']; try discriminate; cbn;
        try (split; [discriminate|contradiction]); try tauto; destruct s; cbn; tauto.
    + rewrite (b64_val_fin b) by assumption.
      destruct a as [s|[|]| |s m e H], b as [s'|[|]| |s' m' e' H']; try discriminate; cbn;
        try (split; [discriminate|contradiction]); try tauto; destruct s'; cbn; tauto.
    + destruct a as [s|[|]| |s m e H], b as [s'|[|]| |s' m' e' H']; try discriminate; cbn;
        try (split; [discriminate|contradiction]); tauto.
  - intros a b. cbn [Oleb B64_ops].
    destruct (is_finite a) eqn:Fa, (is_finite b) eqn:Fb.
    + rewrite Bleb_correct, !b64_val_fin by assumption. unfold leE, ltE, Rle_bool.
      destruct (Rcompare_spec (B2R a) (B2R b)) as [H|H|H]; split; intros K; try discriminate; try reflexivity.
      * now left.
      * right. split; [now rewrite H|discriminate].
      * destruct K as [K|[K _]]; [lra|]. injection K. intros. lra.
    + rewrite (b64_val_fin a) by assumption. unfold leE.
      destruct a as [s|[|]| |s m e H], b as [s'|[|]| |s' m' e' H']; try discriminate; cbn;
        try destruct s; cbn; split; intros K; try discriminate; auto;
        destruct K as [K|[K _]]; try contradiction; discriminate.
    + rewrite (b64_val_fin b) by assumption. unfold leE.
      destruct a as [s|[|]| |s m e H], b as [s'|[|]| |s' m' e' H']; try discriminate; cbn;
        try destruct s'; cbn; split; intros K; try discriminate; auto;
        destruct K as [K|[K _]]; try contradiction; discriminate.
    + unfold leE. destruct a as [s|[|]| |s m e H], b as [s'|[|]| |s' m' e' H']; try discriminate; cbn;
        split; intros K; try discriminate; auto;
        try (right; split; [reflexivity|discriminate]);
        destruct K as [K|[K N]]; try contradiction; try discriminate; exfalso; now apply N.
  - intros a b. cbn [Oeqb B64_ops].
    destruct (is_finite a) eqn:Fa, (is_finite b) eqn:Fb.
    + rewrite Beqb_correct, !b64_val_fin by assumption. unfold Req_bool.
      destruct (Rcompare_spec (B2R a) (B2R b)) as [H|H|H]; split; intros K; try discriminate; try reflexivity.
      * destruct K as [K _]. injection K. intros. lra.
      * split; [now rewrite H|discriminate].
      * destruct K as [K _]. injection K. intros. lra.
    + rewrite (b64_val_fin a) by assumption.
      destruct a as [s|[|]| |s m e H], b as [s'|[|]| |s' m' e' H']; try discriminate; cbn;
        try destruct s; cbn; split; intros K; try discriminate; destruct K; discriminate.
    + rewrite (b64_val_fin b) by assumption.
      destruct a as [s|[|]| |s m e H], b as [s'|[|]| |s' m' e' H']; try discriminate; cbn;
        try destruct s'; cbn; split; intros K; try discriminate; destruct K; discriminate.
    + destruct a as [s|[|]| |s m e H], b as [s'|[|]| |s' m' e' H']; try discriminate; cbn;
        split; intros K; try discriminate; auto;
        try (split; [reflexivity|discriminate]);
        destruct K as [K N]; try contradiction; try discriminate; exfalso; now apply N.
  - intros [s|[|]| |s m e H]; cbn; split; intros; try discriminate; reflexivity.
  - intros [s|[|]| |s m e H]; cbn; split; intros K; try discriminate; auto; destruct K; discriminate.
  - reflexivity.
Qed.

(** ** The extended order *)
Lemma ltE_trans a b c : ltE a b -> ltE b c -> ltE a c.
Proof. destruct a, b, c; cbn; intros; try tauto; lra. Qed.
Lemma leE_refl a : a <> NaN -> leE a a.
Proof. right. auto. Qed.
Lemma leE_ltE_trans a b c : leE a b -> ltE b c -> ltE a c.
Proof. intros [H|[<- _]] K; [eapply ltE_trans; eauto|exact K]. Qed.
Lemma ltE_leE_trans a b c : ltE a b -> leE b c -> ltE a c.
Proof. intros H [K|[<- _]]; [eapply ltE_trans; eauto|exact H]. Qed.
Lemma leE_trans a b c : leE a b -> leE b c -> leE a c.
Proof. intros H [K|[<- _]]; [left; eapply leE_ltE_trans; eauto|exact H]. Qed.
Lemma ltE_irrefl a : ~ ltE a a.
Proof. destruct a; cbn; auto. apply Rlt_irrefl. Qed.
Lemma leE_not_ltE a b : leE a b -> ~ ltE b a.
Proof. intros H K. apply (ltE_irrefl a). eapply leE_ltE_trans; eauto. Qed.
Lemma not_ltE_leE a b : a <> NaN -> b <> NaN -> ~ ltE a b -> leE b a.
Proof.
  unfold leE. destruct a as [x| | |], b as [y| | |]; cbn; intros Ha Hb N; try (exfalso; now auto); auto;
    try (right; split; [reflexivity|discriminate]).
  destruct (Rtotal_order x y) as [L|[->|L]]; [contradiction| |left; lra].
  right; split; [reflexivity|discriminate].
Qed.
Lemma ltE_not_nan a b : ltE a b -> a <> NaN /\ b <> NaN.
Proof. destruct a, b; cbn; intros; split; try discriminate; contradiction. Qed.
Lemma leE_not_nan a b : leE a b -> a <> NaN /\ b <> NaN.
Proof. intros [H|[<- N]]; [now apply (ltE_not_nan a b)|auto]. Qed.

(** ** Loops that only test *)
Lemma for_from_unit_ok n i (body : nat -> result unit) :
  for_from n i (fun g _ => body g) tt = Ok tt <-> (forall g, (i <= g < i + n)%nat -> body g = Ok tt).
Proof.
  revert i. induction n as [|n IH]; intros i; cbn.
  - split; [intros _ g H; lia|reflexivity].
  - destruct (body i) as [[]| |] eqn:E; cbn.
    + rewrite IH. split; intros H g Hg.
      * destruct (Nat.eq_dec g i) as [->|]; [exact E|]. apply H. lia.
      * apply H. lia.
    + split; [discriminate|]. intros H. rewrite <- E. apply H. lia.
    + split; [discriminate|]. intros H. rewrite <- E. apply H. lia.
Qed.

Lemma for_from_unit_cases n i (body : nat -> result unit) :
  (forall g, (i <= g < i + n)%nat -> body g <> UB) -> for_from n i (fun g _ => body g) tt <> UB.
Proof.
  revert i. induction n as [|n IH]; intros i H; cbn; [discriminate|].
  destruct (body i) as [[]| |] eqn:E; cbn.
  - apply IH. intros g Hg. apply H. lia.
  - discriminate.
  - exfalso. apply (H i); [lia|exact E].
Qed.
