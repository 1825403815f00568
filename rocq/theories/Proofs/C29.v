(** C29. Coefficient by frequency agrees with coefficient by group. *)
From Coq Require Import Reals ZArith List Lia Lra Bool.
From Verif Require Import Base.Outcome Base.Ops Inst.ER Inst.ERTac Model.Constants Model.Robust Model.Spiner Model.MeanUtils
  Model.MeanPhotons Model.MeanVariants Model.NonCGSPhotons Spec.Tables Proofs.InterpFacts Proofs.TableFacts Proofs.C35.
Import ListNotations.
Open Scope R_scope.

(** what the property says of an object: every by-frequency call is the by-group call for
    the group GroupOfNu reports, and fails exactly when GroupOfNu fails *)
Definition by_frequency_is_by_group {T} (o : MeanApi T) : Prop :=
  forall (rho temp nu : T) (gmode : Z),
  (forall g, ma_GroupOfNu o nu = Ok g ->
     ma_FromNu o rho temp nu gmode = ma_Coefficient o rho temp g gmode /\
     ma_PlanckFromNu o rho temp nu = ma_PlanckGroup o rho temp g /\
     ma_RosselandFromNu o rho temp nu = ma_RosselandGroup o rho temp g) /\
  (ma_FromNu o rho temp nu gmode = Error <-> ma_GroupOfNu o nu = Error) /\
  (ma_PlanckFromNu o rho temp nu = Error <-> ma_GroupOfNu o nu = Error) /\
  (ma_RosselandFromNu o rho temp nu = Error <-> ma_GroupOfNu o nu = Error).
(** the coefficient of a group never reports an error *)
Definition coefficients_do_not_fail {T} (o : MeanApi T) : Prop :=
  forall rho temp g gmode, ma_Coefficient o rho temp g gmode <> Error.

Lemma interp_no_error {T} {O : Ops T} cs dims d acc : interp cs dims d acc <> Error.
Proof.
  revert dims acc. induction cs as [|[x|i] cs IH]; intros [|[n [g|]] ds] acc; cbn; try discriminate.
  - unfold at_flat. destruct (acc <? 0)%Z; [discriminate|]. unfold load. destruct (nth_error _ _); discriminate.
  - unfold g_weights, g_index. destruct (Otrunc _); cbn [bind]; try discriminate.
    destruct (interp cs ds d _) eqn:E1; cbn [bind]; try discriminate; [|now apply IH in E1].
    destruct (interp cs ds d (acc * n + (_ + 1))) eqn:E2; cbn [bind]; try discriminate. now apply IH in E2.
  - apply IH.
  - apply IH.
Qed.
Lemma group_coefficient_no_error {T} {O : Ops T} b rho temp g : group_coefficient b rho temp g <> Error.
Proof.
  unfold group_coefficient. cbv zeta. unfold interpToReal.
  destruct (interp _ _ _ _) eqn:E; cbn [bind]; try discriminate. now apply interp_no_error in E.
Qed.

Lemma base_no_error {T} {O : Ops T} pc m : coefficients_do_not_fail (mean_api pc m).
Proof.
  intros rho temp g gmode. cbn. unfold mt_Coefficient. destruct (gmode =? Planck)%Z; apply group_coefficient_no_error.
Qed.

Lemma base_agrees {T} {O : Ops T} pc m : by_frequency_is_by_group (mean_api pc m).
Proof.
  assert (N := base_no_error pc m).
  assert (K : forall rho temp nu gmode,
    (forall g, mt_GroupOfNu m nu = Ok g -> mt_CoefficientFromNu m rho temp nu gmode = mt_Coefficient m rho temp g gmode) /\
    (mt_CoefficientFromNu m rho temp nu gmode = Error <-> mt_GroupOfNu m nu = Error)).
  { intros rho temp nu gmode. unfold mt_CoefficientFromNu. destruct (mt_GroupOfNu m nu) as [g| |]; cbn [bind].
    - split; [intros h E; now injection E as ->|]. split; [|discriminate]. intros E. now apply N in E.
    - split; [discriminate|tauto].
    - split; [discriminate|]. split; discriminate. }
  intros rho temp nu gmode. cbn. unfold mt_PlanckFromNu, mt_RosselandFromNu.
  destruct (K rho temp nu gmode) as [A1 A2], (K rho temp nu Planck) as [B1 B2], (K rho temp nu Rosseland) as [C1 C2].
  repeat split; try apply A2; try apply B2; try apply C2.
  - now apply A1.
  - now apply B1.
  - now apply C1.
Qed.

Lemma bind_ok_error {A} (e : result A) (f : A -> A) : (x <- e ;; Ok (f x)) = Error <-> e = Error.
Proof. destruct e; cbn; split; congruence. Qed.

Lemma units_agree {T} {O : Ops T} (o : MeanApi T) u :
  by_frequency_is_by_group o -> by_frequency_is_by_group (MeanNonCGSUnits o u).
Proof.
  intros H.
  assert (K : forall rho temp nu gmode,
    (forall g, ma_GroupOfNu o nu = Ok g -> ma_FromNu o rho temp nu gmode = ma_Coefficient o rho temp g gmode) /\
    (ma_FromNu o rho temp nu gmode = Error <-> ma_GroupOfNu o nu = Error)).
  { intros rho temp nu gmode. destruct (H rho temp nu gmode) as (A & B & _). split; [|exact B]. intros g E. apply (A g E). }
  intros rho temp nu gmode. cbn.
  assert (K' : forall gm, (forall g, ma_GroupOfNu o (nu * un_freq u)%o = Ok g -> 
     ma_FromNu o (un_rho u * rho)%o (un_temp u * temp)%o (nu * un_freq u)%o gm =
     ma_Coefficient o (un_rho u * rho)%o (un_temp u * temp)%o g gm) /\
     (ma_FromNu o (un_rho u * rho)%o (un_temp u * temp)%o (nu * un_freq u)%o gm = Error <->
      ma_GroupOfNu o (nu * un_freq u)%o = Error)) by (intros; apply K).
  split.
  - intros g E. now rewrite (proj1 (K' gmode) g E), (proj1 (K' Planck) g E), (proj1 (K' Rosseland) g E).
  - rewrite !bind_ok_error. repeat split; apply K'.
Qed.

(** The photon mean opacities, absorption and scattering, in any arithmetic. *)
Lemma C29_object_proof :
  forall (T : Type) (O : Ops T) (pc : PhysConst T) (m : MeanTable T),
  by_frequency_is_by_group (mean_api pc m) /\ coefficients_do_not_fail (mean_api pc m).
Proof. intros. split; [apply base_agrees|apply base_no_error]. Qed.

(** Wrapped in any number of unit conversions. *)
Lemma C29_units_proof :
  forall (T : Type) (O : Ops T) (o : MeanApi T) (u : Units T),
  by_frequency_is_by_group o -> by_frequency_is_by_group (MeanNonCGSUnits o u).
Proof. intros. now apply units_agree. Qed.

(** Through the variant, whatever it holds: the variant's own members. *)
Lemma C29_variant_proof :
  forall (T : Type) (O : Ops T) (pc : PhysConst T) (v : MeanAlt T) (rho temp nu : T) (gmode : Z),
  (forall g, mv_GroupOfNu pc v nu = Ok g ->
     mv_FromNu pc v rho temp nu gmode = mv_Coefficient pc v rho temp g gmode /\
     mv_PlanckFromNu pc v rho temp nu = mv_PlanckGroup pc v rho temp g /\
     mv_RosselandFromNu pc v rho temp nu = mv_RosselandGroup pc v rho temp g) /\
  (mv_FromNu pc v rho temp nu gmode = Error <-> mv_GroupOfNu pc v nu = Error) /\
  (mv_PlanckFromNu pc v rho temp nu = Error <-> mv_GroupOfNu pc v nu = Error) /\
  (mv_RosselandFromNu pc v rho temp nu = Error <-> mv_GroupOfNu pc v nu = Error).
Proof.
  intros T O pc v rho temp nu gmode.
  assert (H : by_frequency_is_by_group (mean_visit pc v)).
  { destruct v; cbn; [apply base_agrees|apply units_agree, base_agrees]. }
  unfold mv_GroupOfNu, mv_FromNu, mv_PlanckFromNu, mv_RosselandFromNu, mv_PlanckGroup, mv_RosselandGroup, mv_Coefficient, mv_FromNu.
  destruct (H rho temp nu gmode) as (A1 & A2 & _), (H rho temp nu Planck) as (B1 & B2 & _), (H rho temp nu Rosseland) as (C1 & C2 & _).
  split; [|tauto]. intros g E. split; [apply (A1 g E)|]. split; [apply (B1 g E)|apply (C1 g E)].
Qed.

(** A two-group table split at frequency 1: frequency 2 is in group 1; the coefficient is
    that of group 1. A negative frequency is an error. *)
Lemma C29_object_example : forall pc,
  let m := ex_table [0; 1; 2; 3; 4; 5; 6; 7] in
  ma_GroupOfNu (mean_api pc m) (Fin 2) = Ok 1%Z /\
  ma_FromNu (mean_api pc m) (Fin (10 - tiny)) (Fin (1 - tiny)) (Fin 2) 1 = Ok (Fin ((10 - tiny) * pow10 5)) /\
  ma_FromNu (mean_api pc m) (Fin (10 - tiny)) (Fin (1 - tiny)) (Fin (-1)) 1 = Error.
Proof.
  intros pc m.
  assert (G : ma_GroupOfNu (mean_api pc m) (Fin 2) = Ok 1%Z).
  { cbn -[Oleb Ogeb Oltb]. unfold mt_GroupOfNu, GroupOfNuImpl, GroupBoundAt, m, ex_table. cbn -[Oleb Ogeb Oltb].
    unfold Ogeb. rewrite fin_leb, Rleb_true by lra. cbn -[Oleb Oltb].
    change (Pos.to_nat 2) with 2%nat. cbn -[Oleb Oltb]. change (Fin 2 <=? PInf)%o with true.
    cbn -[Oleb Oltb]. rewrite fin_leb, Rleb_false by lra. change (PInf <=? Fin 2)%o with false.
    cbn -[Oleb Oltb]. change (Pos.to_nat 1) with 1%nat. cbn -[Oleb Oltb]. rewrite fin_ltb, Rltb_false by lra. reflexivity. }
  split; [exact G|]. split.
  - rewrite (proj1 (proj1 (base_agrees pc m _ _ _ _) _ G)). apply C35_node_example.
  - apply (proj2 (proj1 (proj2 (base_agrees pc m _ _ _ _)))).
    cbn -[Oleb Ogeb Oltb]. unfold mt_GroupOfNu, GroupBoundAt, m, ex_table. cbn -[Oleb Ogeb Oltb].
    unfold Ogeb. rewrite fin_leb, Rleb_false by lra. reflexivity.
Qed.
