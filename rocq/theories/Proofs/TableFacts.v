(** Lemmas on the mean-opacity tables. *)
From Coq Require Import Reals ZArith List Lia Lra Bool.
From Verif Require Import Base.Outcome Base.Ops Inst.ER Inst.ERTac Model.Constants Model.Robust Model.RadTypes
  Model.Spiner Model.MeanUtils Model.MeanPhotons Model.MeanNeutrinos Spec.Tables Proofs.ArrayFacts Proofs.GroupFacts
  Proofs.InterpFacts.
Import ListNotations.
Open Scope R_scope.

Section AnyOps.
  Context {T : Type} {O : Ops T}.

  Lemma at_flat_nth (d : list T) i : (i < length d)%nat -> exists v, at_flat d (Z.of_nat i) = Ok v /\ nth_error d i = Some v.
  Proof.
    intros H. unfold at_flat. destruct (Z.ltb_spec (Z.of_nat i) 0); [lia|]. rewrite Nat2Z.id. now apply load_ok.
  Qed.
  Lemma at_flat_ub (d : list T) i : (length d <= i)%nat -> at_flat d (Z.of_nat i) = UB.
  Proof.
    intros H. unfold at_flat. destruct (Z.ltb_spec (Z.of_nat i) 0); [lia|]. rewrite Nat2Z.id. now apply load_ub.
  Qed.

  Lemma firstn_S_nth (d : list T) i v : nth_error d i = Some v -> firstn (S i) d = firstn i d ++ [v].
  Proof.
    revert i. induction d as [|x d IH]; intros [|i] H; try discriminate.
    - cbn in H. injection H as ->. reflexivity.
    - cbn in H. change (firstn (S (S i)) (x :: d)) with (x :: firstn (S i) d). rewrite (IH i H). reflexivity.
  Qed.

  Lemma map_tables_ok (f : T -> T) (n : Z) (p r : list T) :
    (n <= Z.of_nat (length p))%Z -> (n <= Z.of_nat (length r))%Z ->
    map_tables f n p r = Ok (map f (firstn (Z.to_nat n) p), map f (firstn (Z.to_nat n) r)).
  Proof.
    intros Hp Hr. unfold map_tables, for_int.
    destruct (for_loop_inv (fun i acc => acc = (map f (firstn i p), map f (firstn i r))) (Z.to_nat n)
      (fun i acc => a <- at_flat p (Z.of_nat i) ;; b <- at_flat r (Z.of_nat i) ;; Ok (fst acc ++ [f a], snd acc ++ [f b])) ([], []))
      as (s & E & ->); [reflexivity| |exact E].
    intros i s Hi ->. destruct (at_flat_nth p i ltac:(lia)) as (v & E1 & N1), (at_flat_nth r i ltac:(lia)) as (w & E2 & N2).
    rewrite E1, E2. cbn [bind fst snd]. eexists. split; [reflexivity|].
    rewrite (firstn_S_nth _ _ _ N1), (firstn_S_nth _ _ _ N2), !map_app. reflexivity.
  Qed.

  Lemma map_tables_self (f : T -> T) (p r : list T) : length p = length r ->
    map_tables f (Z.of_nat (length p)) p r = Ok (map f p, map f r).
  Proof.
    intros H. rewrite map_tables_ok by lia. rewrite Nat2Z.id, firstn_all, H, firstn_all. reflexivity.
  Qed.
End AnyOps.

Lemma ToLog_fin x : ToLog (Fin x) = Fin (log10 (Rabs x + tiny)).
Proof.
  unfold ToLog. rewrite fin_abs, fin_ofZ, fin_min, fin_mul, fin_add. fold tiny.
  rewrite fin_log10; [reflexivity|]. pose proof tiny_pos. pose proof (Rabs_pos x). lra.
Qed.
Lemma ToLog_pos x : 0 <= x -> ToLog (Fin x) = Fin (log10 (x + tiny)).
Proof. intros H. now rewrite ToLog_fin, Rabs_pos_eq. Qed.
Lemma FromLog_fin x : FromLog (Fin x) = Fin (pow10 x).
Proof. unfold FromLog. rewrite fin_ofZ, fin_pow by lra. reflexivity. Qed.

Lemma stores_map dims d : forall acc f, stores dims d acc f ->
  stores dims (map ToLog d) acc (fun is => log10 (Rabs (f is) + tiny)).
Proof.
  induction dims as [|D ds IH]; intros acc f H.
  - cbn [stores] in *. unfold at_flat in *. destruct (acc <? 0)%Z; [discriminate|].
    unfold load in *. rewrite nth_error_map. destruct (nth_error d (Z.to_nat acc)) as [v|]; [|discriminate].
    injection H as ->. cbn [option_map]. now rewrite ToLog_fin.
  - intros i Hi. cbn [stores] in H. apply (IH _ (fun is => f (i :: is)) (H i Hi)).
Qed.

Lemma interp_holds b dims f cs : holds b dims f -> Forall rd_ok dims -> query_ok cs dims ->
  interpToReal b (map coord_of cs) = Ok (Fin (mlin cs dims f)).
Proof.
  intros [E S] W Q. unfold interpToReal. rewrite E. now apply interp_mlin.
Qed.

Lemma holds_log p dims f d : holds p dims f -> d = map ToLog (db_data p) ->
  holds (with_data p d) dims (fun is => log10 (Rabs (f is) + tiny)).
Proof.
  intros [E S] ->. split; [exact E|]. now apply stores_map.
Qed.

(** the mean-opacity lookups *)
Definition photon_axes (gR gT : rgrid) (n : Z) : list rdim := [Axis gR; Axis gT; Index n].
Definition photon_query (rho temp : R) (g : Z) : list rcoord :=
  [Pos (log10 (rho + tiny)); Pos (log10 (temp + tiny)); Num g].
Definition neutrino_axes (gR gT gY : rgrid) : list rdim := [Axis gR; Axis gT; Axis gY; Index 3].
Definition neutrino_query (rho temp Ye : R) (type : RadiationType) : list rcoord :=
  [Pos (log10 (rho + tiny)); Pos (log10 (temp + tiny)); Pos Ye; Num (RadType2Idx type)].

Lemma group_coefficient_mlin b gR gT n f rho temp g : holds b (photon_axes gR gT n) f ->
  rg_ok gR -> rg_ok gT -> 0 <= rho -> 0 <= temp -> query_ok (photon_query rho temp g) (photon_axes gR gT n) ->
  group_coefficient b (Fin rho) (Fin temp) g =
  Ok (Fin (rho * pow10 (mlin (photon_query rho temp g) (photon_axes gR gT n) f))).
Proof.
  intros H R1 R2 P1 P2 Q. unfold group_coefficient. cbv zeta. rewrite !ToLog_pos by assumption.
  change [Along (Fin (log10 (rho + tiny))); Along (Fin (log10 (temp + tiny))); At g]
    with (map coord_of (photon_query rho temp g)).
  rewrite (interp_holds b _ f _ H) by (assumption || (unfold photon_axes, neutrino_axes; repeat (apply Forall_cons; [cbn; auto|]); apply Forall_nil)).
  cbn [bind]. rewrite FromLog_fin, fin_mul. reflexivity.
Qed.

Lemma nm_lookup_mlin b gR gT gY f rho temp Ye type : holds b (neutrino_axes gR gT gY) f ->
  rg_ok gR -> rg_ok gT -> rg_ok gY -> 0 <= rho -> 0 <= temp ->
  query_ok (neutrino_query rho temp Ye type) (neutrino_axes gR gT gY) ->
  nm_lookup b (Fin rho) (Fin temp) (Fin Ye) type =
  Ok (Fin (rho * pow10 (mlin (neutrino_query rho temp Ye type) (neutrino_axes gR gT gY) f))).
Proof.
  intros H R1 R2 R3 P1 P2 Q. unfold nm_lookup. cbv zeta. rewrite !ToLog_pos by assumption.
  change [Along (Fin (log10 (rho + tiny))); Along (Fin (log10 (temp + tiny))); Along (Fin Ye); At (RadType2Idx type)]
    with (map coord_of (neutrino_query rho temp Ye type)).
  rewrite (interp_holds b _ f _ H) by (assumption || (unfold photon_axes, neutrino_axes; repeat (apply Forall_cons; [cbn; auto|]); apply Forall_nil)).
  cbn [bind]. rewrite FromLog_fin, fin_mul. reflexivity.
Qed.

Lemma mlin_add cs dims f g : mlin cs dims (fun is => f is + g is) = mlin cs dims f + mlin cs dims g.
Proof.
  revert dims f g. induction cs as [|[x|i] cs IH]; intros [|[gr|n] ds] f g; cbn; auto.
  rewrite !IH. ring.
Qed.
