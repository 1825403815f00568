(** C30. Gray calls on a table with several groups. *)
From Coq Require Import Reals ZArith List Lia Lra Bool.
From Verif Require Import Base.Outcome Base.Ops Inst.ER Inst.ERTac Model.Constants Model.Robust Model.Spiner Model.MeanUtils
  Model.ThermalPhotons Model.MeanPhotons Model.MeanVariants Spec.Groups Spec.Tables Spec.TableShape Proofs.OrderLaws
  Proofs.InterpFacts Proofs.TableFacts Proofs.C28 Proofs.C35 Proofs.C37.
Import ListNotations.
Open Scope R_scope.

(** In debug builds the gray calls of a table that does not have exactly one group report an
    error, and Emissivity does so in every build, in any arithmetic. *)
Lemma C30_error_proof :
  forall (T : Type) (O : Ops T) (pc : PhysConst T) (m : MeanTable T) (rho temp : T) (gmode : Z),
  mt_ngroups m <> 1%Z ->
  mt_PlanckMean true m rho temp = Error /\ mt_RosselandMean true m rho temp = Error /\
  mt_Emissivity pc m rho temp gmode = Error.
Proof.
  intros T O pc m rho temp gmode H. unfold mt_PlanckMean, mt_RosselandMean, mt_Emissivity.
  apply Z.eqb_neq in H. rewrite H. auto.
Qed.

(** On a table of one group the gray calls answer for that group, in every build; Emissivity
    is that coefficient times the integrated Planck function. *)
Lemma C30_single_proof :
  forall (T : Type) (O : Ops T) (pc : PhysConst T) (dbg : bool) (m : MeanTable T) (rho temp : T) (gmode : Z),
  mt_ngroups m = 1%Z ->
  mt_PlanckMean dbg m rho temp = mt_Coefficient m rho temp 0 Planck /\
  mt_RosselandMean dbg m rho temp = mt_Coefficient m rho temp 0 Rosseland /\
  mt_Emissivity pc m rho temp gmode =
    bind (mt_Coefficient m rho temp 0 gmode) (fun a => Ok (Omul a (planck_T pc temp))).
Proof.
  intros T O pc dbg m rho temp gmode H. unfold mt_PlanckMean, mt_RosselandMean, mt_Emissivity. rewrite H.
  cbn [Z.eqb negb]. rewrite andb_false_r. repeat split.
Qed.
Lemma C30_single_example :
  exists m, LoadTables {| db_dims := [1; 2; 2]%Z; db_ranges := db_ranges (ex_box []); db_data := map Fin [1; 1; 1; 1] |}
     {| db_dims := [1; 2; 2]%Z; db_ranges := db_ranges (ex_box []); db_data := map Fin [1; 1; 1; 1] |} [Fin 0; PInf] = Ok m /\
  mt_ngroups m = 1%Z.
Proof.
  set (p := {| db_dims := [1; 2; 2]%Z; db_ranges := db_ranges (ex_box []); db_data := map Fin [1; 1; 1; 1] |}).
  assert (C : compatible (fun x => x) p p).
  { split; [reflexivity|]. split; [reflexivity|]. split; [cbn; lia|].
    intros k [->| ->]; exists (grid_of ex_grid), (grid_of ex_grid); repeat split; discriminate. }
  assert (W : well_formed p) by (split; [repeat constructor; lia|reflexivity]).
  destruct (C37_load_proof ER ER_ops _ er_values p p [Fin 0; PInf] C W W) as [_ H]; [cbn; lia|].
  destruct H as (m & E & N & _); [|exists m; auto].
  split; [cbn; lia|]. intros [|g] Hg; [|cbn in Hg; lia]. exists 0. cbn. split; [reflexivity|]. split; [lra|]. right. auto.
Qed.

(** tables loaded through the constructor: two groups; Planck 1 and 2, Rosseland 3 and 4 in
    groups 0 and 1 *)
Lemma two_group_table : exists m : MeanTable ER, constructed m /\ mt_ngroups m = 2%Z /\
  forall rho temp g, 0 <= rho -> 0 <= temp -> (0 <= g < 2)%Z ->
  rg_fits ex_grid (log10 (rho + tiny)) -> rg_fits ex_grid (log10 (temp + tiny)) ->
  mt_PlanckGroup m (Fin rho) (Fin temp) g = Ok (Fin (rho * (IZR (g + 1) + tiny))) /\
  mt_RosselandGroup m (Fin rho) (Fin temp) g = Ok (Fin (rho * (IZR (g + 3) + tiny))).
Proof.
  set (p := ex_box [1; 2; 1; 2; 1; 2; 1; 2]). set (r := ex_box [3; 4; 3; 4; 3; 4; 3; 4]).
  destruct (C37_load_proof ER ER_ops _ er_values p r [Fin 0; Fin 1; PInf] (ex_compatible _ _)
    (ex_well_formed [1; 2; 1; 2; 1; 2; 1; 2] eq_refl) (ex_well_formed [3; 4; 3; 4; 3; 4; 3; 4] eq_refl)) as [_ H]; [cbn; lia|].
  destruct (H ex_partition) as (m & E & N & Lb & B & D1 & D2 & R1 & R2 & A1 & A2). exists m.
  split; [left; eauto|]. split; [exact N|].
  intros rho temp g P1 P2 Hg F1 F2. pose proof tiny_pos as Tp.
  assert (W : Forall rd_ok (photon_axes ex_grid ex_grid 2)) by (apply photon_axes_ok; apply ex_grid_ok).
  assert (Q : query_ok (photon_query rho temp g) (photon_axes ex_grid ex_grid 2)) by (cbn; auto).
  assert (K : forall b k (s : list R), length s = 8%nat -> db_dims b = db_dims (ex_box s) -> db_ranges b = db_ranges (ex_box s) ->
    db_data b = map ToLog (db_data (ex_box s)) -> 0 <= IZR k ->
    (forall i, (i < 8)%nat -> nth i s 0 = IZR (Z.of_nat (i mod 2) + k)) ->
    group_coefficient b (Fin rho) (Fin temp) g = Ok (Fin (rho * (IZR (g + k) + tiny)))).
  { intros b k s Ls Db Rb Ab Hk Hs.
    assert (Hh : holds b (photon_axes ex_grid ex_grid 2) (fun is => log10 (Rabs (nth (Z.to_nat (nth 0 is 0 * 4 + nth 1 is 0 * 2 + nth 2 is 0)%Z) s 0) + tiny))).
    { destruct (holds_log (ex_box s) _ _ _ (ex_holds s Ls) eq_refl) as [X Y]. split.
      - rewrite Db, Rb. exact X.
      - rewrite Ab. exact Y. }
    rewrite (group_coefficient_mlin b ex_grid ex_grid 2 _ rho temp g Hh) by (auto || apply ex_grid_ok).
    f_equal. f_equal. f_equal.
    assert (M : forall x, 0 <= x -> pow10 (log10 (x + tiny)) = x + tiny) by (intros; apply pow10_log10; lra).
    assert (G : 0 <= IZR g) by (apply IZR_le; lia).
    rewrite <- (M (IZR (g + k))) by (rewrite plus_IZR; lra). f_equal.
    set (c := log10 (IZR (g + k) + tiny)).
    assert (S : forall i j, (i = 0 \/ i = 1)%Z -> (j = 0 \/ j = 1)%Z ->
      log10 (Rabs (nth (Z.to_nat (i * 4 + j * 2 + g)) s 0) + tiny) = c).
    { intros i j Hi Hj. rewrite Hs by lia.
      replace (Z.of_nat (Z.to_nat (i * 4 + j * 2 + g) mod 2)) with g.
      - unfold c. rewrite Rabs_pos_eq; [reflexivity|]. rewrite plus_IZR. lra.
      - destruct Hi as [->| ->], Hj as [->| ->]; assert (Hg' : (g = 0 \/ g = 1)%Z) by lia; destruct Hg' as [->| ->]; reflexivity. }
    assert (Cz : forall x, rg_cell ex_grid x = 0%Z).
    { intros x. pose proof (cell_range ex_grid ex_grid_ok x) as Cr. cbn in Cr. lia. }
    cbn [mlin photon_query photon_axes nth]. rewrite !Cz. cbn [Z.add]. cbn [nth].
    rewrite !S by auto. ring. }
  split.
  - unfold mt_PlanckGroup. apply (K _ 1%Z [1; 2; 1; 2; 1; 2; 1; 2]); auto; try lra.
    intros i Hi. do 8 (destruct i as [|i]; [cbn; lra|]). lia.
  - unfold mt_RosselandGroup. apply (K _ 3%Z [3; 4; 3; 4; 3; 4; 3; 4]); auto; try lra.
    intros i Hi. do 8 (destruct i as [|i]; [cbn; lra|]). lia.
Qed.

Lemma fits_pow : exists rho, 0 < rho /\ rg_fits ex_grid (log10 (rho + tiny)).
Proof.
  pose proof tiny_pos. pose proof tiny_lt_1. exists (1 - tiny). split; [lra|].
  replace (1 - tiny + tiny) with 1 by ring. unfold log10. rewrite ln_1. unfold rg_fits, rg_dx. cbn. lra.
Qed.

(** The full statement is false in release builds, where PORTABLE_REQUIRE does nothing: on a
    loaded table of two groups with different coefficients the gray calls answer with the
    coefficient of group 0. *)
Lemma C30_release_refuted_proof :
  exists (m : MeanTable ER) (rho temp a b : R), constructed m /\ mt_ngroups m = 2%Z /\ 0 < rho /\ 0 < temp /\
  mt_PlanckMean false m (Fin rho) (Fin temp) = Ok (Fin a) /\
  mt_PlanckGroup m (Fin rho) (Fin temp) 0 = Ok (Fin a) /\ mt_PlanckGroup m (Fin rho) (Fin temp) 1 = Ok (Fin b) /\ a <> b /\
  mt_RosselandMean false m (Fin rho) (Fin temp) = mt_RosselandGroup m (Fin rho) (Fin temp) 0 /\
  mt_RosselandGroup m (Fin rho) (Fin temp) 0 <> mt_RosselandGroup m (Fin rho) (Fin temp) 1.
Proof.
  destruct two_group_table as (m & C & N & K), fits_pow as (rho & P & F).
  destruct (K rho rho 0%Z) as [K0 K0']; try lra; try lia; auto. destruct (K rho rho 1%Z) as [K1 K1']; try lra; try lia; auto.
  exists m, rho, rho, (rho * (1 + tiny)), (rho * (2 + tiny)).
  cbn [Z.add] in *. do 4 (split; [assumption|]). split; [exact K0|]. split; [exact K0|]. split; [exact K1|].
  split; [intros E; apply Rmult_eq_reg_l in E; lra|]. split; [reflexivity|]. rewrite K0', K1'. intros E. injection E. intros E'.
  apply Rmult_eq_reg_l in E'; lra.
Qed.

(** The same spelling means different things on the object and on the variant: with three
    arguments the object takes a group and averages after Rosseland, the variant takes the
    averaging and group 0. Neither reports an error on the two-group table, and the numbers
    differ, for the third argument 1 (Planck, or the second group). *)
Lemma C30_variant_refuted_proof :
  exists (m : MeanTable ER) (rho temp a b : R), constructed m /\ mt_ngroups m = 2%Z /\ 0 < rho /\ 0 < temp /\ a <> b /\
  forall pc, ma_Coefficient3 (mean_api pc m) (Fin rho) (Fin temp) 1 = Ok (Fin a) /\
             mv_Coefficient3 pc (MeanBase m) (Fin rho) (Fin temp) 1 = Ok (Fin b).
Proof.
  destruct two_group_table as (m & C & N & K), fits_pow as (rho & P & F).
  destruct (K rho rho 0%Z) as [K0 K0']; try lra; try lia; auto. destruct (K rho rho 1%Z) as [K1 K1']; try lra; try lia; auto.
  exists m, rho, rho, (rho * (4 + tiny)), (rho * (1 + tiny)).
  repeat (split; [assumption|]). split; [intros E; apply Rmult_eq_reg_l in E; lra|].
  intros pc. split; [exact K1'|exact K0].
Qed.

(** With one group and the third argument 0 the two spellings agree; and the calls with all
    four arguments always do. *)
Lemma C30_variant_agrees_proof :
  forall (T : Type) (O : Ops T) (pc : PhysConst T) (v : MeanAlt T) (rho temp : T),
  mv_Coefficient3 pc v rho temp 0 = ma_Coefficient3 (mean_visit pc v) rho temp 0 /\
  forall group gmode, mv_Coefficient pc v rho temp group gmode = ma_Coefficient (mean_visit pc v) rho temp group gmode.
Proof. intros. split; reflexivity. Qed.
