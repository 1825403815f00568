(** C35. Table lookup: nodes, bracketing, power laws. *)
From Coq Require Import Reals ZArith List Lia Lra Bool.
From Flocq Require Import Core IEEE754.BinarySingleNaN.
From Verif Require Import Base.Outcome Base.Ops Inst.ER Inst.ERTac Inst.B64 Model.Constants Model.Robust Model.RadTypes
  Model.Spiner Model.MeanUtils Model.MeanPhotons Model.MeanNeutrinos Spec.Tables Proofs.ArrayFacts Proofs.GroupFacts
  Proofs.InterpFacts Proofs.TableFacts Proofs.B64Facts.
Import ListNotations.
Open Scope R_scope.

(** the table the mode selects: 1 Planck, everything else Rosseland *)
Definition selected (m : MeanTable ER) (gmode : Z) : DataBox ER :=
  if (gmode =? 1)%Z then mt_lPlanck m else mt_lRosseland m.

Lemma Coefficient_selected m rho temp g gmode :
  mt_Coefficient m rho temp g gmode = group_coefficient (selected m gmode) rho temp g.
Proof.
  unfold mt_Coefficient, selected, Planck, mt_PlanckGroup, mt_RosselandGroup. now destruct (gmode =? 1)%Z.
Qed.

Lemma photon_axes_ok gR gT n : rg_ok gR -> rg_ok gT -> Forall rd_ok (photon_axes gR gT n).
Proof. intros. unfold photon_axes. repeat (apply Forall_cons; [cbn; auto|]). apply Forall_nil. Qed.
Lemma neutrino_axes_ok gR gT gY : rg_ok gR -> rg_ok gT -> rg_ok gY -> Forall rd_ok (neutrino_axes gR gT gY).
Proof. intros. unfold neutrino_axes. repeat (apply Forall_cons; [cbn; auto|]). apply Forall_nil. Qed.

(** Photon tables (absorption and scattering): at a node of the grid, i.e. where the
    guarded logarithms of density and temperature are node coordinates, the lookup returns
    the stored value of that node and group, times the density. *)
Lemma C35_node_proof :
  forall (m : MeanTable ER) (gmode : Z) (gR gT : rgrid) (n : Z) (f : list Z -> R),
  rg_ok gR -> rg_ok gT -> holds (selected m gmode) [Axis gR; Axis gT; Index n] f ->
  forall (i j g : Z) (rho temp : R),
  (0 <= i < rg_n gR)%Z -> (0 <= j < rg_n gT)%Z -> (0 <= g < n)%Z -> 0 <= rho -> 0 <= temp ->
  rho + tiny = pow10 (rg_node gR i) -> temp + tiny = pow10 (rg_node gT j) ->
  mt_Coefficient m (Fin rho) (Fin temp) g gmode = Ok (Fin (rho * pow10 (f [i; j; g]))).
Proof.
  intros m gmode gR gT n f R1 R2 H i j g rho temp Hi Hj Hg P1 P2 E1 E2. rewrite Coefficient_selected.
  pose proof (photon_axes_ok gR gT n R1 R2) as W.
  assert (A : at_node (photon_query rho temp g) (photon_axes gR gT n) [i; j; g]).
  { cbn. rewrite E1, E2, !log10_pow10. auto 10. }
  rewrite (group_coefficient_mlin _ gR gT n f); auto.
  - now rewrite (mlin_node _ _ _ _ W A).
  - apply (at_node_ok _ _ _ W A).
Qed.

(** Photon tables: inside the grid the lookup lies between the smallest and the largest
    stored value of the neighbouring nodes of the same group. *)
Lemma C35_between_proof :
  forall (m : MeanTable ER) (gmode : Z) (gR gT : rgrid) (n : Z) (f : list Z -> R),
  rg_ok gR -> rg_ok gT -> holds (selected m gmode) [Axis gR; Axis gT; Index n] f ->
  forall (g : Z) (rho temp lo hi : R), (0 <= g < n)%Z -> 0 <= rho -> 0 <= temp ->
  let x := log10 (rho + tiny) in let y := log10 (temp + tiny) in
  rg_inside gR x -> rg_inside gT y ->
  (forall i j, (0 <= i < rg_n gR)%Z -> (0 <= j < rg_n gT)%Z ->
     Rabs (x - rg_node gR i) <= rg_dx gR -> Rabs (y - rg_node gT j) <= rg_dx gT ->
     lo <= f [i; j; g] <= hi) ->
  exists v, mt_Coefficient m (Fin rho) (Fin temp) g gmode = Ok (Fin (rho * pow10 v)) /\ lo <= v <= hi.
Proof.
  intros m gmode gR gT n f R1 R2 H g rho temp lo hi Hg P1 P2 x y I1 I2 B. rewrite Coefficient_selected.
  pose proof (photon_axes_ok gR gT n R1 R2) as W.
  assert (I : inside (photon_query rho temp g) (photon_axes gR gT n)) by (cbn; auto).
  eexists. split. { apply (group_coefficient_mlin _ gR gT n f); auto. now apply inside_ok. }
  apply mlin_between; auto. intros [|i [|j [|k [|? ?]]]] N; cbn in N; try tauto.
  destruct N as (N1 & N2 & N3 & N4 & N5 & -> & _). now apply B.
Qed.

(** Photon tables: if the stored logarithms are those of the power law
    10^(c g) (rho + tiny)^a (T + tiny)^b, so is the lookup, at every state (inside the grid
    or not) whose distance from the grid is a number of cells an int can hold. *)
Lemma C35_power_law_proof :
  forall (m : MeanTable ER) (gmode : Z) (gR gT : rgrid) (n : Z) (a b : R) (c : Z -> R),
  rg_ok gR -> rg_ok gT ->
  holds (selected m gmode) [Axis gR; Axis gT; Index n]
    (fun is => a * rg_node gR (nth 0 is 0%Z) + b * rg_node gT (nth 1 is 0%Z) + c (nth 2 is 0%Z)) ->
  forall (g : Z) (rho temp : R), (0 <= g < n)%Z -> 0 <= rho -> 0 <= temp ->
  rg_fits gR (log10 (rho + tiny)) -> rg_fits gT (log10 (temp + tiny)) ->
  mt_Coefficient m (Fin rho) (Fin temp) g gmode =
  Ok (Fin (rho * (pow10 (c g) * Rpower (rho + tiny) a * Rpower (temp + tiny) b))).
Proof.
  intros m gmode gR gT n a b c R1 R2 H g rho temp Hg P1 P2 F1 F2. rewrite Coefficient_selected.
  pose proof (photon_axes_ok gR gT n R1 R2) as W. pose proof tiny_pos as Tp.
  assert (Q : query_ok (photon_query rho temp g) (photon_axes gR gT n)) by (cbn; auto).
  rewrite (group_coefficient_mlin _ gR gT n _ rho temp g H) by auto. f_equal. f_equal. f_equal.
  set (k := fun l => c (nth 0 l 0%Z)).
  assert (E : mlin (photon_query rho temp g) (photon_axes gR gT n)
    (fun is => a * rg_node gR (nth 0 is 0%Z) + b * rg_node gT (nth 1 is 0%Z) + c (nth 2 is 0%Z)) =
    affine_query (photon_query rho temp g) [a; b; 0] k).
  { rewrite <- (mlin_affine _ (photon_axes gR gT n) [a; b; 0] k W Q eq_refl).
    cbn -[rg_node rg_w rg_cell]. unfold k. cbn -[rg_node rg_w rg_cell]. ring. }
  rewrite E. cbn [affine_query photon_query]. unfold k. cbn [nth].
  rewrite !pow10_add, !pow10_scale by lra. ring.
Qed.

(** Neutrino tables (absorption and scattering, Planck and Rosseland): at a node. *)
Lemma C35_neutrino_node_proof :
  forall (m : NuMeanTable ER) (rosseland : bool) (gR gT gY : rgrid) (f : list Z -> R),
  rg_ok gR -> rg_ok gT -> rg_ok gY ->
  holds (if rosseland then nm_lRosseland m else nm_lPlanck m) [Axis gR; Axis gT; Axis gY; Index 3] f ->
  forall (i j k : Z) (type : RadiationType) (rho temp : R),
  (0 <= i < rg_n gR)%Z -> (0 <= j < rg_n gT)%Z -> (0 <= k < rg_n gY)%Z ->
  (0 <= RadType2Idx type < 3)%Z -> 0 <= rho -> 0 <= temp ->
  rho + tiny = pow10 (rg_node gR i) -> temp + tiny = pow10 (rg_node gT j) ->
  (if rosseland then nm_Rosseland m else nm_Planck m)
     (Fin rho) (Fin temp) (Fin (rg_node gY k)) type =
  Ok (Fin (rho * pow10 (f [i; j; k; RadType2Idx type]))).
Proof.
  intros m ro gR gT gY f R1 R2 R3 H i j k type rho temp Hi Hj Hk Ht P1 P2 E1 E2.
  pose proof (neutrino_axes_ok gR gT gY R1 R2 R3) as W.
  assert (A : at_node (neutrino_query rho temp (rg_node gY k) type) (neutrino_axes gR gT gY) [i; j; k; RadType2Idx type]).
  { cbn -[RadType2Idx]. rewrite E1, E2, !log10_pow10. auto 12. }
  pose proof (proj1 (at_node_ok _ _ _ W A)) as Q.
  destruct ro; unfold nm_Rosseland, nm_Planck; rewrite (nm_lookup_mlin _ gR gT gY f) by auto;
    now rewrite (mlin_node _ _ _ _ W A).
Qed.

(** Neutrino tables: between the neighbouring nodes. *)
Lemma C35_neutrino_between_proof :
  forall (m : NuMeanTable ER) (rosseland : bool) (gR gT gY : rgrid) (f : list Z -> R),
  rg_ok gR -> rg_ok gT -> rg_ok gY ->
  holds (if rosseland then nm_lRosseland m else nm_lPlanck m) [Axis gR; Axis gT; Axis gY; Index 3] f ->
  forall (type : RadiationType) (rho temp Ye lo hi : R),
  (0 <= RadType2Idx type < 3)%Z -> 0 <= rho -> 0 <= temp ->
  let x := log10 (rho + tiny) in let y := log10 (temp + tiny) in
  rg_inside gR x -> rg_inside gT y -> rg_inside gY Ye ->
  (forall i j k, (0 <= i < rg_n gR)%Z -> (0 <= j < rg_n gT)%Z -> (0 <= k < rg_n gY)%Z ->
     Rabs (x - rg_node gR i) <= rg_dx gR -> Rabs (y - rg_node gT j) <= rg_dx gT ->
     Rabs (Ye - rg_node gY k) <= rg_dx gY -> lo <= f [i; j; k; RadType2Idx type] <= hi) ->
  exists v, (if rosseland then nm_Rosseland m else nm_Planck m) (Fin rho) (Fin temp) (Fin Ye) type
    = Ok (Fin (rho * pow10 v)) /\ lo <= v <= hi.
Proof.
  intros m ro gR gT gY f R1 R2 R3 H type rho temp Ye lo hi Ht P1 P2 x y I1 I2 I3 B.
  pose proof (neutrino_axes_ok gR gT gY R1 R2 R3) as W.
  assert (I : inside (neutrino_query rho temp Ye type) (neutrino_axes gR gT gY)) by (cbn -[RadType2Idx]; auto).
  pose proof (inside_ok _ _ W I) as Q.
  exists (mlin (neutrino_query rho temp Ye type) (neutrino_axes gR gT gY) f). split.
  - destruct ro; unfold nm_Rosseland, nm_Planck; now apply nm_lookup_mlin.
  - apply mlin_between; auto. intros [|i [|j [|k [|l [|? ?]]]]] N; cbn -[RadType2Idx] in N; try tauto.
    destruct N as (N1 & N2 & N3 & N4 & N5 & N6 & N7 & N8 & _). subst l. now apply B.
Qed.

(** Neutrino tables: power laws in density and temperature, exponential in Ye. *)
Lemma C35_neutrino_power_law_proof :
  forall (m : NuMeanTable ER) (rosseland : bool) (gR gT gY : rgrid) (a b d : R) (c : Z -> R),
  rg_ok gR -> rg_ok gT -> rg_ok gY ->
  holds (if rosseland then nm_lRosseland m else nm_lPlanck m) [Axis gR; Axis gT; Axis gY; Index 3]
    (fun is => a * rg_node gR (nth 0 is 0%Z) + b * rg_node gT (nth 1 is 0%Z) +
               d * rg_node gY (nth 2 is 0%Z) + c (nth 3 is 0%Z)) ->
  forall (type : RadiationType) (rho temp Ye : R),
  (0 <= RadType2Idx type < 3)%Z -> 0 <= rho -> 0 <= temp ->
  rg_fits gR (log10 (rho + tiny)) -> rg_fits gT (log10 (temp + tiny)) -> rg_fits gY Ye ->
  (if rosseland then nm_Rosseland m else nm_Planck m) (Fin rho) (Fin temp) (Fin Ye) type =
  Ok (Fin (rho * (pow10 (c (RadType2Idx type)) * Rpower (rho + tiny) a * Rpower (temp + tiny) b * pow10 (d * Ye)))).
Proof.
  intros m ro gR gT gY a b d c R1 R2 R3 H type rho temp Ye Ht P1 P2 F1 F2 F3.
  pose proof (neutrino_axes_ok gR gT gY R1 R2 R3) as W. pose proof tiny_pos as Tp.
  assert (Q : query_ok (neutrino_query rho temp Ye type) (neutrino_axes gR gT gY)) by (cbn -[RadType2Idx]; auto).
  set (k := fun l => c (nth 0 l 0%Z)).
  assert (E : mlin (neutrino_query rho temp Ye type) (neutrino_axes gR gT gY)
    (fun is => a * rg_node gR (nth 0 is 0%Z) + b * rg_node gT (nth 1 is 0%Z) +
               d * rg_node gY (nth 2 is 0%Z) + c (nth 3 is 0%Z)) =
    affine_query (neutrino_query rho temp Ye type) [a; b; d; 0] k).
  { rewrite <- (mlin_affine _ (neutrino_axes gR gT gY) [a; b; d; 0] k W Q eq_refl).
    cbn -[rg_node rg_w rg_cell RadType2Idx]. unfold k. cbn -[rg_node rg_w rg_cell RadType2Idx]. ring. }
  assert (V : pow10 (affine_query (neutrino_query rho temp Ye type) [a; b; d; 0] k) =
    pow10 (c (RadType2Idx type)) * Rpower (rho + tiny) a * Rpower (temp + tiny) b * pow10 (d * Ye)).
  { cbn [affine_query neutrino_query]. unfold k. cbn [nth]. rewrite !pow10_add, !pow10_scale by lra. ring. }
  destruct ro; unfold nm_Rosseland, nm_Planck; rewrite (nm_lookup_mlin _ gR gT gY _ rho temp Ye type H) by auto;
    now rewrite E, V.
Qed.

(** the concrete box used in the examples: densities and temperatures of 2 x 2 nodes at
    log 0 and log 1, two groups *)
Definition ex_grid : rgrid := {| rg_lo := 0; rg_hi := 1; rg_n := 2 |}.
Definition ex_box (l : list R) : DataBox ER :=
  {| db_dims := [2; 2; 2]%Z; db_ranges := [None; Some (grid_of ex_grid); Some (grid_of ex_grid)];
     db_data := map Fin l |}.
Definition ex_table (l : list R) : MeanTable ER :=
  {| mt_lPlanck := ex_box l; mt_lRosseland := ex_box l;
     mt_bounds := [Fin 0; Fin 1; PInf]; mt_ngroups := 2 |}.
Lemma ex_grid_ok : rg_ok ex_grid.
Proof. split; cbn; [lra|lia]. Qed.
Lemma ex_grid_node i : rg_node ex_grid i = IZR i.
Proof. unfold rg_node, rg_dx. cbn. lra. Qed.

Lemma two_cases i : (0 <= i < 2)%Z -> i = 0%Z \/ i = 1%Z.
Proof. lia. Qed.
Lemma ex_holds (l : list R) : length l = 8%nat ->
  holds (ex_box l) [Axis ex_grid; Axis ex_grid; Index 2]
    (fun is => nth (Z.to_nat (nth 0 is 0 * 4 + nth 1 is 0 * 2 + nth 2 is 0)%Z) l 0).
Proof.
  intros L. do 9 (destruct l as [|? l]; try discriminate L). split; [reflexivity|].
  cbn [stores rd_size]. intros i Hi j Hj k Hk. cbn in Hi, Hj.
  destruct (two_cases i Hi) as [-> | ->], (two_cases j Hj) as [-> | ->], (two_cases k Hk) as [-> | ->]; reflexivity.
Qed.

(** A 2 x 2 table of two groups: the value of group 1 at the node (1, 0). *)
Lemma C35_node_example :
  mt_Coefficient (ex_table [0; 1; 2; 3; 4; 5; 6; 7]) (Fin (10 - tiny)) (Fin (1 - tiny)) 1 1 =
  Ok (Fin ((10 - tiny) * pow10 5)).
Proof.
  pose proof tiny_pos. pose proof tiny_lt_1.
  assert (P1 : pow10 1 = 10). { unfold pow10. now rewrite Rpower_1 by lra. }
  assert (P0 : pow10 0 = 1). { unfold pow10. rewrite Rpower_O by lra. reflexivity. }
  apply (C35_node_proof (ex_table [0; 1; 2; 3; 4; 5; 6; 7]) 1 ex_grid ex_grid 2 _ ex_grid_ok ex_grid_ok
    (ex_holds [0; 1; 2; 3; 4; 5; 6; 7] eq_refl) 1 0 1); try (cbn; lia); try lra;
    rewrite ex_grid_node; lra.
Qed.

(** Away from the grid: the power law 10^(2 + 3 g) rho T^2 at rho = T = 1000. *)
Lemma C35_power_law_example :
  mt_Coefficient (ex_table [2; 5; 4; 7; 3; 6; 5; 8]) (Fin (1000 - tiny)) (Fin (1000 - tiny)) 1 0 =
  Ok (Fin ((1000 - tiny) * (pow10 5 * Rpower 1000 1 * Rpower 1000 2))).
Proof.
  pose proof tiny_pos. pose proof tiny_lt_1.
  assert (L : log10 1000 = 3).
  { replace 1000 with (pow10 3); [apply log10_pow10|]. unfold pow10.
    replace 3 with (INR 3) by (cbn; lra). rewrite Rpower_pow by lra. lra. }
  pose proof (C35_power_law_proof (ex_table [2; 5; 4; 7; 3; 6; 5; 8]) 0 ex_grid ex_grid 2 1 2 (fun g => 2 + 3 * IZR g)
    ex_grid_ok ex_grid_ok) as P.
  assert (F : rg_fits ex_grid 3) by (unfold rg_fits, rg_dx; cbn; lra).
  rewrite P; try lia; try lra.
  - replace (1000 - tiny + tiny) with 1000 by ring. do 6 f_equal. lra.
  - destruct (ex_holds [2; 5; 4; 7; 3; 6; 5; 8] eq_refl) as [E S]. split; [exact E|].
    cbn [stores rd_size] in *. intros i Hi j Hj k Hk. refine (eq_trans (S i Hi j Hj k Hk) _). cbn [nth]. rewrite !ex_grid_node.
    cbn in Hi, Hj. destruct (two_cases i Hi) as [-> | ->], (two_cases j Hj) as [-> | ->], (two_cases k Hk) as [-> | ->];
      cbn; unfold Pos.to_nat; cbn; apply f_equal, f_equal; lra.
  - replace (1000 - tiny + tiny) with 1000 by ring. now rewrite L.
  - replace (1000 - tiny + tiny) with 1000 by ring. now rewrite L.
Qed.

(** In binary64 with any libm: the guard under the logarithm vanishes for magnitudes of at
    least 2^-963, so nodes are at density and temperature 10^x themselves. *)
Lemma C35_guard_binary64_proof :
  forall (L : Libm) (x : b64), is_finite x = true ->
  bpow radix2 (-963) <= Rabs (B2R x) ->
  @ToLog b64 (B64_ops L) x = lm_log10 L (Babs x).
Proof.
  intros L x Fx H. change (lm_log10 L (Bplus mode_NE (Babs x) (Bmult mode_NE (b64_of_Z 10) (b64_ldexp 1 (-1022)))) =
    lm_log10 L (Babs x)). f_equal.
  replace (Bmult mode_NE (b64_of_Z 10) (b64_ldexp 1 (-1022))) with (b64_ldexp 5 (-1021))
    by (apply B2SF_inj; vm_compute; reflexivity).
  destruct (V_lit 5 (-1021)) as [V5 F5]; try lia.
  assert (E : V (Babs x) = Rabs (B2R x)) by apply B2R_Babs.
  apply add_absorb; auto.
  - now rewrite is_finite_Babs.
  - destruct x; reflexivity || discriminate.
  - rewrite E. eapply Rlt_le_trans; [apply bpow_gt_0|exact H].
  - rewrite V5. apply Rmult_le_pos; [lra|apply bpow_ge_0].
  - rewrite V5, E. apply Rlt_le_trans with (bpow radix2 (-963) * bpow radix2 (-54)).
    + rewrite <- bpow_plus. replace (-963 + -54)%Z with (4 + -1021)%Z by lia. rewrite bpow_plus.
      pose proof (bpow_gt_0 radix2 (-1021)). replace (bpow radix2 4) with 16 by (cbn; lra). lra.
    + apply Rmult_le_compat_r; [apply bpow_ge_0|exact H].
Qed.
Lemma C35_guard_binary64_example : forall L : Libm,
  @ToLog b64 (B64_ops L) (b64_of_Z 3) = lm_log10 L (b64_of_Z 3).
Proof.
  intros L. assert (E : b64_of_Z 3 = b64_ldexp 3 0) by reflexivity. rewrite E.
  destruct (V_lit 3 0) as [V3 F3]; try lia. change (B2R (b64_ldexp 3 0)) with (V (b64_ldexp 3 0)) in *.
  rewrite C35_guard_binary64_proof.
  - f_equal.
  - exact F3.
  - change (B2R (b64_ldexp 3 0)) with (V (b64_ldexp 3 0)). rewrite V3.
    apply Rle_trans with (bpow radix2 0); [apply bpow_le; lia|]. cbn. rewrite Rabs_pos_eq; lra.
Qed.
