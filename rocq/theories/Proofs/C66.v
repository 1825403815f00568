(** C66: the totals of NuLib files in double precision. *)
From Coquelicot Require Import Coquelicot.
From Coq Require Import Reals ZArith List Lra Lia Bool.
From Flocq Require Import Core IEEE754.BinarySingleNaN.
From Verif Require Import Base.Outcome Base.Ops Inst.B64 Model.RadTypes Model.Constants Model.NeutrinoApi Model.MeanUtils Model.Spiner Model.SpinerNeutrinos
  Spec.Means Spec.Tables Spec.Tabulated Spec.DoublePrecision Spec.DoubleTables Spec.DoubleSpiner Spec.DoubleNuLib Proofs.B64Facts Proofs.FillFacts
  Proofs.Near Proofs.NearConsts Proofs.NearRules Proofs.NarrowGroup Proofs.SpinerFacts Proofs.DoubleTables Proofs.DoubleLookup Proofs.DoubleSpiner Proofs.C63 Proofs.C64
  Proofs.NuLibFacts Proofs.C56 Proofs.DoubleMeans Proofs.DoubleNuLib.
Import ListNotations.
Open Scope R_scope.

(** the logarithm stored for a double [p] that is near [r], looked up *)
Lemma log_answer L F C x p r m : accurate_log10 L -> 1 <= F <= 200 -> 1 <= C <= 4000000 -> fin p -> 0 < V p -> Rabs (log10 (V p)) <= F ->
  Rabs (V p - r) <= m * u * r -> 0 < r -> 0 <= m <= 3000000 ->
  within (550 * F * C) x (pow10 (V (@Olog10 b64 (B64_ops L) p))) -> within (556 * F * C + 1002 / 1000 * m) x r.
Proof.
  intros HG HF HC Fp Pp Bp Er Pr Hm W. pose proof u_tiny as U. destruct (log_abs L HG F p HF Fp Pp Bp) as [Fl El].
  assert (FC : F * 1 <= F * C <= 200 * 4000000) by (split; [apply Rmult_le_compat_l; lra|apply Rmult_le_compat; lra]).
  assert (NU : 0 <= 550 * F * C * u <= 1 / 1000).
  { rewrite u_lit. replace (550 * F * C) with (550 * (F * C)) by ring. split; [apply Rmult_le_pos; lra|].
    apply Rle_trans with (550 * (200 * 4000000) * / 9007199254740992); [apply Rmult_le_compat_r; lra|lra]. }
  assert (D : 2 * F * u <= 1 / 1000).
  { apply Rle_trans with (400 * / 9000000000000000); [apply Rmult_le_compat; lra|lra]. }
  pose proof (pow10_step _ _ _ El D) as S. rewrite pow10_log in S by exact Pp.
  pose proof (within_trans _ (472 / 100 * F) x _ (V p) W) as T1. specialize (T1 ltac:(lra) (pow10_pos _) Pp NU).
  assert (N2 : 0 <= (550 * F * C + 1001 / 1000 * (472 / 100 * F)) * u <= 1 / 1000 + 1 / 100000).
  { split; [apply Rmult_le_pos; lra|]. rewrite Rmult_plus_distr_r. assert (1001 / 1000 * (472 / 100 * F) * u <= 1000 * / 9000000000000000); [apply Rmult_le_compat; lra|lra]. }
  destruct T1 as [Fx Ex]. split; [exact Fx|]. fold u (V x) in Ex |- *. rewrite (Rabs_pos_eq (V p)) in Ex by lra. rewrite (Rabs_pos_eq r) by lra.
  apply Rle_trans with ((550 * F * C + 1001 / 1000 * (472 / 100 * F)) * u * V p + m * u * r); [apply abs_near with (V p); assumption|].
  set (n := 550 * F * C + 1001 / 1000 * (472 / 100 * F)) in *. apply abs_both in Er.
  assert (ur : 0 < u * r) by (apply Rmult_lt_0_compat; lra).
  assert (n * u * V p <= n * u * (r + m * u * r)) by (apply Rmult_le_compat_l; lra).
  assert (mu : 0 <= m * u * r) by (rewrite Rmult_assoc; apply Rmult_le_pos; lra).
  assert (n * u * (m * u * r) <= 2 / 1000 * (m * u * r)) by (apply Rmult_le_compat_r; lra).
  assert (K : n * (u * r) <= 556 * F * C * (u * r)) by (apply Rmult_le_compat_r; unfold n; lra).
  replace (n * u * (r + m * u * r)) with (n * (u * r) + n * u * (m * u * r)) in H by ring.
  replace ((556 * F * C + 1002 / 1000 * m) * u * r) with (556 * F * C * (u * r) + m * u * r + 2 / 1000 * (m * u * r)) by field. lra.
Qed.
(** the same for a total, stored with the guard of toLog *)
Lemma total_answer L F C x p r m : accurate_log10 L -> 1 <= F <= 240 -> 1 <= C <= 4000000 -> storable F p ->
  Rabs (V p - r) <= m * u * r -> 0 < r -> 0 <= m <= 3000000 ->
  within (550 * (101 / 100 * F) * C) x (pow10 (V (@ToLog b64 (B64_ops L) p))) -> within (570 * F * C + 1002 / 1000 * m) x r.
Proof.
  intros HG HF HC Sp Er Pr Hm W. pose proof (storable_answer L F C x p HG HF HC Sp W) as T. destruct Sp as (_ & Pp & _). fold (V p) in Pp. pose proof u_tiny as U.
  assert (FC : F * 1 <= F * C <= 240 * 4000000) by (split; [apply Rmult_le_compat_l; lra|apply Rmult_le_compat; lra]).
  assert (NU : 0 <= 570 * F * C * u <= 1 / 1000).
  { rewrite u_lit. replace (570 * F * C) with (570 * (F * C)) by ring. split; [apply Rmult_le_pos; lra|].
    apply Rle_trans with (570 * (240 * 4000000) * / 9007199254740992); [apply Rmult_le_compat_r; lra|lra]. }
  pose proof (within_trans _ m x _ r T Er Pp Pr NU) as [Fx Ex]. split; [exact Fx|]. apply Rle_trans with (1 := Ex).
  apply Rmult_le_compat_r; [apply Rabs_pos|]. fold u. apply Rmult_le_compat_r; lra.
Qed.

(** Loading a NuLib file of three species in double precision. If the numbers of the dataset
    that the loader takes for the emissivities (the absorption dataset, finding C41) are
    between 10^-F and 10^F, the file is loaded, and at the nodes the emissivities are those
    numbers in the units of the opacity, and the totals their sums over the groups (which lack
    the factor ln 10, finding C41), up to roundings: one for each group in the sums, and those
    of a lookup. Nothing is said of the absorption coefficients, which are never read. *)
Lemma C66_load_proof :
  forall (L : Libm) (fresh : nat -> b64) (F : R) (NR NT NY NE : Z) (rhos temps yes energies emissivities absorption : list b64)
    (r0 r1 T0 T1 y0 y1 e0 e1 : b64) (gR gT gY ge : Grid b64),
  let O := B64_ops L in
  let pc := @PhysicalConstantsCGS b64 O in
  let lg := @Olog10 b64 O in
  let rR := real_grid (lg r0) (lg r1) NR in
  let rT := real_grid (lg T0) (lg T1) NT in
  let rY := real_grid y0 y1 NY in
  let rE := real_grid (lg e0) (lg e1) NE in
  let rho := fun a => @sp_fromLog b64 O (@g_x b64 O gR (Z.of_nat a)) in
  let temp := fun b => @Omul b64 O (@sp_fromLog b64 O (@g_x b64 O gT (Z.of_nat b))) (@sp_MeV2K b64 O) in
  let Ye := fun y => @g_x b64 O gY (Z.of_nat y) in
  let nu := fun e => @Omul b64 O (@sp_MeV2Hz b64 O pc) (@sp_fromLog b64 O (@g_x b64 O ge (Z.of_nat e))) in
  let total := cells rR + cells rT + cells rY in
  let all := total + cells rE in
  let size := (NE * 3 * NY * NT * NR)%Z in
  let MeV := 10 ^ 6 * eV_cgs in
  accurate_libm L -> accurate_log10 L -> 1 <= F <= 170 ->
  spans rhos NR r0 r1 -> spans temps NT T0 T1 -> spans yes NY y0 y1 -> spans energies NE e0 e1 ->
  Z.of_nat (List.length emissivities) = size -> Z.of_nat (List.length absorption) = size -> (forall x, In x absorption -> storable F x) ->
  ordinary (lg r0) (lg r1) NR -> ordinary (lg T0) (lg T1) NT -> ordinary y0 y1 NY -> ordinary (lg e0) (lg e1) NE ->
  extent rR <= 29 -> extent rT <= 18 -> extent rE <= 8 ->
  @mk_grid b64 O (lg r0) (lg r1) NR = Ok gR -> @mk_grid b64 O (lg T0) (lg T1) NT = Ok gT ->
  @mk_grid b64 O y0 y1 NY = Ok gY -> @mk_grid b64 O (lg e0) (lg e1) NE = Ok ge ->
  exists t, @LoadFromNuLib b64 O pc fresh (Some (nulib64 NR NT NY NE rhos temps yes energies emissivities absorption)) = Ok t /\
  forall a b y type, (Z.of_nat a < NR)%Z -> (Z.of_nat b < NT)%Z -> (Z.of_nat y < NY)%Z -> (0 <= RadType2Idx type < 3)%Z ->
    let j := fun e => B2R (nth (where64 NR NT NY a b y (RadType2Idx type) e) absorption (b64_of_Z 0)) in
    returns (@sp_Emissivity b64 O t (rho a) (temp b) (Ye y) type) (600 * (F + 30) * total + 2 * IZR NE)
      (rg_dx rE * rsum (Z.to_nat NE) (fun e => 4 * PI * j e * pow10 (rg_node rE (Z.of_nat e)))) /\
    returns (@sp_NumberEmissivity b64 O t (rho a) (temp b) (Ye y) type) (600 * (F + 30) * total + 2 * IZR NE)
      (rg_dx rE * rsum (Z.to_nat NE) (fun e => 4 * PI * j e / MeV)) /\
    forall e, (Z.of_nat e < NE)%Z ->
      returns (@sp_EmissivityPerNuOmega b64 O pc t (rho a) (temp b) (Ye y) type (nu e)) (600 * (F + 30) * all) (h_cgs * j e / MeV) /\
      returns (@sp_EmissivityPerNu b64 O pc t (rho a) (temp b) (Ye y) type (nu e)) (600 * (F + 30) * all + 4) (4 * PI * (h_cgs * j e / MeV)).
Proof.
  intros L fresh F NR NT NY NE rhos temps yes energies emissivities absorption r0 r1 T0 T1 y0 y1 e0 e1 gR gT gY ge O pc lg rR rT rY rE
    rho temp Ye nu total all size MeV HL HG HF (Lr & R0 & R1) (Lt & TT0 & TT1) (Ly & Y0 & Y1) (Le & E0 & E1) Lem Lab ST OR OT OY OE XR XT XE GR GT GY GE.
  pose proof (n_two _ _ _ OR) as N1. pose proof (n_two _ _ _ OT) as N2. pose proof (n_two _ _ _ OY) as N3. pose proof (n_two _ _ _ OE) as N4.
  pose proof (n_small _ _ _ OE) as N5.
  assert (NN : g_N gR = NR /\ g_N gT = NT /\ g_N gY = NY /\ g_N ge = NE).
  { split; [|split; [|split]]; [exact (proj1 (proj2 (proj2 (dx_near L _ _ _ _ OR GR))))|exact (proj1 (proj2 (proj2 (dx_near L _ _ _ _ OT GT))))|
      exact (proj1 (proj2 (proj2 (dx_near L _ _ _ _ OY GY))))|exact (proj1 (proj2 (proj2 (dx_near L _ _ _ _ OE GE))))]. }
  set (storage := map fresh (seq 0 (Z.to_nat (NE * 3 * NY * NT * NR)))).
  assert (Sz : (0 <= size)%Z) by (unfold size; lia).
  assert (Ls : List.length storage = Z.to_nat size) by (unfold storage; rewrite map_length, seq_length; reflexivity).
  destruct (fun A B => @nl_fill_writes b64 O pc storage absorption NR NT NY 3 NE A B (@sp_zeros b64 O NR NT NY 3 NE)) as (d & Ed & Sd & Gd & _).
  { rewrite Ls. unfold size in *. lia. }
  { exact Lab. }
  { apply sized_zeros; lia. }
  set (j := fun a b y s e => nth (Z.to_nat (nl_cell 3 NY NT NR e s y b a)) absorption (@OofZ b64 O 0)).
  set (lj := fun a b y s e : nat => @Olog10 b64 O (scaled L (j a b y s) e)).
  assert (V5 : forall a b y s e, valid_cell NR NT NY 3 NE (C5 a b y s e) -> let c := sp_cell5 NT NY 3 NE a b y s e in
    (0 <= c)%Z /\ at_flat (d_jnu d) c = Ok (lj a b y s e)).
  { intros a b y s e Vc. pose proof (Gd _ Vc Vc) as G. cbn [get_cell cell_index nl_value] in G. apply get2_nth in G.
    destruct G as (_ & G2 & G3). split; [exact G3|exact G2]. }
  assert (SJ : forall a b y s e, valid_cell NR NT NY 3 NE (C5 a b y s e) -> storable F (j a b y s e)).
  { intros a b y s e Vc. apply ST. apply nth_In. pose proof (nl_cell_range storage absorption NR NT NY 3 NE a b y s e Vc). unfold size in *. lia. }
  destruct NN as (ER & ET & EY & EE).
  destruct (fun st => @integrals_writes b64 O pc gR gT gY ge 3 lj st) with (st := d) as (d' & Ed' & [Sd' Jd'] & Gd' & _).
  { unfold has_jnu. rewrite ER, ET, EY, EE. split; [exact Sd|]. intros a b y s e Vc. apply (V5 a b y s e Vc). }
  rewrite ?ER, ?ET, ?EY, ?EE in Sd', Jd', Gd'.
  eexists. split.
  { unfold LoadFromNuLib, nulib64. cbn [nl_nrho nl_ntemp nl_nye nl_number_groups nl_number_species nl_rho_points nl_temp_points
      nl_neutrino_energies nl_ye_points nl_emissivities nl_absorption_opacity ReadInt bind].
    rewrite (ReadBounds_ok _ _ _ _ Lr R0 R1). cbn [bind]. rewrite (ReadBounds_ok _ _ _ _ Lt TT0 TT1). cbn [bind].
    rewrite (ReadBounds_ok _ _ _ _ Le E0 E1). cbn [bind]. rewrite (ReadBounds_ok _ _ _ _ Ly Y0 Y1). cbn [bind]. fold storage. cbv zeta.
    rewrite read_into_full by (rewrite Ls; lia). cbn [bind].
    rewrite read_into_full by lia. cbn [bind fst snd]. fold (lg r0) (lg r1) (lg T0) (lg T1) (lg e0) (lg e1).
    rewrite GE. cbn [bind]. rewrite GY. cbn [bind]. rewrite GT. cbn [bind]. rewrite GR. cbn [bind]. rewrite Ed. cbn [bind]. rewrite Ed'. cbn [bind]. reflexivity. }
  (* what is stored *)
  set (pJ := fun a b y s => @Omul b64 O (fst (@isum b64 O pc ge (lj a b y s) (Z.to_nat NE))) (g_dx ge)).
  set (pN := fun a b y s => @Omul b64 O (snd (@isum b64 O pc ge (lj a b y s) (Z.to_nat NE))) (g_dx ge)).
  assert (TOT : forall a b y s, valid_cell NR NT NY 3 NE (C4 a b y s) ->
    (near (474 / 100 * F + 324 + IZR NE) (-620) 640 (pJ a b y s) (rg_dx rE * rsum (Z.to_nat NE) (rterm (lg e0) (lg e1) NE (j a b y s))) /\ storable (F + 30) (pJ a b y s)) /\
    (near (474 / 100 * F + 524 + IZR NE) (-680) 693 (pN a b y s) (rg_dx rE * rsum (Z.to_nat NE) (rcount (j a b y s))) /\ storable (F + 30) (pN a b y s))).
  { intros a b y s Vc. assert (HJ : forall e, (Z.of_nat e < NE)%Z -> storable F (j a b y s e)) by (intros e He; apply SJ; cbn in Vc |- *; lia).
    split; [exact (energy_total L HL HG _ _ _ _ F (j a b y s) OE XE GE HF HJ)|exact (count_total L HL HG _ _ _ _ F (j a b y s) OE XE GE HF HJ)]. }
  assert (C4' : forall a b y s, valid_cell NR NT NY 3 NE (C4 a b y s) -> let c := sp_cell4 NT NY 3 a b y s in (0 <= c)%Z /\
    (at_flat (d_J d') c = Ok (@ToLog b64 O (pJ a b y s)) /\ fin (@ToLog b64 O (pJ a b y s)) /\ Rabs (V (@ToLog b64 O (pJ a b y s))) <= 101 / 100 * (F + 30)) /\
    at_flat (d_JYe d') c = Ok (@ToLog b64 O (pN a b y s)) /\ fin (@ToLog b64 O (pN a b y s)) /\ Rabs (V (@ToLog b64 O (pN a b y s))) <= 101 / 100 * (F + 30)).
  { intros a b y s Vc. pose proof (Gd' (C4 a b y s) Vc Vc) as G. cbn [get_cell cell_index int_value] in G. apply get2_nth in G. destruct G as (G1 & G2 & G3).
    rewrite EE in G1, G2. fold (pJ a b y s) in G1. fold (pN a b y s) in G2.
    destruct (TOT a b y s Vc) as ((_ & Q1) & (_ & Q2)).
    destruct (storable_log L (F + 30) _ HG ltac:(lra) Q1) as (_ & F1 & B1). destruct (storable_log L (F + 30) _ HG ltac:(lra) Q2) as (_ & F2 & B2).
    destruct Q1 as (U1 & U2 & _), Q2 as (W1 & W2 & _).
    rewrite max_zero, toLog_same in F1, B1, F2, B2 by assumption. pose proof (toLog_same L _ U1 U2) as T1'. pose proof (toLog_same L _ W1 W2) as T2'. fold O in T1', T2', F1, B1, F2, B2.
    rewrite T1' in G1. rewrite T2' in G2. cbv zeta. auto 10. }
  assert (C5' : forall a b y s e, valid_cell NR NT NY 3 NE (C5 a b y s e) -> let c := sp_cell5 NT NY 3 NE a b y s e in (0 <= c)%Z /\
    at_flat (d_jnu d') c = Ok (lj a b y s e) /\ fin (lj a b y s e) /\ Rabs (V (lj a b y s e)) <= F + 30).
  { intros a b y s e Vc. destruct (V5 a b y s e Vc) as [P0 _]. split; [exact P0|]. split; [exact (Jd' a b y s e Vc)|].
    assert (HJ : forall e, (Z.of_nat e < NE)%Z -> storable F (j a b y s e)) by (intros e' He; apply SJ; cbn in Vc |- *; lia).
    destruct (scaled_near L NE F (j a b y s) HF HJ e ltac:(cbn in Vc; lia)) as (_ & Fs & Ps & Bs).
    destruct (log_abs L HG (F + 22) _ ltac:(lra) Fs Ps Bs) as [Fl El]. fold O in Fl, El. fold (lj a b y s e) in Fl, El. split; [exact Fl|].
    pose proof u_tiny. assert (2 * (F + 22) * u <= 1) by (apply Rle_trans with (400 * / 9000000000000000); [apply Rmult_le_compat; lra|lra]).
    pose proof (abs_size _ _ _ _ El Bs). lra. }
  destruct Sd' as (LJ & LN & _ & LE).
  assert (LT : forall (l : list b64) i x, nth_error l i = Some x -> (Z.of_nat i < Z.of_nat (List.length l))%Z).
  { intros l i x Hx. assert (i < List.length l)%nat by (apply nth_error_Some; rewrite Hx; discriminate). lia. }
  assert (B4 : bounded (101 / 100 * (F + 30)) (d_J d') /\ bounded (101 / 100 * (F + 30)) (d_JYe d')).
  { split; intros i x Hx; pose proof (LT _ _ _ Hx) as Hi; rewrite ?LJ, ?LN in Hi;
      destruct (index_cells NR NT NY 1 (Z.of_nat i) ltac:(lia) ltac:(lia) ltac:(lia) ltac:(lia)) as (a & b & y & s & e & (H1 & H2 & H3 & H4 & H5) & Ei);
      unfold sp_cell5 in Ei; assert (e = 0)%nat by lia; subst e; rewrite Z.mul_1_r, Z.add_0_r in Ei;
      destruct (C4' a b y s ltac:(cbn; lia)) as (P0 & (P1 & P2 & P3) & P4 & P5 & P6).
    - pose proof (at_flat_nth _ _ _ i x P1 P0 Ei Hx) as <-. auto.
    - pose proof (at_flat_nth _ _ _ i x P4 P0 Ei Hx) as <-. auto. }
  assert (B5 : bounded (F + 30) (d_jnu d')).
  { intros i x Hx. pose proof (LT _ _ _ Hx) as Hi. rewrite LE in Hi.
    destruct (index_cells NR NT NY NE (Z.of_nat i) ltac:(lia) ltac:(lia) ltac:(lia) ltac:(lia)) as (a & b & y & s & e & Hv & Ei).
    destruct (C5' a b y s e Hv) as (P0 & P1 & P2 & P3). pose proof (at_flat_nth _ _ _ i x P1 P0 Ei Hx) as <-. auto. }
  pose proof (cells_half _ _ _ OR) as K1. pose proof (cells_half _ _ _ OT) as K2. pose proof (cells_half _ _ _ OY) as K3. pose proof (cells_half _ _ _ OE) as K4.
  pose proof (cells_le _ _ _ OR) as M1. pose proof (cells_le _ _ _ OT) as M2. pose proof (cells_le _ _ _ OY) as M3. pose proof (cells_le _ _ _ OE) as M4.
  fold rR in K1, M1. fold rT in K2, M2. fold rY in K3, M3. fold rE in K4, M4.
  assert (HT : 3 / 2 <= total <= 4000000) by (unfold total; lra). assert (HA : 3 / 2 <= all <= 4000000) by (unfold all, total; lra).
  assert (RN : 2 <= IZR NE <= 2000001) by (split; apply IZR_le; lia).
  assert (T40 : 2 ^ 40 = 1099511627776) by (simpl; lra).
  assert (FT : (F + 30) * (3 / 2) <= (F + 30) * total) by (apply Rmult_le_compat_l; lra).
  assert (FA : (F + 30) * (3 / 2) <= (F + 30) * all) by (apply Rmult_le_compat_l; lra).
  intros a b y type Ha Hb Hy Hk j'. set (s := Z.to_nat (RadType2Idx type)). assert (Es : Z.of_nat s = RadType2Idx type) by (unfold s; lia).
  assert (EJ : forall e, j' e = V (j a b y s e)) by (intros e; unfold j', j, where64, nl_cell; rewrite Es; reflexivity).
  assert (V4 : valid_cell NR NT NY 3 NE (C4 a b y s)) by (cbn; lia).
  destruct (C4' _ _ _ _ V4) as (_ & (P1 & _ & _) & P4 & _ & _). unfold sp_cell4 in P1, P4. rewrite Es in P1, P4.
  destruct (TOT _ _ _ _ V4) as ((NJ & SJ') & (NN & SN')).
  pose proof (fun x r m => total_answer L (F + 30) total x _ r m HG ltac:(lra) ltac:(lra) SJ') as AJ.
  pose proof (fun x r m => total_answer L (F + 30) total x _ r m HG ltac:(lra) ltac:(lra) SN') as AN.
  assert (WK : forall n n' x r, within n x r -> n <= n' -> within n' x r).
  { intros n n' x r [Fx Ex] Hn. split; [exact Fx|]. apply Rle_trans with (1 := Ex). apply Rmult_le_compat_r; [apply Rabs_pos|].
    pose proof u_pos. fold u. apply Rmult_le_compat_r; lra. }
  split; [|split].
  - destruct (node4 L HL HG _ _ _ _ y0 y1 NR NT NY OR OT OY XR XT gR gT gY GR GT GY (101 / 100 * (F + 30)) (d_J d') (Z.of_nat a) (Z.of_nat b) (Z.of_nat y) type _
      ltac:(lra) (proj1 B4) LJ ltac:(lia) ltac:(lia) ltac:(lia) Hk P1) as (x & Ex & Wx).
    exists x. split; [exact Ex|].
    replace (rsum (Z.to_nat NE) (fun e => 4 * PI * j' e * pow10 (rg_node rE (Z.of_nat e)))) with (rsum (Z.to_nat NE) (rterm (lg e0) (lg e1) NE (j a b y s)))
      by (apply DoubleMeans.rsum_ext; intros e _; unfold rterm; now rewrite EJ).
    refine (WK _ _ _ _ (AJ x _ _ (near_rel _ _ _ _ _ NJ ltac:(lra)) (proj1 (near_pos _ _ _ _ _ NJ)) ltac:(lra) Wx) _).
    apply Rle_trans with (570 * ((F + 30) * total) + 1002 / 1000 * (1002 / 1000 * (474 / 100 * F + 324 + IZR NE))); [lra|]. replace (600 * (F + 30) * total) with (600 * ((F + 30) * total)) by ring. lra.
  - destruct (node4 L HL HG _ _ _ _ y0 y1 NR NT NY OR OT OY XR XT gR gT gY GR GT GY (101 / 100 * (F + 30)) (d_JYe d') (Z.of_nat a) (Z.of_nat b) (Z.of_nat y) type _
      ltac:(lra) (proj2 B4) LN ltac:(lia) ltac:(lia) ltac:(lia) Hk P4) as (x & Ex & Wx).
    exists x. split; [exact Ex|].
    replace (rsum (Z.to_nat NE) (fun e => 4 * PI * j' e / MeV)) with (rsum (Z.to_nat NE) (rcount (j a b y s)))
      by (apply DoubleMeans.rsum_ext; intros e _; unfold rcount; now rewrite EJ).
    refine (WK _ _ _ _ (AN x _ _ (near_rel _ _ _ _ _ NN ltac:(lra)) (proj1 (near_pos _ _ _ _ _ NN)) ltac:(lra) Wx) _).
    apply Rle_trans with (570 * ((F + 30) * total) + 1002 / 1000 * (1002 / 1000 * (474 / 100 * F + 524 + IZR NE))); [lra|]. replace (600 * (F + 30) * total) with (600 * ((F + 30) * total)) by ring. lra.
  - intros e He. assert (V5' : valid_cell NR NT NY 3 NE (C5 a b y s e)) by (cbn; lia).
    destruct (C5' _ _ _ _ _ V5') as (_ & Q1 & _ & _). unfold sp_cell5, sp_cell4 in Q1. rewrite Es in Q1.
    destruct (node5 L HL HG _ _ _ _ y0 y1 _ _ NR NT NY NE OR OT OY OE XR XT XE gR gT gY ge GR GT GY GE (F + 30) (d_jnu d')
      (Z.of_nat a) (Z.of_nat b) (Z.of_nat y) type (Z.of_nat e) _ ltac:(lra) B5 LE ltac:(lia) ltac:(lia) ltac:(lia) Hk ltac:(lia) Q1) as (z & Ez & Wz).
    assert (HJ : forall e, (Z.of_nat e < NE)%Z -> storable F (j a b y s e)) by (intros e' He'; apply SJ; cbn; lia).
    destruct (scaled_near L NE F (j a b y s) HF HJ e He) as (Ns & Fs & Ps & Bs).
    assert (WZ : within (600 * (F + 30) * all) z (h_cgs * j' e / MeV)).
    { rewrite EJ.
      refine (WK _ _ _ _ (log_answer L (F + 30) all z _ _ _ HG ltac:(lra) ltac:(lra) Fs Ps ltac:(lra) (near_rel _ _ _ _ _ Ns ltac:(lra)) (proj1 (near_pos _ _ _ _ _ Ns)) ltac:(lra) Wz) _).
      apply Rle_trans with (556 * ((F + 30) * all) + 1002 / 1000 * (1002 / 1000 * 5)); [lra|]. replace (600 * (F + 30) * all) with (600 * ((F + 30) * all)) by ring. lra. }
    split; [exists z; split; [exact Ez|exact WZ]|].
    exists (@Omul b64 O (@Omul b64 O (@OofZ b64 O 4) (@Opi b64 O)) z). split.
    + transitivity (bind (Ok z) (fun j => Ok (@Omul b64 O (@Omul b64 O (@OofZ b64 O 4) (@Opi b64 O)) j))); [rewrite <- Ez; reflexivity|reflexivity].
    + assert (FC : 0 <= (F + 30) * all <= 200 * 4000000) by (split; [apply Rmult_le_pos; lra|apply Rmult_le_compat; lra]).
      apply four_pi; [exact WZ|lra| |].
      * rewrite u_lit. apply Rle_trans with (600 * (200 * 4000000) * / 9007199254740992); [apply Rmult_le_compat_r; lra|lra].
      * rewrite EJ. destruct Ns as (_ & _ & [R1' R2'] & _).
        split; [apply Rle_trans with (2 := R1')|apply Rle_trans with (1 := R2')]; apply bpow_le; lia.
Qed.

(** ** An example *)
Lemma ex_log k : (k = 1 \/ k = 10)%Z -> let l := @Olog10 b64 (B64_ops nearest_libm) (ex_z k) in fin l /\ V l = log10 (IZR k) /\ (k = 1%Z -> V l = 0) /\ (k = 10%Z -> V l = 1).
Proof.
  intros H l. destruct (ex_zv k ltac:(lia)) as [_ Vk]. pose proof ln10 as L10.
  assert (A : log10 1 = 0) by (unfold log10; rewrite ln_1; unfold Rdiv; ring). assert (B : log10 10 = 1) by (unfold log10; field; lra).
  assert (S : Rabs (log10 (IZR k)) <= bp 1000).
  { apply Rle_trans with 1; [|change 1 with (bp 0); apply bpow_le; lia]. destruct H as [-> | ->]; [rewrite A, Rabs_R0; lra|rewrite B, Rabs_R1; lra]. }
  destruct (nearest_V _ S) as [F1 E1]. change l with (nearest (log10 (V (ex_z k)))). rewrite Vk. split; [exact F1|].
  assert (E : V (nearest (log10 (IZR k))) = log10 (IZR k)).
  { rewrite E1. destruct H as [-> | ->]; [rewrite A; unfold rnd; apply round_0; apply valid_rnd_N|rewrite B].
    rewrite <- (proj2 (ex_zv 1 ltac:(lia))). apply rnd_id, V_fmt. }
  rewrite E. split; [reflexivity|]. split; intros ->; assumption.
Qed.
Lemma ex_line (lo hi : b64) : fin lo -> fin hi -> V lo = 0 -> V hi = 1 ->
  ordinary lo hi 2 /\ extent (real_grid lo hi 2) <= 8 /\ exists g, @mk_grid b64 (B64_ops nearest_libm) lo hi 2 = Ok g.
Proof.
  intros F0 F1 V0 V1.
  assert (X : extent (real_grid lo hi 2) <= 1).
  { unfold extent. cbn [real_grid rg_lo rg_hi]. fold (V lo) (V hi). rewrite V0, V1, Rabs_R0, Rabs_R1. repeat apply Rmax_lub; lra. }
  split; [|split].
  - split; [exact F0|]. split; [exact F1|]. fold (V lo) (V hi). rewrite V0, V1. split; [lra|]. split; [lia|]. split; [lra|].
    unfold cells, rg_dx. cbn [real_grid rg_lo rg_hi rg_n]. fold (V lo) (V hi). rewrite V0, V1. change (IZR (2 - 1)) with 1. lra.
  - lra.
  - unfold mk_grid. change (@Oltb b64 (B64_ops nearest_libm) lo hi) with (Bltb lo hi). rewrite Bltb_correct by assumption. fold (V lo) (V hi).
    rewrite V0, V1, Rlt_bool_true by lra. now eexists.
Qed.

(** A file of two densities, temperatures, electron fractions and groups, whose 48 numbers run
    1, 2, 3, 4, 1, 2, ... *)
Lemma C66_load_example :
  exists (L : Libm) (fresh : nat -> b64) (F : R) (NR NT NY NE : Z) (rhos temps yes energies emissivities absorption : list b64)
    (r0 r1 T0 T1 y0 y1 e0 e1 : b64) (gR gT gY ge : Grid b64),
  let O := B64_ops L in
  let lg := @Olog10 b64 O in
  let size := (NE * 3 * NY * NT * NR)%Z in
  accurate_libm L /\ accurate_log10 L /\ 1 <= F <= 170 /\
  spans rhos NR r0 r1 /\ spans temps NT T0 T1 /\ spans yes NY y0 y1 /\ spans energies NE e0 e1 /\
  Z.of_nat (List.length emissivities) = size /\ Z.of_nat (List.length absorption) = size /\ (forall x, In x absorption -> storable F x) /\
  ordinary (lg r0) (lg r1) NR /\ ordinary (lg T0) (lg T1) NT /\ ordinary y0 y1 NY /\ ordinary (lg e0) (lg e1) NE /\
  extent (real_grid (lg r0) (lg r1) NR) <= 29 /\ extent (real_grid (lg T0) (lg T1) NT) <= 18 /\ extent (real_grid (lg e0) (lg e1) NE) <= 8 /\
  @mk_grid b64 O (lg r0) (lg r1) NR = Ok gR /\ @mk_grid b64 O (lg T0) (lg T1) NT = Ok gT /\
  @mk_grid b64 O y0 y1 NY = Ok gY /\ @mk_grid b64 O (lg e0) (lg e1) NE = Ok ge /\
  (forall k, (k < 48)%nat -> B2R (nth k absorption r0) = 1 + INR (k mod 4)).
Proof.
  destruct (ex_log 1 ltac:(lia)) as (F0 & _ & V0 & _). destruct (ex_log 10 ltac:(lia)) as (F1 & _ & _ & V1). cbv zeta in F0, V0, F1, V1.
  specialize (V0 eq_refl). specialize (V1 eq_refl). destruct (ex_zv 0 ltac:(lia)) as [G0 W0]. destruct (ex_zv 1 ltac:(lia)) as [G1 W1].
  destruct (ex_line _ _ F0 F1 V0 V1) as (OL & XL & g & GL). destruct (ex_line _ _ G0 G1 W0 W1) as (OY & XY & gY & GY).
  set (data := map (fun k => ex_z (1 + Z.of_nat (k mod 4))) (seq 0 48)).
  exists nearest_libm, (fun _ => ex_z 0), 1, 2%Z, 2%Z, 2%Z, 2%Z, [ex_z 1; ex_z 10], [ex_z 1; ex_z 10], [ex_z 0; ex_z 1], [ex_z 1; ex_z 10], data, data,
    (ex_z 1), (ex_z 10), (ex_z 1), (ex_z 10), (ex_z 0), (ex_z 1), (ex_z 1), (ex_z 10), g, g, gY, g. cbv zeta.
  assert (LD : Z.of_nat (List.length data) = 48%Z) by (unfold data; rewrite map_length, seq_length; reflexivity).
  split; [apply nearest_accurate|]. split; [apply nearest_log10_accurate|]. split; [lra|].
  split; [repeat split|]. split; [repeat split|]. split; [repeat split|]. split; [repeat split|].
  split; [exact LD|]. split; [exact LD|]. split.
  { intros x Hx. unfold data in Hx. apply in_map_iff in Hx. destruct Hx as (k & <- & _). pose proof (Nat.mod_upper_bound k 4 ltac:(lia)) as K.
    destruct (ex_zv (1 + Z.of_nat (k mod 4)) ltac:(lia)) as [Fk Vk]. split; [exact Fk|]. fold (V (ex_z (1 + Z.of_nat (k mod 4)))). rewrite Vk.
    assert (R1 : 1 <= IZR (1 + Z.of_nat (k mod 4)) <= 4) by (split; apply IZR_le; lia).
    split; [lra|]. destruct (log01 _ (conj (proj1 R1) (Rle_trans _ _ 10 (proj2 R1) ltac:(lra)))). apply Rabs_le. lra. }
  split; [exact OL|]. split; [exact OL|]. split; [exact OY|]. split; [exact OL|]. split; [lra|]. split; [lra|]. split; [lra|].
  split; [exact GL|]. split; [exact GL|]. split; [exact GY|]. split; [exact GL|].
  intros k Hk. unfold data. pose proof (Nat.mod_upper_bound k 4 ltac:(lia)) as K.
  rewrite (nth_indep _ _ ((fun k => ex_z (1 + Z.of_nat (k mod 4))) 0%nat)) by (rewrite map_length, seq_length; exact Hk).
  rewrite (map_nth (fun k => ex_z (1 + Z.of_nat (k mod 4)))), seq_nth by exact Hk. cbn [Nat.add].
  destruct (ex_zv (1 + Z.of_nat (k mod 4)) ltac:(lia)) as [_ Vk]. unfold V in Vk. rewrite Vk, plus_IZR, <- INR_IZR_INZ. reflexivity.
Qed.
