(** Neutrino tables by energy in double precision: logarithms, units and lookups. *)
From Coq Require Import Reals ZArith List Lra Lia Bool.
From Flocq Require Import Core IEEE754.BinarySingleNaN.
From Verif Require Import Base.Outcome Base.Ops Inst.B64 Model.RadTypes Model.Constants Model.MeanUtils Model.Spiner Model.SpinerNeutrinos
  Spec.Tables Spec.Tabulated Spec.DoublePrecision Spec.DoubleTables Spec.DoubleSpiner
  Proofs.B64Facts Proofs.Near Proofs.NearConsts Proofs.NearRules Proofs.NarrowGroup Proofs.DoubleTables Proofs.DoubleLookup.
Import ListNotations.
Open Scope R_scope.

(** ** Logarithms of nearby numbers *)
Lemma ln10_two : 2 <= ln 10.
Proof. rewrite <- (ln_exp 2). apply ln_mono; [apply exp_pos|]. pose proof exp2_le_8. lra. Qed.

Lemma log_near n a b z x : near n a b z x -> Rabs (log10 (V z) - log10 x) <= 51 / 100 * n * u.
Proof.
  intros (Fz & N0 & R & Hz). pose proof ln10_two as L. pose proof u_pos as U.
  assert (Px : 0 < x) by (pose proof (bpow_gt_0 radix2 a); lra).
  assert (Q : log10 (V z) - log10 x = (ln (V z) - ln x) / ln 10) by (unfold log10; field; lra). rewrite Q. clear Q.
  assert (Bz : - (n * w) <= ln (V z) - ln x <= n * w).
  { pose proof (exp_pos (- (n * w))) as E1. pose proof (exp_pos (n * w)) as E2.
    assert (A1 : ln (x * exp (- (n * w))) <= ln (V z)) by (apply ln_mono; [apply Rmult_lt_0_compat; lra|apply Hz]).
    assert (P : 0 < V z) by (apply Rlt_le_trans with (2 := proj1 Hz); apply Rmult_lt_0_compat; lra).
    assert (A2 : ln (V z) <= ln (x * exp (n * w))) by (apply ln_mono; [exact P|apply Hz]).
    rewrite ln_mult, ln_exp in A1 by lra. rewrite ln_mult, ln_exp in A2 by lra. lra. }
  assert (NW : 0 <= n * w) by (apply Rmult_le_pos; [lra|left; apply w_pos]).
  unfold Rdiv. rewrite Rabs_mult, (Rabs_pos_eq (/ ln 10)) by (left; apply Rinv_0_lt_compat; lra).
  assert (I : / ln 10 <= / 2) by (apply Rinv_le_contravar; lra). pose proof (Rinv_0_lt_compat (ln 10) ltac:(lra)) as I0.
  apply Rle_trans with (n * w * / 2).
  - apply Rmult_le_compat; [apply Rabs_pos|lra| |exact I]. apply abs_bound. lra.
  - unfold w. assert (0 <= n * u) by (apply Rmult_le_pos; lra). lra.
Qed.

Section Sp.
  Variable L : Libm.
  Notation O := (B64_ops L).
  Notation pc := (@PhysicalConstantsCGS b64 O).
  Hypothesis HL : accurate_libm L.
  Hypothesis HG : accurate_log10 L.
  Let U : 0 < u <= / 9000000000000000.
  Proof. rewrite u_lit. split; [apply Rinv_0_lt_compat; lra|apply Rinv_le_contravar; lra]. Qed.

  (** ** The units *)
  Lemma c_MeV2K : near 0 33 34 (@sp_MeV2K b64 O) kelvin_per_MeV.
  Proof. apply (lit_near' 0 _ 11604525006 1); [vm_compute; reflexivity|]. unfold kelvin_per_MeV. lra. Qed.
  Lemma c_K2MeV : near 1 (-34) (-33) (@sp_K2MeV b64 O) (/ kelvin_per_MeV).
  Proof. apply (lit_near' 1 _ 1 11604525006); [vm_compute; reflexivity|]. unfold kelvin_per_MeV. lra. Qed.
  Lemma c_Hz2MeV : near 2 (-68) (-67) (@sp_Hz2MeV b64 O pc) (h_cgs / (10 ^ 6 * eV_cgs)).
  Proof.
    apply (lit_near' 2 _ 662606957 (1602176565 * 10 ^ 20)); [vm_compute; reflexivity|]. unfold h_cgs, eV_cgs.
    rewrite mult_IZR. change (10 ^ 20)%Z with (10 ^ Z.of_nat 20)%Z. rewrite <- pow_IZR. field.
  Qed.
  Lemma c_MeV2Hz : near 2 67 68 (@sp_MeV2Hz b64 O pc) (10 ^ 6 * eV_cgs / h_cgs).
  Proof.
    apply (lit_near' 2 _ (1602176565 * 10 ^ 20) 662606957); [vm_compute; reflexivity|]. unfold h_cgs, eV_cgs.
    rewrite mult_IZR. change (10 ^ 20)%Z with (10 ^ Z.of_nat 20)%Z. rewrite <- pow_IZR. field.
  Qed.

  (** ** toLog_ and fromLog_ *)
  Lemma plus_zero (x : b64) : fin x -> 0 < V x -> Bplus mode_NE x (b64_of_Z 0) = x.
  Proof. intros F P. destruct x as [s| | |s m e H]; try discriminate F; [exfalso; unfold V in P; cbn in P; lra|reflexivity]. Qed.
  Lemma max_zero (x : b64) : fin x -> 0 < V x -> @Omax b64 O x (@OofZ b64 O 0) = x.
  Proof.
    intros F P. unfold Omax.
    destruct x as [s| | |s m e H]; try discriminate F; [exfalso; unfold V in P; cbn in P; lra|].
    destruct s; [exfalso|reflexivity]. unfold V in P. cbn [B2R] in P.
    pose proof (F2R_lt_0 radix2 (Float radix2 (Z.neg m) e) ltac:(reflexivity)). cbn in *. lra.
  Qed.
  Lemma max_mzero (x : b64) : fin x -> 0 < V x -> @Omax b64 O x (@Oopp b64 O (@OofZ b64 O 0)) = x.
  Proof.
    intros F P. unfold Omax.
    destruct x as [s| | |s m e H]; try discriminate F; [exfalso; unfold V in P; cbn in P; lra|].
    destruct s; [exfalso|reflexivity]. unfold V in P. cbn [B2R] in P.
    pose proof (F2R_lt_0 radix2 (Float radix2 (Z.neg m) e) ltac:(reflexivity)). cbn in *. lra.
  Qed.
  Lemma toLog_same (x : b64) : fin x -> 0 < V x -> @sp_toLog b64 O x = @ToLog b64 O x.
  Proof.
    intros F P. unfold sp_toLog. rewrite max_mzero by assumption.
    change (@Oadd b64 O x (@OofZ b64 O 0)) with (Bplus mode_NE x (b64_of_Z 0)). rewrite plus_zero by assumption. reflexivity.
  Qed.
  Lemma minus_zero (x : b64) : fin x -> 0 < V x -> Bminus mode_NE x (b64_of_Z 0) = x.
  Proof. intros F P. destruct x as [s| | |s m e H]; try discriminate F; [exfalso; unfold V in P; cbn in P; lra|reflexivity]. Qed.
  Lemma fromLog_same (v : b64) : fin v -> -251 <= V v <= 251 -> @sp_fromLog b64 O v = @FromLog b64 O v.
  Proof.
    intros F H. destruct (FromLog64 L HL v F H) as [Fp Ep]. change (@sp_fromLog b64 O v) with (Bminus mode_NE (@FromLog b64 O v) (b64_of_Z 0)).
    set (p := @FromLog b64 O v) in *. fold u (V p) in Ep.
    pose proof (pow10_pos (V v)) as P. rewrite (Rabs_pos_eq (pow10 (V v))) in Ep by lra. apply abs_both in Ep.
    assert (2 * u * pow10 (V v) <= 1 / 2 * pow10 (V v)) by (apply Rmult_le_compat_r; lra).
    apply minus_zero; [exact Fp|lra].
  Qed.

  (** ten to an interpolated number *)
  Lemma unscaled64 v r D : fin v -> Rabs (V v - r) <= D * u -> D * u <= 1 / 1000 -> -250 <= r <= 250 ->
    within (237 / 100 * D + 4) (@sp_fromLog b64 O v) (pow10 r).
  Proof.
    intros Fv H HD Hb. assert (D0 : 0 <= D * u) by (pose proof (Rabs_pos (V v - r)); lra).
    pose proof (abs_both _ _ H) as H'. rewrite fromLog_same by (try assumption; lra).
    destruct (FromLog64 L HL v Fv ltac:(lra)) as [Fp Ep]. set (p := @FromLog b64 O v) in *. split; [exact Fp|]. fold u (V p) in Ep |- *.
    rewrite (Rabs_pos_eq (pow10 (V v))) in Ep by (left; apply pow10_pos).
    pose proof (pow10_step r (V v) (D * u) H HD) as S. pose proof (pow10_pos r) as P0. set (P := pow10 r) in *.
    pose proof (abs_both _ _ S) as S'. rewrite (Rabs_pos_eq P) by lra.
    assert (DP : 0 <= D * u * P <= 1 / 1000 * P) by (split; [apply Rmult_le_pos; lra|apply Rmult_le_compat_r; lra]).
    assert (uP : 0 < u * P) by (apply Rmult_lt_0_compat; lra).
    apply Rle_trans with (2 * u * (11 / 10 * P) + 236 / 100 * (D * u) * P); [|lra].
    apply abs_near with (pow10 (V v)); [|exact S]. apply Rle_trans with (1 := Ep). apply Rmult_le_compat_l; lra.
  Qed.

  (** ** Coordinates in other units *)
  Lemma near_range n a b z x : near n a b z x -> n <= 1000 -> (-899 <= a)%Z -> (b <= 899)%Z -> bp (-900) <= V z <= bp 900.
  Proof.
    intros (Fz & N0 & R & Hz) Hn Ha Hb.
    destruct (small_exp n) as [X1 X2]; [split; [exact N0|lra]|]. pose proof (bpow_gt_0 radix2 a) as Pa. split.
    - apply Rle_trans with (2 := proj1 Hz). apply Rle_trans with (bp a * / 2).
      + apply Rle_trans with (bp (-899) * bp (-1)); [rewrite <- bpow_plus; apply bpow_le; lia|]. change (bp (-1)) with (/ 2).
        apply Rmult_le_compat_r; [lra|]. apply bpow_le. lia.
      + apply Rmult_le_compat; lra.
    - apply Rle_trans with (1 := proj2 Hz). apply Rle_trans with (bp b * 2).
      + apply Rmult_le_compat; try lra. left. apply exp_pos.
      + apply Rle_trans with (bp 899 * bp 1); [change (bp 1) with 2; apply Rmult_le_compat_r; [lra|]; apply bpow_le; lia|].
        rewrite <- bpow_plus. apply bpow_le. lia.
  Qed.
  Lemma unit_coordinate g p z x y k n a b : dim64 L p (Axis g) -> near n a b z x -> (-899 <= a)%Z -> (b <= 899)%Z ->
    n <= 1000 -> k + 51 / 100 * n <= 16 -> coordinate k g (log10 x) y ->
    fin (@sp_toLog b64 O z) /\ coordinate 20 g (B2R (@sp_toLog b64 O z)) y.
  Proof.
    intros (lo & hi & G & E & Ho & _) N Ha Hb Hn4 Hk [Cy Cx]. pose proof (near_pos _ _ _ _ _ N) as [Px Pz].
    pose proof (log_near _ _ _ _ _ N) as LN. pose proof (near_range _ _ _ _ _ N Hn4 Ha Hb) as Rz. destruct N as (Fz & N0 & _).
    rewrite toLog_same by assumption. destruct (ToLog64 L HG z Fz Rz) as [Fl El]. split; [exact Fl|].
    pose proof (extent_1 lo hi (rg_n g)) as X1. rewrite <- E in X1.
    rewrite E. apply (coordinate64 lo hi (rg_n g) (V z) _ y Ho El). rewrite <- E. split; [exact Cy|].
    apply Rle_trans with (1 := abs_near _ _ _ _ _ LN Cx). fold u.
    assert (n * u * 1 <= n * u * extent g) by (apply Rmult_le_compat_l; [apply Rmult_le_pos; lra|exact X1]).
    assert (0 < u * extent g) by (apply Rmult_lt_0_compat; lra).
    assert ((k + 51 / 100 * n) * (u * extent g) <= 16 * (u * extent g)) by (apply Rmult_le_compat_r; lra). lra.
  Qed.
  Lemma temp_coordinate g p temp y : dim64 L p (Axis g) -> physical temp -> coordinate 14 g (log10 (temp_MeV (B2R temp))) y ->
    let z := @sp_toLog b64 O (@Omul b64 O temp (@sp_K2MeV b64 O)) in fin z /\ coordinate 20 g (B2R z) y.
  Proof.
    intros D P C. refine (unit_coordinate g p _ (V temp * / kelvin_per_MeV) y 14 (0 + 1 + 1) (-100 + -34) (100 + -33) D _ _ _ _ _ C); try lia; try lra.
    apply n_mul; [apply near_in, P|apply c_K2MeV|lia|lia|lra].
  Qed.
  Lemma energy_coordinate g p nu y : dim64 L p (Axis g) -> physical nu -> coordinate 14 g (log10 (energy_MeV (B2R nu))) y ->
    let z := @sp_toLog b64 O (@Omul b64 O (@sp_Hz2MeV b64 O pc) nu) in fin z /\ coordinate 20 g (B2R z) y.
  Proof.
    intros D P C. refine (unit_coordinate g p _ (h_cgs / (10 ^ 6 * eV_cgs) * V nu) y 14 (2 + 0 + 1) (-68 + -100) (-67 + 100) D _ _ _ _ _ _); try lia; try lra.
    - apply n_mul; [apply c_Hz2MeV|apply near_in, P|lia|lia|lra].
    - replace (h_cgs / (10 ^ 6 * eV_cgs) * V nu) with (energy_MeV (B2R nu)); [exact C|]. unfold energy_MeV, V, eV_cgs. field.
  Qed.

  (** ** Nodes *)
  Lemma sp_node lo hi N G a X : ordinary lo hi N -> extent (real_grid lo hi N) <= X -> X <= 30 ->
    mk_grid (O := O) lo hi N = Ok G -> (0 <= a <= N - 1)%Z ->
    let v := @g_x b64 O G a in
    fin v /\ - X - 1 / 1000 <= V v <= X + 1 / 1000 /\
    Rabs (V v - rg_node (real_grid lo hi N) a) <= 96 / 10 * u * extent (real_grid lo hi N) /\
    near 2 (-110) 110 (@sp_fromLog b64 O v) (pow10 (V v)) /\ @sp_fromLog b64 O v = @FromLog b64 O v.
  Proof.
    intros Ho HX HX30 EG Ha v. rewrite (grid64 L lo hi N Ho) in EG. injection EG as <-.
    destruct (node64 lo hi N Ho a Ha) as [Ff Ef].
    change (@g_x b64 (B64_ops L) _ a) with (Bplus mode_NE (Bmult mode_NE (b64_of_Z a) (Bdiv mode_NE (Bminus mode_NE hi lo) (b64_of_Z (N - 1)))) lo) in v.
    fold v in Ff, Ef. clearbody v. pose proof (node_in lo hi N Ho a Ha) as Hin. pose proof (extent_1 lo hi N) as X1.
    set (g := real_grid lo hi N) in *. set (y := rg_node g a) in *.
    assert (By : - X <= y <= X).
    { destruct Hin as [A B]. unfold extent in HX.
      pose proof (Rmax_r 1 (Rmax (Rabs (rg_lo g)) (Rabs (rg_hi g)))). pose proof (Rmax_l (Rabs (rg_lo g)) (Rabs (rg_hi g))).
      pose proof (Rmax_r (Rabs (rg_lo g)) (Rabs (rg_hi g))).
      pose proof (abs_both (rg_lo g) _ (Rle_refl _)). pose proof (abs_both (rg_hi g) _ (Rle_refl _)). lra. }
    assert (uX : 0 < u * extent g <= / 10000000000000).
    { split; [apply Rmult_lt_0_compat; lra|]. apply Rle_trans with (/ 9000000000000000 * 30); [apply Rmult_le_compat; lra|lra]. }
    pose proof (abs_both _ _ Ef) as Ef'.
    assert (Bv : - X - 1 / 1000 <= V v <= X + 1 / 1000) by lra.
    split; [exact Ff|]. split; [exact Bv|]. split; [exact Ef|].
    assert (EQ : @sp_fromLog b64 O v = @FromLog b64 O v) by (apply fromLog_same; [exact Ff|lra]).
    split; [|exact EQ]. rewrite EQ. pose proof (FromLog64 L HL v Ff ltac:(lra)) as W.
    destruct (within_near 2 _ _ W ltac:(lra) (pow10_pos _)) as [Fx Hx]. split; [exact Fx|]. split; [lra|]. split; [|exact Hx].
    assert (P33 : pow10 33 <= bp 110).
    { replace 33 with (INR 33) by (simpl; lra). rewrite pow10_nat. change (bp 110) with (IZR (2 ^ 110)). rewrite pow_IZR. apply IZR_le. vm_compute. congruence. }
    split.
    - apply Rle_trans with (pow10 (-33)); [|apply pow10_mono; lra].
      replace (pow10 (-33)) with (/ pow10 33) by (unfold pow10; rewrite <- Rpower_Ropp; reflexivity).
      change (-110)%Z with (- (110))%Z. rewrite bpow_opp. apply Rinv_le_contravar; [apply pow10_pos|exact P33].
    - apply Rle_trans with (2 := P33). apply pow10_mono. lra.
  Qed.

  (** a node in other units: [z] is ten to the node times the unit [k] *)
  Lemma node_units lo hi N G a X n x z k x0 b0 : ordinary lo hi N -> extent (real_grid lo hi N) <= X -> X <= 30 ->
    mk_grid (O := O) lo hi N = Ok G -> (0 <= a <= N - 1)%Z -> 0 < k -> n <= 5 ->
    near n x0 b0 z (k * pow10 (V (@g_x b64 O G a))) -> x = V z / k ->
    coordinate 14 (real_grid lo hi N) (log10 x) (rg_node (real_grid lo hi N) a).
  Proof.
    intros Ho HX HX30 EG Ha Hk Hn Nz ->. destruct (sp_node lo hi N G a X Ho HX HX30 EG Ha) as (Fv & _ & Ev & _).
    set (v := @g_x b64 O G a) in *. clearbody v. pose proof (log_near _ _ _ _ _ Nz) as LN. pose proof (near_pos _ _ _ _ _ Nz) as [_ Pz].
    assert (N0 : 0 <= n) by apply Nz.
    pose proof (extent_1 lo hi N) as X1. split; [apply node_in; [exact Ho|lia]|]. fold u.
    assert (E : log10 (V z / k) - V v = log10 (V z) - log10 (k * pow10 (V v))).
    { rewrite <- (log10_pow10 (V v)) at 1. pose proof ln10. pose proof (pow10_pos (V v)).
      unfold log10 at 1 2 3 4. rewrite ln_mult by assumption. unfold Rdiv at 2. rewrite ln_mult, ln_Rinv; [field; lra|assumption..|].
      now apply Rinv_0_lt_compat. }
    rewrite <- E in LN. apply Rle_trans with (1 := abs_near _ _ _ _ _ LN Ev).
    assert (n * u * 1 <= n * u * extent (real_grid lo hi N)) by (apply Rmult_le_compat_l; [apply Rmult_le_pos; lra|exact X1]).
    assert (0 < u * extent (real_grid lo hi N)) by (apply Rmult_lt_0_compat; lra).
    assert (n * (u * extent (real_grid lo hi N)) <= 5 * (u * extent (real_grid lo hi N))) by (apply Rmult_le_compat_r; lra). lra.
  Qed.

  (** a product that is physical *)
  Lemma unit_physical n a b z c X v k : near n a b z (k * pow10 (V v)) -> n <= 1000 -> 0 < k ->
    - X - 1 / 1000 <= V v <= X + 1 / 1000 -> 0 <= c -> c + X <= 2995 / 100 -> pow10 (- c) <= k <= pow10 c -> physical z.
  Proof.
    intros N Hn Hk Hv Hc Hcx Bk. pose proof N as (Fz & N0 & _ & Hz). split; [exact Fz|]. fold (V z).
    assert (NU : n * w <= / 1000000000).
    { unfold w. assert (n * u <= 1000 * / 9000000000000000) by (apply Rmult_le_compat; lra). lra. }
    assert (NU0 : 0 <= n * w) by (apply Rmult_le_pos; [lra|left; apply w_pos]).
    set (t := V v) in *. assert (P30 : pow10 30 = 1000000000000000000000000000000).
    { replace 30 with (INR 30) by (simpl; lra). rewrite pow10_nat. simpl. lra. }
    assert (M30 : pow10 (-30) = / 1000000000000000000000000000000).
    { rewrite <- P30. unfold pow10. rewrite <- Rpower_Ropp. reflexivity. }
    assert (T : 2 ^ 100 = 1267650600228229401496703205376) by (rewrite two_pow_bp; reflexivity).
    pose proof (pow10_pos t) as Pt.
    assert (Up : k * pow10 t <= pow10 30).
    { apply Rle_trans with (pow10 c * pow10 t); [apply Rmult_le_compat_r; lra|]. rewrite <- pow10_plus. apply pow10_mono. lra. }
    assert (Lo : pow10 (-30) <= k * pow10 t).
    { apply Rle_trans with (pow10 (- c) * pow10 t); [|apply Rmult_le_compat_r; lra]. rewrite <- pow10_plus. apply pow10_mono. lra. }
    rewrite P30 in Up. rewrite M30 in Lo. set (q := k * pow10 t) in *. clearbody q.
    assert (E1 : exp (n * w) <= 11 / 10).
    { pose proof (exp_ineq1_le (- (n * w))) as A. pose proof (exp_pos (n * w)). 
      assert (B : exp (n * w) * exp (- (n * w)) = 1) by (rewrite <- exp_plus, Rplus_opp_r; apply exp_0).
      assert (exp (n * w) * (99 / 100) <= 1) by (rewrite <- B; apply Rmult_le_compat_l; lra). lra. }
    assert (E2 : 99 / 100 <= exp (- (n * w))) by (pose proof (exp_ineq1_le (- (n * w))); lra).
    rewrite T. split.
    - apply Rle_trans with (/ 1000000000000000000000000000000 * (99 / 100)).
      + apply Rle_trans with (/ (1200000000000000000000000000000)); [apply Rinv_le_contravar; lra|].
        replace (/ 1200000000000000000000000000000) with (10 / 12 * / 1000000000000000000000000000000) by lra. lra.
      + apply Rle_trans with (2 := proj1 Hz). apply Rmult_le_compat; lra.
    - apply Rle_trans with (1 := proj2 Hz). apply Rle_trans with (1000000000000000000000000000000 * (11 / 10)); [apply Rmult_le_compat; try lra; left; apply exp_pos|lra].
  Qed.

  (** ** Lookups *)
  Lemma unscaled_answer F b dims cs rs f r : 1 <= F <= 250 -> (length dims <= 5)%nat -> 1 <= all_cells dims ->
    holds64 L F b dims f -> query64 cs rs dims -> interpolates rs dims f r ->
    exists v, interpToReal (O := O) b cs = Ok v /\ within (550 * F * all_cells dims) (@sp_fromLog b64 O v) (pow10 r).
  Proof.
    intros HF Hl Hc HH HQ HI.
    destruct (lookup64 L F ltac:(lra) b dims cs rs f r ltac:(lia) HH HQ HI) as (v & Ev & Fv & Rv & Br).
    exists v. split; [exact Ev|]. set (C := all_cells dims) in *.
    assert (HC : C <= 1000000 * 5).
    { apply Rle_trans with (1 := proj2 (all_cells_bound dims (dims64_ok _ _ _ (proj1 HH)))). apply Rmult_le_compat_l; [lra|].
      apply (le_INR _ 5) in Hl. simpl in Hl. lra. }
    assert (FC : 1 <= F * C <= 250 * 5000000).
    { split; [rewrite <- (Rmult_1_l 1); apply Rmult_le_compat; lra|apply Rmult_le_compat; lra]. }
    destruct (unscaled64 v r (230 * F * C) Fv Rv) as [Fm Em].
    - rewrite u_lit. replace (230 * F * C) with (230 * (F * C)) by ring.
      apply Rle_trans with (230 * (250 * 5000000) * / 9007199254740992); [apply Rmult_le_compat_r; lra|lra].
    - lra.
    - split; [exact Fm|]. apply Rle_trans with (1 := Em). apply Rmult_le_compat_r; [apply Rabs_pos|].
      apply Rmult_le_compat_r; [left; apply u_pos|]. lra.
  Qed.

  (** four pi times an answer *)
  Lemma four_pi n x P : within n x P -> 0 <= n -> n * u <= 1 / 1000 -> bp (-900) <= P <= bp 900 ->
    within (n + 4) (@Omul b64 O (@Omul b64 O (@OofZ b64 O 4) (@Opi b64 O)) x) (4 * PI * P).
  Proof.
    intros [Fx Ex] Hn Hu HP. fold u (V x) in Ex. pose proof (bpow_gt_0 radix2 (-900)) as K. rewrite (Rabs_pos_eq P) in Ex by lra.
    assert (Nq : near 2 3 4 (@Omul b64 O (@OofZ b64 O 4) (@Opi b64 O)) (4 * PI)).
    { apply near_conv with (0 + 1 + 1) (2 + 1)%Z (2 + 2)%Z (4 * PI); try lia; try lra.
      apply n_mul; [|apply c_pi|lia|lia|lra]. destruct (of_Z_exact 4) as [E F]; [lia|].
      apply near_exact; [exact F|exact E|]. change (bp 2) with 4. lra. }
    set (q := @Omul b64 O (@OofZ b64 O 4) (@Opi b64 O)) in *. pose proof (near_within _ _ _ _ _ (21 / 10) Nq ltac:(lra) ltac:(lra)) as [Fq Eq].
    destruct Nq as (_ & _ & Rq & _). set (Q := 4 * PI) in *. clearbody q Q. fold u (V q) in Eq.
    change (bp 3) with 8 in Rq. change (bp 4) with 16 in Rq. rewrite (Rabs_pos_eq Q) in Eq by lra.
    change (@Omul b64 O q x) with (Bmult mode_NE q x). pose proof (abs_both _ _ Ex) as Ex'. pose proof (abs_both _ _ Eq) as Eq'.
    assert (NU : 0 <= n * u) by (apply Rmult_le_pos; lra).
    assert (NP : 0 <= n * u * P <= 1 / 1000 * P) by (split; [apply Rmult_le_pos; lra|apply Rmult_le_compat_r; lra]).
    assert (uQ : 0 <= u * Q <= / 100000000000000) by (split; [apply Rmult_le_pos; lra|]; apply Rle_trans with (/ 9000000000000000 * 16); [apply Rmult_le_compat; lra|lra]).
    assert (Bx : 1 / 2 * P <= V x <= 2 * P) by lra. assert (Bq : 4 <= V q <= 32) by lra.
    assert (Z1 : bp (-899) <= V q * V x).
    { change (-899)%Z with (2 + (-1 + -900))%Z. rewrite !bpow_plus. change (bp 2) with 4. change (bp (-1)) with (/ 2).
      apply Rmult_le_compat; lra. }
    assert (Z2 : V q * V x <= bp 906).
    { change 906%Z with (5 + (1 + 900))%Z. rewrite !bpow_plus. change (bp 5) with 32. change (bp 1) with 2. apply Rmult_le_compat; lra. }
    pose proof (bpow_gt_0 radix2 (-899)) as K2.
    destruct (mul_V q x 906 Fq Fx) as [Em Fm]; try lia; [rewrite Rabs_pos_eq; lra|].
    split; [exact Fm|]. fold u (V (Bmult mode_NE q x)). rewrite Em.
    assert (Rn : Rabs (rnd (V q * V x) - V q * V x) <= u * (V q * V x)).
    { pose proof (rnd_rel (V q * V x)) as A. assert (bp (-1022) <= V q * V x) by (apply Rle_trans with (2 := Z1); apply bpow_le; lia).
      specialize (A ltac:(assumption)). apply abs_bound. lra. }
    assert (PQ : 0 < Q * P) by (apply Rmult_lt_0_compat; lra). rewrite (Rabs_pos_eq (Q * P)) by lra.
    assert (E1 : Rabs (V q * V x - Q * V x) <= 21 / 10 * u * Q * V x).
    { rewrite <- Rmult_minus_distr_r, Rabs_mult, (Rabs_pos_eq (V x)) by lra. apply Rmult_le_compat_r; lra. }
    assert (E2 : Rabs (Q * V x - Q * P) <= Q * (n * u * P)).
    { rewrite <- Rmult_minus_distr_l, Rabs_mult, (Rabs_pos_eq Q) by lra. apply Rmult_le_compat_l; lra. }
    apply Rle_trans with (1 := abs_near _ _ _ _ _ (abs_near _ _ _ _ _ Rn E1) E2).
    assert (Y0 : Q * V x <= Q * (1001 / 1000 * P)) by (apply Rmult_le_compat_l; lra).
    assert (Y1 : u * (Q * V x) <= u * (Q * (1001 / 1000 * P))) by (apply Rmult_le_compat_l; lra).
    assert (Y2 : V q * V x <= 1001 / 1000 * Q * V x) by (apply Rmult_le_compat_r; lra).
    assert (Y3 : u * (V q * V x) <= u * (1001 / 1000 * Q * V x)) by (apply Rmult_le_compat_l; lra).
    assert (0 < u * (Q * P)) by (apply Rmult_lt_0_compat; lra). lra.
  Qed.
End Sp.
