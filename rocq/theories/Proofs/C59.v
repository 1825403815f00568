(** C59. Averages are made of opacities in the units of the table. *)
From Coq Require Import Reals ZArith List Lia Lra Bool.
From Flocq Require Import Core IEEE754.BinarySingleNaN.
From Verif Require Import Base.Outcome Base.Ops Inst.ER Inst.ERTac Inst.B64 Model.Constants Model.Robust Model.RadTypes
  Model.PhotonApi Model.NeutrinoApi Model.GrayPhotons Model.OpacNeutrinos Model.ThermalNeutrinos Model.NonCGSPhotons Model.NonCGSNeutrinos
  Model.Spiner Model.MeanUtils Model.MeanPhotons Model.MeanNeutrinos Spec.Physics Spec.Opacities Spec.Tables Spec.Groups Spec.Means
  Spec.RuntimeConstants Inst.RConsts Proofs.BoseIntegral Proofs.InterpFacts Proofs.TableFacts Proofs.ModelFacts Proofs.PlanckFacts
  Proofs.MeanExact Proofs.MeanTotal Proofs.MeanNodes Proofs.B64Facts Proofs.C26 Proofs.C31.
Import ListNotations.
Open Scope R_scope.

(** the same 23 numbers *)
Definition same_constants (x y : RuntimePC b64) : Prop :=
  Forall2 (fun a b => B2R a = B2R b) (rpc_fields x) (rpc_fields y).

(** binary64, any mathematical library, a debug build, photon tables: an opacity with the constants of the table is
    averaged as in a release build, and one with any other constant is refused, whatever the grid, the groups and the
    opacity. (For the scattering averages [opc] is what a class with GetRuntimePhysicalConstants would report; the
    photon scattering classes have none.) *)
Lemma C59_debug_photon_proof :
  forall (L : Libm) (pc : PhysConst b64) (opc : RuntimePC b64) (coef : b64 -> b64 -> b64 -> result b64)
    (a b : b64) (NR : Z) (c d : b64) (NT : Z) (gb : list b64) (ng N : Z),
  let O := B64_ops L in
  moderate (RuntimePC_of pc) -> moderate opc ->
  (same_constants (RuntimePC_of pc) opc ->
     MeanImpl pc true opc coef a b NR c d NT gb ng N = MeanImpl pc false opc coef a b NR c d NT gb ng N) /\
  (~ same_constants (RuntimePC_of pc) opc -> MeanImpl pc true opc coef a b NR c d NT gb ng N = Error).
Proof.
  intros L pc opc coef a b NR c d NT gb ng N O H1 H2. unfold MeanImpl. cbn [andb]. split; intros H.
  - replace (RuntimePC_eqb (RuntimePC_of pc) opc) with true; [reflexivity|].
    symmetry. now apply (C26_exact_equality_proof L).
  - destruct (RuntimePC_eqb (RuntimePC_of pc) opc) eqn:E; [|reflexivity].
    destruct H. now apply (C26_exact_equality_proof L) in E.
Qed.

(** The same of the neutrino absorption tables. *)
Lemma C59_debug_neutrino_proof :
  forall (L : Libm) (pc : PhysConst b64) (opc : RuntimePC b64)
    (coef : b64 -> b64 -> b64 -> RadiationType -> b64 -> result b64) (dist ddist : b64 -> RadiationType -> b64 -> result b64)
    (a b : b64) (NR : Z) (c d : b64) (NT : Z) (e f : b64) (NY : Z) (range : option (b64 * b64 * Z)),
  let O := B64_ops L in
  moderate (RuntimePC_of pc) -> moderate opc ->
  (same_constants (RuntimePC_of pc) opc ->
     NuMeanOpacity pc coef dist ddist true opc a b NR c d NT e f NY range =
     NuMeanOpacity pc coef dist ddist false opc a b NR c d NT e f NY range) /\
  (~ same_constants (RuntimePC_of pc) opc -> NuMeanOpacity pc coef dist ddist true opc a b NR c d NT e f NY range = Error).
Proof.
  intros L pc opc coef dist ddist a b NR c d NT e f NY range O H1 H2. unfold NuMeanOpacity. cbn [andb]. split; intros H.
  - replace (RuntimePC_eqb (RuntimePC_of pc) opc) with true; [reflexivity|].
    symmetry. now apply (C26_exact_equality_proof L).
  - destruct (RuntimePC_eqb (RuntimePC_of pc) opc) eqn:E; [|reflexivity].
    destruct H. now apply (C26_exact_equality_proof L) in E.
Qed.

(** a unit other than 1: not finite, or a number (up to 2^1000, see C26) that is not 1 *)
Definition other_unit (x : b64) : Prop :=
  is_finite x = false \/ (Rabs (B2R x) <= bpow radix2 1000 /\ B2R x <> 1).
Lemma other_unit_differs L x : other_unit x -> @eps_equal _ (B64_ops L) (b64_of_Z 1) x = false.
Proof.
  intros [H|[H1 H2]]; [apply eps_equal_inf_nan; now right|].
  destruct (is_finite x) eqn:F; [|apply eps_equal_inf_nan; now right].
  destruct (@eps_equal _ (B64_ops L) (b64_of_Z 1) x) eqn:E; [exfalso|reflexivity].
  assert (E1 : b64_of_Z 1 = b64_ldexp 1 0) by (apply B2SF_inj; vm_compute; reflexivity).
  destruct (V_lit 1 0) as [W1 W2]; try lia. rewrite E1 in E.
  apply eps_equal_b64 in E; auto.
  - apply H2. change (B2R x) with (V x). rewrite <- E, W1. cbn. lra.
  - rewrite W1, Rabs_pos_eq by (cbn; lra). replace (1 * bpow radix2 0) with (bpow radix2 0) by (cbn; lra). apply bpow_le. lia.
Qed.
Lemma other_units_differ L pc t m l k : other_unit t \/ other_unit m \/ other_unit l \/ other_unit k ->
  @RuntimePC_eqb _ (B64_ops L) (@RuntimePC_of _ (B64_ops L) pc) (@RuntimePC_units _ (B64_ops L) pc t m l k) = false.
Proof.
  intros H. unfold RuntimePC_eqb. cbn [r_time r_mass r_length r_temp RuntimePC_of RuntimePC_units OofZ B64_ops].
  destruct H as [H|[H|[H|H]]]; rewrite (other_unit_differs L _ H), ?andb_false_r; reflexivity.
Qed.

(** binary64, any mathematical library, a debug build: an opacity wrapped into units one of which is not 1 is refused,
    whatever the opacity, the constants and the table; NaN and infinite units included. *)
Lemma C59_wrapped_proof :
  forall (L : Libm) (pc : PhysConst b64) (t m l k : b64), let O := B64_ops L in
  other_unit t \/ other_unit m \/ other_unit l \/ other_unit k ->
  (forall (o : PhotonOpac b64) (a b : b64) (NR : Z) (c d : b64) (NT : Z) (gb : list b64) (ng N : Z),
     let w := NonCGSUnits pc o (mk_units t m l k) in
     MeanImpl pc true (ph_RuntimePC w) (ph_Absorption w) a b NR c d NT gb ng N = Error) /\
  (forall (o : NuOpac b64) (a b : b64) (NR : Z) (c d : b64) (NT : Z) (e f : b64) (NY : Z) (range : option (b64 * b64 * Z)),
     let w := NuNonCGSUnits pc o (mk_units t m l k) in
     NuMeanOpacity pc (nu_Absorption w) (nu_ThermalDistributionOfTNu w) (nu_DThermalDistributionOfTNuDT w)
       true (nu_RuntimePC w) a b NR c d NT e f NY range = Error).
Proof.
  intros L pc t m l k O H. pose proof (other_units_differ L pc t m l k H) as E. split; intros.
  - unfold MeanImpl, w. cbn [ph_RuntimePC NonCGSUnits un_time un_mass un_length un_temp mk_units andb].
    unfold O. rewrite E. reflexivity.
  - unfold NuMeanOpacity, w. cbn [nu_RuntimePC NuNonCGSUnits un_time un_mass un_length un_temp mk_units andb].
    unfold O. rewrite E. reflexivity.
Qed.

(** Exact arithmetic: wrapping into the units of the table is allowed, the reported constants are the same. *)
Lemma C59_unit_units_proof :
  forall pc : PhysConst R,
  RuntimePC_units (finpc pc) (Fin 1) (Fin 1) (Fin 1) (Fin 1) = RuntimePC_of (finpc pc) /\
  RuntimePC_eqb (RuntimePC_of (finpc pc)) (RuntimePC_units (finpc pc) (Fin 1) (Fin 1) (Fin 1) (Fin 1)) = true.
Proof.
  intros pc.
  assert (E : RuntimePC_units (finpc pc) (Fin 1) (Fin 1) (Fin 1) (Fin 1) = RuntimePC_of (finpc pc)).
  { unfold RuntimePC_units, RuntimePC_of.
    assert (P2 : @Opow ER _ (Fin 1) (OofZ 2) = Fin 1) by (er; apply (f_equal Fin); ring).
    assert (P3 : @Opow ER _ (Fin 1) (OofZ 3) = Fin 1) by (er; apply (f_equal Fin); ring).
    assert (P4 : @Opow ER _ (Fin 1) (OofZ 4) = Fin 1) by (er; apply (f_equal Fin); ring).
    assert (M2 : @Opow ER _ (Fin 1) (OofZ (-2)) = Fin 1) by (er; apply (f_equal Fin); field).
    assert (M3 : @Opow ER _ (Fin 1) (OofZ (-3)) = Fin 1) by (er; apply (f_equal Fin); field).
    assert (D1 : forall x, @Odiv ER _ (Fin x) (Fin 1) = Fin x) by (intros x; er; apply (f_equal Fin); field).
    assert (D2 : forall x, @Omul ER _ (Fin x) (Fin 1) = Fin x) by (intros x; er; apply (f_equal Fin); ring).
    rewrite P2, P3, P4, M2, M3.
    unfold finpc. cbn [pc_map pc_na pc_alpha pc_h pc_hbar pc_kb pc_r_gas pc_qe pc_c pc_g_newt pc_me pc_mp pc_mn pc_amu pc_sb pc_ar
         pc_eV pc_Fc pc_nu_sigma0 pc_gA].
    rewrite ?D1, ?D2, ?D1, ?D2, ?D1, ?D2. reflexivity. }
  split; [exact E|]. rewrite E. apply C26_reflexive_symmetric_proof.
  unfold rpc_fields. repeat (apply Forall_cons; [eexists; reflexivity|]). apply Forall_nil.
Qed.

(** Exact arithmetic, release builds: nothing is compared. A gray opacity in units of time t, mass m, length l and
    temperature k is averaged, and the Planck mean of the table is m/l^2 times that of the table of the opacity itself,
    at every node. *)
Lemma C59_release_refuted_proof :
  forall (pc : PhysConst R) (kappa t m l k : R), positive_hkc pc -> 0 <= kappa -> 0 < t -> 0 < m -> 0 < l -> 0 < k ->
  forall (gR gT : rgrid) (gb : list ER) (ng N : Z), rg_ok gR -> rg_ok gT ->
  partition (edge (fun x => x) gb) (Z.to_nat ng) -> (ng < Z.of_nat (length gb))%Z -> (2 <= N)%Z ->
  let build dbg o := MeanImpl (finpc pc) dbg (ph_RuntimePC o) (ph_Absorption o) (Fin (rg_lo gR)) (Fin (rg_hi gR)) (rg_n gR)
    (Fin (rg_lo gT)) (Fin (rg_hi gT)) (rg_n gT) gb ng N in
  let o := GrayOpacity (finpc pc) (Fin kappa) in
  exists table wrong,
    build true o = Ok table /\
    build false (NonCGSUnits (finpc pc) o (mk_units (Fin t) (Fin m) (Fin l) (Fin k))) = Ok wrong /\
    at_every_node gR gT ng (fun rho T g => exists P Q Q',
      answers table rho T g P Q /\ answers wrong rho T g (m / l ^ 2 * P) Q' /\ (0 < kappa -> 0 < P)).
Proof.
  intros pc kappa t m l k Hp Hk Ht Hm Hl Hkk gR gT gb ng N HR HT HG HL HN build o.
  destruct (C31_photon_proof pc (ph_Absorption o) (fun rho _ => rho * kappa) Hp (gray_coefficient pc kappa)
    ltac:(intros; nra) gR gT gb ng N HR HT HG HL HN true (ph_RuntimePC o)) as (table & E1 & A1).
  { intros _. cbn [ph_RuntimePC o GrayOpacity]. apply C26_reflexive_symmetric_proof.
    unfold rpc_fields. repeat (apply Forall_cons; [eexists; reflexivity|]). apply Forall_nil. }
  set (w := NonCGSUnits (finpc pc) o (mk_units (Fin t) (Fin m) (Fin l) (Fin k))).
  assert (F : 0 < m / l ^ 2) by pos.
  assert (C : real_coefficient (ph_Absorption w) (fun rho _ _ => m / l ^ 2 * (rho * kappa))).
  { intros rho T nu Hr HTp Hn. unfold w, o, GrayOpacity, gray_alpha. cbn [ph_Absorption NonCGSUnits un_rho un_length un_temp un_freq mk_units].
    unfold bind. assert (0 < l * l * l) by pos. er. f_equal. f_equal. field. lra. }
  destruct (C31_photon_proof pc (ph_Absorption w) (fun rho _ => m / l ^ 2 * (rho * kappa)) Hp C
    ltac:(intros rho T Hr _; apply Rmult_le_pos; [lra|apply Rmult_le_pos; lra])
    gR gT gb ng N HR HT HG HL HN false (ph_RuntimePC w) ltac:(discriminate)) as (wrong & E2 & A2).
  exists table, wrong. split; [exact E1|]. split; [exact E2|].
  intros i j g Hi Hj Hg. specialize (A1 i j g Hi Hj Hg). specialize (A2 i j g Hi Hj Hg).
  cbv beta zeta in A1, A2 |- *. set (rho := pow10 (rg_node gR i)) in *. set (T := pow10 (rg_node gT j)) in *.
  destruct A1 as (W1 & _ & A1). destruct A2 as (_ & _ & A2).
  assert (Hr : 0 < rho) by apply pow10_pos.
  eexists _, _, _. split; [exact A1|]. split.
  - replace (m / l ^ 2 * guarded_planck (rho * kappa / rho) (planck_weight pc gb N T g)) with
      (guarded_planck (m / l ^ 2 * (rho * kappa) / rho) (planck_weight pc gb N T g)); [exact A2|].
    unfold guarded_planck. field. pose proof tiny_pos. lra.
  - intros Kp. unfold guarded_planck. pose proof tiny_pos.
    apply Rmult_lt_0_compat; [|pos]. replace (rho * kappa / rho) with kappa by (field; lra). exact Kp.
Qed.

(** Exact arithmetic, any build: the neutrino scattering averages compare nothing. A gray scattering opacity in units
    of mass m and length l is averaged, and the Planck mean of the table is m/l^2 times that of the opacity itself. *)
Lemma C59_neutrino_scattering_refuted_proof :
  forall (pc : PhysConst R) (n : Z) (sigma apm t m l k : R), positive_hkc pc -> (0 < n)%Z ->
  0 <= sigma -> 0 < apm -> 0 < t -> 0 < m -> 0 < l -> 0 < k ->
  forall (gR gT gY : rgrid) (range : option (R * R * Z)), rg_ok gR -> rg_ok gT -> rg_ok gY ->
  (forall r N, range = Some (r, N) -> fst r < snd r /\ (0 < N)%Z) ->
  let build o := NuMeanSOpacity (finpc pc) (nus_TotalScatteringCoefficient o)
    (fun T type nu => Ok (fd_nu n (finpc pc) T type nu)) (fun T type nu => Ok (fd_dT n (finpc pc) T type nu))
    (Fin (rg_lo gR)) (Fin (rg_hi gR)) (rg_n gR) (Fin (rg_lo gT)) (Fin (rg_hi gT)) (rg_n gT)
    (Fin (rg_lo gY)) (Fin (rg_hi gY)) (rg_n gY) (fin_range range) in
  let o := NuGraySOpacity (Fin sigma) (Fin apm) in
  exists table wrong,
    build o = Ok table /\
    build (NuNonCGSUnitsS o (mk_units (Fin t) (Fin m) (Fin l) (Fin k))) = Ok wrong /\
    at_every_nu_node gR gT gY (fun rho T Ye type => exists P Q Q',
      nu_answers table rho T Ye type P Q /\ nu_answers wrong rho T Ye type (m / l ^ 2 * P) Q' /\ (0 < sigma -> 0 < P)).
Proof.
  intros pc n sigma apm t m l k Hp Hn Hs Ha Ht Hm Hl Hkk gR gT gY range HR HT HY Hr build o.
  set (w := NuNonCGSUnitsS o (mk_units (Fin t) (Fin m) (Fin l) (Fin k))).
  assert (F : 0 < m / l ^ 2) by pos.
  assert (C1 : nu_real_coefficient (nus_TotalScatteringCoefficient o) (fun rho _ _ _ _ => rho / apm * sigma)).
  { intros rho T Ye type nu Hrho HTp Hnu. unfold o, NuGraySOpacity. cbn [nus_TotalScatteringCoefficient]. er. reflexivity. }
  assert (C2 : nu_real_coefficient (nus_TotalScatteringCoefficient w) (fun rho _ _ _ _ => m / l ^ 2 * (rho / apm * sigma))).
  { intros rho T Ye type nu Hrho HTp Hnu. unfold w, o, NuGraySOpacity.
    cbn [nus_TotalScatteringCoefficient NuNonCGSUnitsS un_rho un_length un_temp un_freq mk_units].
    unfold bind. assert (0 < l * l * l) by pos. er. f_equal. f_equal. field. lra. }
  assert (A0 : forall rho T : R, 0 < rho -> 0 < T -> 0 <= rho / apm * sigma).
  { intros rho T Hrho _. apply Rmult_le_pos; [|lra]. apply Rlt_le. pos. }
  destruct (C31_neutrino_proof false pc n _ (fun rho _ _ _ => rho / apm * sigma) Hp Hn C1
    (fun rho T _ _ => A0 rho T) gR gT gY range HR HT HY Hr false (RuntimePC_of (finpc pc)) ltac:(discriminate))
    as (table & E1 & A1).
  destruct (C31_neutrino_proof false pc n _ (fun rho _ _ _ => m / l ^ 2 * (rho / apm * sigma)) Hp Hn C2
    (fun rho T _ _ Hrho HTp => Rmult_le_pos _ _ (Rlt_le _ _ F) (A0 rho T Hrho HTp)) gR gT gY range HR HT HY Hr false (RuntimePC_of (finpc pc)) ltac:(discriminate))
    as (wrong & E2 & A2).
  exists table, wrong. split; [exact E1|]. split; [exact E2|].
  intros i j y type Hi Hj Hy Htype. specialize (A1 i j y type Hi Hj Hy Htype). specialize (A2 i j y type Hi Hj Hy Htype).
  cbv beta zeta in A1, A2 |- *. set (rho := pow10 (rg_node gR i)) in *. set (T := pow10 (rg_node gT j)) in *.
  destruct A1 as (W1 & _ & A1 & _). destruct A2 as (_ & _ & A2 & _).
  assert (Hrho : 0 < rho) by apply pow10_pos. pose proof tiny_pos.
  eexists _, _, _. split; [exact A1|]. split.
  - match type of A2 with nu_answers _ _ _ _ _ ?P _ => match goal with |- nu_answers _ _ _ _ _ ?P' _ => replace P' with P; [exact A2|] end end.
    unfold guarded_planck. field. lra.
  - intros Kp. unfold guarded_planck. apply Rmult_lt_0_compat; [|pos].
    replace (rho / apm * sigma / rho) with (sigma / apm) by (field; lra). pos.
Qed.

(** A kilometre, or any other integer length below 2^53 but 1, and a NaN. *)
Lemma C59_wrapped_example :
  (forall z, (1 < z < 2 ^ 53)%Z -> other_unit (b64_ldexp z 0)) /\ other_unit B754_nan.
Proof.
  split; [|left; reflexivity]. intros z Hz. right.
  destruct (V_lit z 0) as [W1 W2]; try lia. change (B2R (b64_ldexp z 0)) with (V (b64_ldexp z 0)). rewrite W1.
  replace (IZR z * bpow radix2 0) with (IZR z) by (cbn; lra).
  assert (1 < IZR z) by (apply IZR_lt; lia). split; [|lra]. rewrite Rabs_pos_eq by lra.
  apply Rle_trans with (IZR (2 ^ 53)); [apply IZR_le; lia|]. change (IZR (2 ^ 53)) with (bpow radix2 53). apply bpow_le. lia.
Qed.

(** The whole spectrum, units of one second, gram, kelvin and of two centimetres: the table is four times too small. *)
Lemma C59_release_refuted_example :
  let gR := {| rg_lo := -6; rg_hi := 3; rg_n := 10 |} in let gT := {| rg_lo := 2; rg_hi := 8; rg_n := 7 |} in
  positive_hkc cgsR /\ rg_ok gR /\ rg_ok gT /\ partition (edge (fun x => x) whole_spectrum) (Z.to_nat 1) /\
  (1 < Z.of_nat (length whole_spectrum))%Z /\ 1 / 2 ^ 2 = / 4.
Proof.
  cbv zeta. split; [apply cgs_hkc|]. split; [split; cbn; [lra|lia]|]. split; [split; cbn; [lra|lia]|].
  split; [apply whole_spectrum_ok|]. split; [cbn; lia|lra].
Qed.

Definition small_enough (a : b64) : bool := is_finite a && Bleb (Babs a) (b64_ldexp 1 900).
Lemma small_enough_ok a : small_enough a = true -> is_finite a = true /\ Rabs (B2R a) <= bpow radix2 1000.
Proof.
  unfold small_enough. rewrite andb_true_iff. intros [F H]. split; [exact F|].
  destruct (V_lit 1 900) as [W1 W2]; try lia.
  rewrite Bleb_correct in H; [|now rewrite is_finite_Babs|exact W2].
  rewrite B2R_Babs in H. change (B2R (b64_ldexp 1 900)) with (V (b64_ldexp 1 900)) in H. rewrite W1, Rmult_1_l in H.
  revert H. case Rle_bool_spec; [|discriminate]. intros H _. eapply Rle_trans; [exact H|]. apply bpow_le. lia.
Qed.
Lemma moderate_check (x : RuntimePC b64) : forallb small_enough (rpc_fields x) = true -> moderate x.
Proof.
  intros H. apply Forall_forall. intros a Ha. apply small_enough_ok. now apply (proj1 (forallb_forall _ _) H).
Qed.

(** The constants of the library: the scale-free opacities, of constants 1, are not averaged into CGS tables. *)
Lemma C59_debug_photon_example :
  forall L : Libm, let O := B64_ops L in
  moderate (RuntimePC_of PhysicalConstantsCGS) /\ moderate (RuntimePC_of PhysicalConstantsUnity) /\
  same_constants (RuntimePC_of PhysicalConstantsCGS) (RuntimePC_of PhysicalConstantsCGS) /\
  ~ same_constants (RuntimePC_of PhysicalConstantsCGS) (RuntimePC_of PhysicalConstantsUnity).
Proof.
  intros L O.
  assert (M1 : moderate (RuntimePC_of PhysicalConstantsCGS)) by (apply moderate_check; vm_compute; reflexivity).
  assert (M2 : moderate (RuntimePC_of PhysicalConstantsUnity)) by (apply moderate_check; vm_compute; reflexivity).
  split; [exact M1|]. split; [exact M2|]. split.
  - unfold same_constants. generalize (rpc_fields (RuntimePC_of (@PhysicalConstantsCGS _ O))). intros l; induction l; constructor; auto.
  - intros H. apply (C26_exact_equality_proof L _ _ M1 M2) in H. revert H. vm_compute. discriminate.
Qed.
