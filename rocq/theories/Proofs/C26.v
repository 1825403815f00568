(** C26. Equality of runtime constants. *)
From Coq Require Import Reals ZArith Lra Lia Bool List.
From Flocq Require Import Core IEEE754.BinarySingleNaN.
From Verif Require Import Base.Outcome Base.Ops Inst.ER Inst.ERTac Inst.RConsts Inst.B64 Model.Constants
  Spec.RuntimeConstants Proofs.B64Facts.
Import ListNotations.
Open Scope R_scope.

Lemma eqb_fields {T} {O : Ops T} (x y : RuntimePC T) :
  RuntimePC_eqb x y = true <-> Forall2 (fun a b => eps_equal a b = true) (rpc_fields x) (rpc_fields y).
Proof.
  unfold RuntimePC_eqb, rpc_fields. rewrite !andb_true_iff. split.
  - intros H. repeat match goal with H : _ /\ _ |- _ => destruct H end. repeat (constructor; [assumption|]). constructor.
  - intros H. repeat match goal with H : Forall2 _ (_ :: _) _ |- _ => inversion_clear H end.
    repeat split; assumption.
Qed.

Lemma Forall2_impl_in {A} (P Q : A -> A -> Prop) l l' :
  (forall a b, In a l -> In b l' -> P a b -> Q a b) -> Forall2 P l l' -> Forall2 Q l l'.
Proof.
  intros H F. induction F; constructor.
  - apply H; cbn; auto.
  - apply IHF. intros a b Ha Hb. apply H; cbn; auto.
Qed.

(** the tolerance of eps_equal, as a real number: 10 numeric_limits::min() *)
Definition rtol : R := 10 * powerRZ 2 (-1022).
(** agreement within the tolerance, relative to the mean magnitude (plus 1e-100) *)
Definition agree (a b : R) : Prop :=
  Rabs (a - b) <= rtol * ((Rabs a + Rabs b) / 2 + powerRZ 10 (-100)).

Lemma eps_equal_fin a b : eps_equal (Fin a) (Fin b) = true <-> agree a b.
Proof.
  unfold eps_equal, agree. er. 
  assert (P : 0 < powerRZ 10 (-100)) by pos.
  set (d := 5 * powerRZ 10 (-1) * (Rabs a + Rabs b) + 1 * powerRZ 10 (-100)).
  assert (Ed : d = (Rabs a + Rabs b) / 2 + powerRZ 10 (-100)).
  { unfold d. change (powerRZ 10 (-1)) with (/ (10 * 1)). field. }
  assert (Hd : 0 < d).
  { rewrite Ed. pose proof (Rabs_pos a); pose proof (Rabs_pos b). lra. }
  rewrite fin_div by nz. rewrite fin_leb, Rleb_iff. rewrite <- Ed.
  unfold rtol. fold R_num_min.
  split; intros H.
  - apply (Rmult_le_reg_r (/ d)); [pos|].
    replace (10 * R_num_min * d * / d) with (10 * R_num_min) by (field; nz). exact H.
  - apply (Rmult_le_reg_r d); [pos|]. replace (Rabs (a - b) / d * d) with (Rabs (a - b)) by (field; nz).
    exact H.
Qed.

Lemma eps_equal_nonfin a b : eps_equal a b = true -> exists x y, a = Fin x /\ b = Fin y.
Proof.
  destruct a as [x| | |], b as [y| | |]; intros H; try (do 2 eexists; split; reflexivity);
    exfalso; revert H; unfold eps_equal; cbn -[powerRZ Rmult IZR];
    unfold inf_of_sign;
    repeat match goal with
    | |- context [Rlt_dec ?a ?b] => destruct (Rlt_dec a b)
    | |- context [Req_EM_T ?a ?b] => destruct (Req_EM_T a b)
    end; cbn; intros; try discriminate.
Qed.

(** Exact arithmetic: the equality test accepts two sets of constants exactly when
    all 23 members are finite and agree pairwise within the tolerance. *)
Lemma C26_tolerance_proof :
  forall x y : RuntimePC ER,
  RuntimePC_eqb x y = true <->
  Forall2 (fun a b => exists u v, a = Fin u /\ b = Fin v /\ agree u v)
          (rpc_fields x) (rpc_fields y).
Proof.
  intros x y. rewrite eqb_fields. split; apply Forall2_impl_in; intros a b _ _ H.
  - destruct (eps_equal_nonfin a b H) as (u & v & -> & ->).
    exists u, v. repeat split. now apply eps_equal_fin.
  - destruct H as (u & v & -> & -> & H). now apply eps_equal_fin.
Qed.

(** Reflexive on finite constants and symmetric on all constants. *)
Lemma C26_reflexive_symmetric_proof :
  (forall x : RuntimePC ER, Forall (fun a => exists u, a = Fin u) (rpc_fields x) ->
     RuntimePC_eqb x x = true) /\
  (forall x y : RuntimePC ER, RuntimePC_eqb x y = RuntimePC_eqb y x).
Proof.
  assert (S : forall x y : RuntimePC ER, RuntimePC_eqb x y = true -> RuntimePC_eqb y x = true).
  { intros x y H. rewrite C26_tolerance_proof in *.
    induction H; constructor; auto. destruct H as (u & v & -> & -> & H).
    exists v, u. repeat split. unfold agree in *. rewrite Rabs_minus_sym, (Rplus_comm (Rabs v)). exact H. }
  split.
  - intros x H. rewrite C26_tolerance_proof. induction H; constructor; auto.
    destruct H as [u ->]. exists u, u. repeat split. unfold agree.
    replace (u - u) with 0 by ring. rewrite Rabs_R0.
    apply Rlt_le. unfold rtol. pose proof (Rabs_pos u).
    apply Rmult_lt_0_compat; [pos|].
    assert (0 < powerRZ 10 (-100)) by pos. lra.
  - intros x y. destruct (RuntimePC_eqb x y) eqn:E, (RuntimePC_eqb y x) eqn:E'; auto.
    + apply S in E. congruence. + apply S in E'. congruence.
Qed.

(** ** binary64 *)
Definition t100 : b64 := b64_dec 1 (-100).
Definition half64 : b64 := b64_dec 5 (-1).
Definition tol64 : b64 := Bmult mode_NE (b64_of_Z 10) (b64_ldexp 1 (-1022)).

Lemma lit_eq (x : b64) m e : B2SF x = B2SF (b64_ldexp m e) -> x = b64_ldexp m e.
Proof. apply B2SF_inj. Qed.

Lemma half64_V : V half64 = / 2 /\ fin half64.
Proof.
  assert (E : half64 = b64_ldexp 1 (-1)) by (apply B2SF_inj; vm_compute; reflexivity).
  rewrite E. destruct (V_lit 1 (-1)) as [H1 H2]; try lia. split; [rewrite H1; cbn; lra|exact H2].
Qed.
Lemma t100_V : bpow radix2 (-333) <= V t100 <= bpow radix2 (-332) /\ fin t100.
Proof.
  assert (E : exists m, t100 = b64_ldexp (Zpos m) (-385) /\ (2 ^ 52 <= Zpos m < 2 ^ 53)%Z).
  { exists 7880401239278896%positive. split; [apply B2SF_inj; vm_compute; reflexivity|]. lia. }
  destruct E as [m [E Hm]]. rewrite E.
  destruct (V_lit (Zpos m) (-385)) as [H1 H2]; try lia. split; [rewrite H1|exact H2].
  change (bpow radix2 (-333)) with (bpow radix2 (52 + -385)).
  change (bpow radix2 (-332)) with (bpow radix2 (53 + -385)). rewrite !bpow_plus.
  change (bpow radix2 52) with (IZR (2 ^ 52)). change (bpow radix2 53) with (IZR (2 ^ 53)).
  split; apply Rmult_le_compat_r; try apply bpow_ge_0; apply IZR_le; lia.
Qed.
Lemma tol64_V : V tol64 = 10 * bpow radix2 (-1022) /\ fin tol64.
Proof.
  assert (E : tol64 = b64_ldexp 10 (-1022)) by (apply B2SF_inj; vm_compute; reflexivity).
  rewrite E. apply V_lit; lia.
Qed.

Section Eps.
Variable L : Libm.
Notation bp e := (bpow radix2 e).

Lemma bp2 e : bp (e + 1) = 2 * bp e.
Proof. rewrite bpow_plus. cbn. lra. Qed.

Lemma V_abs x : V (Babs x) = Rabs (V x).
Proof. apply B2R_Babs. Qed.
Lemma fin_abs (x : b64) : is_finite (Babs x) = is_finite x.
Proof. apply is_finite_Babs. Qed.

Lemma eps_equal_b64 a b : fin a -> fin b -> Rabs (V a) <= bp 1000 -> Rabs (V b) <= bp 1000 ->
  @eps_equal _ (B64_ops L) a b = true <-> V a = V b.
Proof.
  intros Fa Fb Ba Bb. unfold eps_equal. cbn [Oabs Osub Oadd Omul Odiv Oleb OofZ Odec Onum_min B64_ops].
  fold t100 half64 tol64.
  pose proof (Rabs_pos (V a)) as Pa. pose proof (Rabs_pos (V b)) as Pb.
  pose proof (bp2 1000) as B1. pose proof (bp2 1001) as B2. cbn [Z.add Pos.add Pos.succ] in B1, B2.
  change (1000 + 1)%Z with 1001%Z in B1. change (1001 + 1)%Z with 1002%Z in B2.
  destruct half64_V as [HV HF]. destruct t100_V as [[TV1 TV2] TF]. destruct tol64_V as [LV LF].
  (* the difference *)
  assert (D0 : Rabs (V a - V b) <= bp 1001).
  { eapply Rle_trans; [apply Rabs_triang|]. rewrite Rabs_Ropp. lra. }
  destruct (sub_V a b 1001 Fa Fb ltac:(lia) ltac:(lia) D0) as [DV DF].
  set (d := Babs (Bminus mode_NE a b)).
  assert (dV : V d = rnd (Rabs (V a - V b))) by (unfold d; rewrite V_abs, DV; apply rnd_abs).
  assert (dF : fin d) by (unfold d; now rewrite fin_abs).
  assert (dS : Bsign d = false).
  { unfold d. apply Bsign_Babs. }
  (* the sum *)
  assert (S0 : Rabs (V (Babs a) + V (Babs b)) <= bp 1001).
  { rewrite !V_abs, Rabs_pos_eq by lra. lra. }
  destruct (add_V (Babs a) (Babs b) 1001 ltac:(now rewrite fin_abs) ltac:(now rewrite fin_abs)
    ltac:(lia) ltac:(lia) S0) as [SV SF].
  set (s := Bplus mode_NE (Babs a) (Babs b)) in *. rewrite !V_abs in SV.
  assert (s0 : 0 <= V s) by (rewrite SV; apply rnd_pos; lra).
  assert (s1 : V s <= bp 1001) by (rewrite SV; apply rnd_le_bpow; [lia|lra]).
  (* half of it *)
  assert (H0 : Rabs (V half64 * V s) <= bp 1000).
  { rewrite HV, Rabs_pos_eq by lra. lra. }
  destruct (mul_V half64 s 1000 HF SF ltac:(lia) ltac:(lia) H0) as [hV hF].
  set (h := Bmult mode_NE half64 s) in *. rewrite HV in hV.
  assert (h0 : 0 <= V h) by (rewrite hV; apply rnd_pos; lra).
  assert (h1 : V h <= bp 1000) by (rewrite hV; apply rnd_le_bpow; [lia|lra]).
  (* the denominator *)
  assert (t1 : bp (-332) <= bp 1000) by (apply bpow_le; lia).
  pose proof (bpow_gt_0 radix2 (-333)) as tp.
  assert (E0 : Rabs (V h + V t100) <= bp 1001) by (rewrite Rabs_pos_eq by lra; lra).
  destruct (add_V h t100 1001 hF TF ltac:(lia) ltac:(lia) E0) as [nV nF].
  pose proof (add_sign h t100 1001 hF TF ltac:(lia) ltac:(lia) E0 ltac:(lra)) as nS.
  set (n := Bplus mode_NE h t100) in *.
  assert (n0 : bp (-333) <= V n) by (rewrite nV; apply rnd_ge_bpow; [lia|lra]).
  split.
  - (* different numbers are told apart *)
    intros Hle. destruct (Req_dec (V a) (V b)) as [E|NE]; [exact E|exfalso].
    destruct (gap_abs _ _ (V_fmt a) (V_fmt b) NE) as [G1 G2].
    set (M := Rmax (Rabs (V a)) (Rabs (V b))) in *.
    assert (M0 : 0 <= M) by (unfold M; eapply Rle_trans; [exact Pa|apply Rmax_l]).
    assert (Ms : Rabs (V a) + Rabs (V b) <= 2 * M).
    { unfold M. pose proof (Rmax_l (Rabs (V a)) (Rabs (V b))).
      pose proof (Rmax_r (Rabs (V a)) (Rabs (V b))). lra. }
    assert (d1 : bp (-1074) <= V d) by (rewrite dV; apply rnd_ge_bpow; [lia|exact G2]).
    assert (d2 : M * bp (-54) / 2 <= V d).
    { rewrite dV. pose proof (rnd_half _ G2). lra. }
    assert (Q : bp (-745) <= V d / V n).
    { destruct (Rle_or_lt M (bp (-331))) as [C|C].
      - assert (n2 : V n <= bp (-329)).
        { pose proof (bp2 (-331)) as b1. pose proof (bp2 (-330)) as b2.
          pose proof (bp2 (-332)) as b3.
          cbn [Z.add Z.pos_sub Pos.pred_double] in b1, b2, b3.
          change (-331 + 1)%Z with (-330)%Z in b1. change (-330 + 1)%Z with (-329)%Z in b2.
          change (-332 + 1)%Z with (-331)%Z in b3.
          assert (V s <= bp (-330)) by (rewrite SV; apply rnd_le_bpow; [lia|lra]).
          assert (V h <= bp (-331)) by (rewrite hV; apply rnd_le_bpow; [lia|lra]).
          rewrite nV. apply rnd_le_bpow; [lia|]. lra. }
        apply Rle_trans with (bp (-1074) / bp (-329)).
        + unfold Rdiv. rewrite <- bpow_opp, <- bpow_plus. apply bpow_le. lia.
        + apply Rmult_le_compat; try lra.
          * apply bpow_ge_0. * left. apply Rinv_0_lt_compat, bpow_gt_0.
          * apply Rinv_le_contravar; lra.
      - assert (n2 : V n <= 10 * M).
        { assert (B3 : bp (-1074) <= bp (-332)) by (apply bpow_le; lia).
          pose proof (bp2 (-332)) as b3. change (-332 + 1)%Z with (-331)%Z in b3.
          assert (S4 : V s <= 4 * M).
          { rewrite SV. apply Rle_trans with (rnd (2 * M)); [apply rnd_mono; exact Ms|].
            eapply Rle_trans; [apply rnd_double; lra|lra]. }
          assert (V h <= 4 * M).
          { rewrite hV. apply Rle_trans with (rnd (2 * M)); [apply rnd_mono; lra|].
            eapply Rle_trans; [apply rnd_double; lra|lra]. }
          rewrite nV. apply Rle_trans with (rnd (5 * M)); [apply rnd_mono; lra|].
          eapply Rle_trans; [apply rnd_double; lra|lra]. }
        assert (Mp : 0 < M) by (pose proof (bpow_gt_0 radix2 (-331)); lra).
        apply Rle_trans with (M * bp (-54) / 2 / (10 * M)).
        + replace (M * bp (-54) / 2 / (10 * M)) with (bp (-54) / 20) by (field; lra).
          apply Rle_trans with (bp (-59)); [apply bpow_le; lia|].
          change (-54)%Z with (-59 + 5)%Z. rewrite bpow_plus.
          replace (bp 5) with 32 by (cbn; lra). pose proof (bpow_gt_0 radix2 (-59)). lra.
        + apply Rmult_le_compat; try lra.
          * pose proof (bpow_gt_0 radix2 (-54)).
            apply Rmult_le_pos; [|lra]. apply Rmult_le_pos; lra.
          * left. apply Rinv_0_lt_compat. lra.
          * apply Rinv_le_contravar; lra. }
    pose proof (Bdiv_correct 53 1024 _ _ mode_NE d n ltac:(unfold V in n0; lra)) as C.
    change (round radix2 (SpecFloat.fexp 53 1024) (round_mode mode_NE) (B2R d / B2R n))
      with (rnd (V d / V n)) in C.
    destruct (Rlt_bool (Rabs (rnd (V d / V n))) (bp 1024)).
    + destruct C as (C1 & C2 & _). rewrite dF in C2.
      rewrite (Bleb_correct 53 1024 _ _ C2 LF) in Hle.
      apply Rle_bool_true in Hle || (revert Hle; case Rle_bool_spec; intros Hle Hb; [|discriminate]).
      rewrite C1 in Hle. fold (V tol64) in Hle. rewrite LV in Hle.
      assert (bp (-745) <= rnd (V d / V n)) by (apply rnd_ge_bpow; [lia|exact Q]).
      assert (10 * bp (-1022) < bp (-745)).
      { apply Rlt_le_trans with (bp (4 + -1022)); [|apply bpow_le; lia].
        rewrite bpow_plus. pose proof (bpow_gt_0 radix2 (-1022)). replace (bp 4) with 16 by (cbn; lra).
        lra. }
      lra.
    + rewrite dS, nS in C. cbn in C.
      assert (E : Bdiv mode_NE d n = B754_infinity false) by (apply B2SF_inj; exact C).
      rewrite E in Hle. revert Hle. vm_compute. discriminate.
  - intros E.
    assert (d0 : V d = 0).
    { rewrite dV, E. replace (V b - V b) with 0 by ring. rewrite Rabs_R0. apply rnd_0. }
    assert (Q0 : V d / V n = 0) by (rewrite d0; unfold Rdiv; ring).
    assert (Q1 : Rabs (V d / V n) <= bp 0) by (rewrite Q0, Rabs_R0; apply bpow_ge_0).
    destruct (div_V d n 0 dF ltac:(lra) ltac:(lia) ltac:(lia) Q1) as [qV qF].
    rewrite (Bleb_correct 53 1024 _ _ qF LF). apply Rle_bool_true.
    fold (V (Bdiv mode_NE d n)). fold (V tol64). rewrite qV, Q0, rnd_0, LV.
    pose proof (bpow_ge_0 radix2 (-1022)). lra.
Qed.
End Eps.

(** A set of constants all of whose members are finite doubles below 2^1000. *)
Definition moderate (x : RuntimePC b64) : Prop :=
  Forall (fun a => is_finite a = true /\ Rabs (B2R a) <= bpow radix2 1000) (rpc_fields x).

(** binary64, any mathematical library: on constants below 2^1000 in magnitude
    the tolerance is below one unit in the last place, and the test is exact
    equality of the 23 members as real numbers. *)
Lemma C26_exact_equality_proof :
  forall (L : Libm) (x y : RuntimePC b64), moderate x -> moderate y ->
  @RuntimePC_eqb _ (B64_ops L) x y = true <->
  Forall2 (fun a b => B2R a = B2R b) (rpc_fields x) (rpc_fields y).
Proof.
  intros L x y Hx Hy. rewrite (@eqb_fields _ (B64_ops L)).
  unfold moderate in *. rewrite Forall_forall in Hx, Hy.
  split; apply Forall2_impl_in; intros a b Ia Ib H;
    destruct (Hx a Ia) as [Fa Ba]; destruct (Hy b Ib) as [Fb Bb];
    now apply (eps_equal_b64 L a b Fa Fb Ba Bb).
Qed.

(** Hence an equivalence relation on such constants. *)
Lemma C26_equivalence_proof :
  forall L : Libm,
  (forall x, moderate x -> @RuntimePC_eqb _ (B64_ops L) x x = true) /\
  (forall x y, moderate x -> moderate y -> @RuntimePC_eqb _ (B64_ops L) x y = true ->
     @RuntimePC_eqb _ (B64_ops L) y x = true) /\
  (forall x y z, moderate x -> moderate y -> moderate z ->
     @RuntimePC_eqb _ (B64_ops L) x y = true -> @RuntimePC_eqb _ (B64_ops L) y z = true ->
     @RuntimePC_eqb _ (B64_ops L) x z = true).
Proof.
  intros L. repeat split.
  - intros x Hx. apply C26_exact_equality_proof; auto. induction (rpc_fields x); constructor; auto.
  - intros x y Hx Hy H. apply C26_exact_equality_proof in H; auto.
    apply C26_exact_equality_proof; auto. induction H; constructor; auto.
  - intros x y z Hx Hy Hz H1 H2. apply C26_exact_equality_proof in H1; auto.
    apply C26_exact_equality_proof in H2; auto. apply C26_exact_equality_proof; auto.
    revert H2. generalize (rpc_fields z). clear -H1. induction H1; intros l2 H2; inversion H2; subst; constructor.
    + congruence. + auto.
Qed.

Lemma eps_equal_inf_nan L a b : is_finite a = false \/ is_finite b = false ->
  @eps_equal _ (B64_ops L) a b = false.
Proof.
  intros H. unfold eps_equal. cbn [Oabs Osub Oadd Omul Odiv Oleb OofZ Odec Onum_min B64_ops].
  fold t100 half64 tol64.
  destruct half64_V as [HV HF]. destruct t100_V as [_ TF].
  destruct half64 as [?|?| |sh mh eh Hh]; try discriminate HF.
  { cbn in HV. lra. }
  destruct sh.
  { exfalso. unfold V in HV. cbn in HV. pose proof (F2R_lt_0 radix2 (Float radix2 (Zneg mh) eh) ltac:(reflexivity)) as N.
    cbn in N. lra. }
  destruct t100 as [?|?| |st mt et Ht]; try discriminate TF;
  destruct a as [?|[|]| |[|] ? ? ?]; destruct b as [?|[|]| |[|] ? ? ?];
    cbn in H; try (destruct H; discriminate); reflexivity.
Qed.

(** Constants containing an infinity or a NaN compare unequal to everything,
    themselves included (the doubles as the ideal numbers of [ER]). *)
Lemma C26_infinity_nan_proof :
  forall (L : Libm) (x y : RuntimePC b64),
  Exists (fun a => is_finite a = false) (rpc_fields x) \/
  Exists (fun a => is_finite a = false) (rpc_fields y) ->
  @RuntimePC_eqb _ (B64_ops L) x y = false.
Proof.
  intros L x y H. destruct (RuntimePC_eqb x y) eqn:E; [exfalso|reflexivity].
  rewrite (@eqb_fields _ (B64_ops L)) in E. revert H.
  induction E as [|a b la lb Hab E IH]; intros [H|H]; inversion H; subst; auto.
  - rewrite eps_equal_inf_nan in Hab by auto. discriminate.
  - rewrite eps_equal_inf_nan in Hab by auto. discriminate.
Qed.

(** all members equal to one number *)
Definition const_rpc {T} (v : T) : RuntimePC T :=
  {| r_time := v; r_mass := v; r_length := v; r_temp := v; r_na := v; r_alpha := v; r_h := v;
     r_hbar := v; r_kb := v; r_r_gas := v; r_qe := v; r_c := v; r_g_newt := v; r_me := v;
     r_mp := v; r_mn := v; r_amu := v; r_sb := v; r_ar := v; r_eV := v; r_Fc := v;
     r_nu_sigma0 := v; r_gA := v |}.

(** Without the bound the test is not equality: when |a| + |b| overflows, numbers
    one and a half times apart compare equal. *)
Lemma C26_overflow_refuted_proof :
  forall L : Libm,
  ~ (forall x y : RuntimePC b64,
       Forall (fun a => is_finite a = true) (rpc_fields x) ->
       Forall (fun a => is_finite a = true) (rpc_fields y) ->
       @RuntimePC_eqb _ (B64_ops L) x y = true ->
       Forall2 (fun a b => B2R a = B2R b) (rpc_fields x) (rpc_fields y)).
Proof.
  intros L H.
  set (a := b64_ldexp 1 1023). set (b := b64_ldexp 3 1022).
  specialize (H (const_rpc a) (const_rpc b)).
  assert (F : forall v : b64, is_finite v = true -> Forall (fun a => is_finite a = true) (rpc_fields (const_rpc v))).
  { intros v Hv. cbn. repeat constructor; exact Hv. }
  specialize (H (F a eq_refl) (F b eq_refl)).
  assert (E : @eps_equal _ (B64_ops L) a b = true) by (vm_compute; reflexivity).
  specialize (H ltac:(rewrite (@eqb_fields _ (B64_ops L)); cbn [rpc_fields const_rpc r_time r_mass r_length r_temp
    r_na r_alpha r_h r_hbar r_kb r_r_gas r_qe r_c r_g_newt r_me r_mp r_mn r_amu r_sb r_ar r_eV r_Fc r_nu_sigma0 r_gA];
    repeat (constructor; [exact E|]); constructor)).
  inversion_clear H as [|? ? ? ? H' _]. cbn [r_time const_rpc] in H'.
  assert (N : Beqb a b = true).
  { rewrite Beqb_correct by reflexivity. rewrite H'. apply Req_bool_true. reflexivity. }
  vm_compute in N. discriminate.
Qed.

(** The smallest change of one constant is noticed: 1 and its successor. *)
Lemma C26_exact_equality_example :
  forall L : Libm,
  moderate (const_rpc (b64_of_Z 1)) /\
  moderate (const_rpc (b64_ldexp 4503599627370497 (-52))) /\
  @RuntimePC_eqb _ (B64_ops L) (const_rpc (b64_of_Z 1)) (const_rpc (b64_of_Z 1)) = true /\
  @RuntimePC_eqb _ (B64_ops L) (const_rpc (b64_of_Z 1))
     (const_rpc (b64_ldexp 4503599627370497 (-52))) = false.
Proof.
  intros L.
  assert (M : forall v : b64, is_finite v = true -> Rabs (V v) <= 2 -> moderate (const_rpc v)).
  { intros v F B. assert (B' : Rabs (V v) <= bpow radix2 1000).
    { eapply Rle_trans; [exact B|]. change 2 with (bpow radix2 1). apply bpow_le. lia. }
    apply Forall_forall. intros a Ha. assert (Ea : a = v).
    { cbn [In rpc_fields const_rpc r_time r_mass r_length r_temp r_na r_alpha r_h r_hbar r_kb r_r_gas r_qe
        r_c r_g_newt r_me r_mp r_mn r_amu r_sb r_ar r_eV r_Fc r_nu_sigma0 r_gA] in Ha.
      repeat (destruct Ha as [Ha|Ha]; [now symmetry|]). contradiction. }
    rewrite Ea. split; assumption. }
  split; [|split; [|split]].
  - apply M; [reflexivity|]. destruct (V_lit 1 0) as [E _]; try lia.
    change (b64_of_Z 1) with (b64_ldexp 1 0). rewrite E. cbn. rewrite Rabs_pos_eq; lra.
  - apply M; [reflexivity|]. destruct (V_lit 4503599627370497 (-52)) as [E _]; try lia.
    rewrite E. change (bpow radix2 (-52)) with (/ 4503599627370496).
    rewrite Rabs_pos_eq; lra.
  - vm_compute; reflexivity.
  - vm_compute; reflexivity.
Qed.
