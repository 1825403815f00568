(** C33. Group averages and the bounds of the group they sample. *)
From Coq Require Import Reals ZArith List Lia Lra Bool.
From Verif Require Import Base.Outcome Base.Ops Inst.ER Inst.ERTac Inst.RConsts Model.Constants Model.MeanUtils
  Spec.Physics Spec.Opacities Spec.Tables Spec.Means Proofs.ArrayFacts Proofs.InterpFacts Proofs.TableFacts Proofs.MeanExact.
Import ListNotations.
Open Scope R_scope.

Ltac ifs := repeat match goal with |- context [if ?d then _ else _] =>
  lazymatch d with context [if _ then _ else _] => fail | _ => destruct d end end.

(** the frequencies the averaging loop visits, in order *)
Definition visited {T} {O : Ops T} (pc : PhysConst T) (temp lo hi : T) (N : Z) : result (list T) :=
  ForEachGroupFrequencySample pc temp lo hi N (fun nu _ l => Ok (l ++ [nu])) [].

(** a group of the accepted bounds: nonnegative lower edge, larger or infinite upper edge *)
Definition a_group (lo : R) (hi : ER) : Prop :=
  0 <= lo /\ ((exists x, hi = Fin x /\ lo < x) \/ hi = PInf).

Lemma visited_fin pc T lo hi N : positive_hkc pc -> 0 < T -> a_group lo hi -> (0 < N)%Z ->
  visited (finpc pc) (Fin T) (Fin lo) hi N =
  Ok (map (fun i => Fin (frequency (logs (window (pc_h pc) (pc_kb pc) T lo hi)) N i)) (seq 0 (Z.to_nat N))).
Proof.
  intros (Hh & Hk & Hc) HT HG HN. unfold visited, ForEachGroupFrequencySample, for_int, for_loop.
  pose proof (window_pos pc Hh Hk T lo hi HT HG) as Hw. rewrite sample_window_fin by assumption. cbv zeta.
  generalize (Z.to_nat N). intros m.
  induction m as [|m IH]; [reflexivity|]. rewrite for_from_S_last, IH. cbn [bind Nat.add].
  rewrite sample_nu_fin by assumption. rewrite seq_S, map_app. reflexivity.
Qed.

Lemma visited_forall pc T lo hi N (P : R -> Prop) : positive_hkc pc -> 0 < T -> a_group lo hi -> (0 < N)%Z ->
  (forall i, (i < Z.to_nat N)%nat -> P (frequency (logs (window (pc_h pc) (pc_kb pc) T lo hi)) N i)) ->
  exists l, visited (finpc pc) (Fin T) (Fin lo) hi N = Ok l /\ length l = Z.to_nat N /\
    forall v, In v l -> exists nu, v = Fin nu /\ P nu.
Proof.
  intros Hp HT HG HN H. eexists. split; [now apply visited_fin|]. split; [now rewrite map_length, seq_length|].
  intros v Hv. apply in_map_iff in Hv. destruct Hv as (i & <- & Hi). apply in_seq in Hi. eexists. split; [reflexivity|].
  apply H. lia.
Qed.

(** Every visited frequency is a positive real number. *)
Lemma C33_positive_proof :
  forall pc : PhysConst R, positive_hkc pc ->
  forall (T lo : R) (hi : ER) (N : Z), 0 < T -> a_group lo hi -> (0 < N)%Z ->
  exists l, visited (finpc pc) (Fin T) (Fin lo) hi N = Ok l /\ length l = Z.to_nat N /\
    forall v, In v l -> exists nu, v = Fin nu /\ 0 < nu.
Proof.
  intros. apply visited_forall; auto. intros i _. apply frequency_pos.
Qed.

(** The three cases in which the samples stay in the group: it overlaps the thermal window
    [kT/1000h, 1000kT/h]; or neither edge is more than a decade outside the window; or it
    spans an octave. Then every sample is above the lower edge and, up to the guard of the
    logarithm, below the upper edge. *)
Lemma C33_inside_proof :
  forall pc : PhysConst R, positive_hkc pc ->
  forall (T lo : R) (hi : ER) (N : Z), 0 < T -> a_group lo hi -> (0 < N)%Z ->
  let tmin := pc_kb pc * T / (1000 * pc_h pc) in
  let tmax := 1000 * pc_kb pc * T / pc_h pc in
  (lo < tmax /\ (forall x, hi = Fin x -> tmin < x)) \/
  (tmin / 10 <= lo /\ exists x, hi = Fin x /\ x <= 10 * tmax) \/
  (exists x, hi = Fin x /\ 2 * lo <= x) ->
  exists l, visited (finpc pc) (Fin T) (Fin lo) hi N = Ok l /\ length l = Z.to_nat N /\
    forall v, In v l -> exists nu, v = Fin nu /\ lo < nu /\ (forall x, hi = Fin x -> nu < x + tiny).
Proof.
  intros pc (Hh & Hk & Hc) T lo hi N HT HG HN tmin tmax H.
  apply visited_forall; auto. { repeat split; assumption. }
  intros i Hi. set (w := window (pc_h pc) (pc_kb pc) T lo hi).
  pose proof (window_pos pc Hh Hk T lo hi HT HG) as Hw. fold w in Hw.
  destruct (frequency_bounds (logs w) N (logs_incr w Hw) HN i Hi) as [F1 F2].
  pose proof tiny_pos as Tp. cbn [logs fst snd] in F1, F2. rewrite pow10_log10 in F1, F2 by lra.
  assert (W : lo <= fst w /\ forall x, hi = Fin x -> snd w <= x).
  { unfold w, window. change (thermal_lo (pc_h pc) (pc_kb pc) T) with tmin.
    change (thermal_hi (pc_h pc) (pc_kb pc) T) with tmax.
    assert (P : 0 < tmin) by (unfold tmin; pos). assert (E : tmax = 1000000 * tmin) by (unfold tmax, tmin; field; lra).
    clearbody tmin tmax. destruct HG as (G1 & [(x & -> & G2)|G2]).
    - assert (H' : (lo < tmax /\ tmin < x) \/ (tmin / 10 <= lo /\ x <= 10 * tmax) \/ 2 * lo <= x).
      { destruct H as [[A B]|[[A (y & B & C)]|(y & B & C)]].
        - left. auto.
        - injection B as <-. auto.
        - injection B as <-. auto. }
      split; [|intros y Ey; injection Ey as <-];
        ifs; cbn [fst snd]; lra.
    - subst hi. assert (H' : lo < tmax).
      { destruct H as [[A B]|[[A (y & B & C)]|(y & B & C)]]; [exact A|discriminate|discriminate]. }
      split; [|discriminate].
      ifs; cbn [fst snd]; lra. }
  destruct W as [W1 W2]. split; [lra|]. intros x Ex. specialize (W2 x Ex). lra.
Qed.

(** temperature at which the thermal window is [10^12, 10^18] *)
Definition ex_T (pc : PhysConst R) : R := 10 ^ 15 * pc_h pc / pc_kb pc.
Lemma ex_T_facts pc : positive_hkc pc -> 0 < ex_T pc /\
  pc_kb pc * ex_T pc / (1000 * pc_h pc) = 10 ^ 12 /\ 1000 * pc_kb pc * ex_T pc / pc_h pc = 10 ^ 18.
Proof.
  intros (Hh & Hk & Hc). unfold ex_T. split; [pos|]. split; field; lra.
Qed.

(** In CGS units, about 48000 K: the groups [0, 10^13] and [10^13, infinity). *)
Lemma C33_inside_example :
  let T := ex_T cgsR in
  let tmin := pc_kb cgsR * T / (1000 * pc_h cgsR) in
  let tmax := 1000 * pc_kb cgsR * T / pc_h cgsR in
  0 < T /\ a_group 0 (Fin (10 ^ 13)) /\ a_group (10 ^ 13) PInf /\
  (0 < tmax /\ (forall x, Fin (10 ^ 13) = Fin x -> tmin < x)) /\
  (10 ^ 13 < tmax /\ (forall x, PInf = Fin x -> tmin < x)).
Proof.
  cbv zeta. destruct (ex_T_facts cgsR cgs_hkc) as (H1 & -> & ->).
  split; [exact H1|]. split. { split; [lra|]. left. eexists. split; [reflexivity|]. lra. }
  split. { split; [lra|]. now right. }
  repeat split; try lra; try discriminate. intros x E. injection E as <-. lra.
Qed.

(** An unbounded group above the thermal window: every sampled frequency lies below the
    group, at all such temperatures and for all sample counts. *)
Lemma C33_unbounded_refuted_proof :
  forall pc : PhysConst R, positive_hkc pc ->
  forall (T lo : R) (N : Z), 0 < T -> (0 < N)%Z ->
  1000 * pc_kb pc * T / pc_h pc + tiny <= lo ->
  exists l, visited (finpc pc) (Fin T) (Fin lo) PInf N = Ok l /\ length l = Z.to_nat N /\
    forall v, In v l -> exists nu, v = Fin nu /\ nu < lo.
Proof.
  intros pc (Hh & Hk & Hc) T lo N HT HN H. pose proof tiny_pos as Tp.
  assert (P : 0 < 1000 * pc_kb pc * T / pc_h pc) by pos.
  assert (HG : a_group lo PInf) by (split; [lra|now right]).
  apply visited_forall; auto. { repeat split; assumption. }
  intros i Hi. set (w := window (pc_h pc) (pc_kb pc) T lo PInf).
  pose proof (window_pos pc Hh Hk T lo PInf HT HG) as Hw. fold w in Hw.
  destruct (frequency_bounds (logs w) N (logs_incr w Hw) HN i Hi) as [F1 F2].
  cbn [logs fst snd] in F1, F2. rewrite pow10_log10 in F1, F2 by lra.
  assert (W : snd w = 1000 * pc_kb pc * T / pc_h pc).
  { unfold w, window. unfold thermal_hi. destruct (Rlt_dec _ (_ / pc_h pc)); reflexivity. }
  rewrite W in F2. lra.
Qed.

(** The group [10^20, infinity) at about 48000 K. *)
Lemma C33_unbounded_refuted_example :
  0 < ex_T cgsR /\ 1000 * pc_kb cgsR * ex_T cgsR / pc_h cgsR + tiny <= 10 ^ 20.
Proof.
  destruct (ex_T_facts cgsR cgs_hkc) as (H1 & _ & ->). split; [exact H1|]. pose proof tiny_lt_1. lra.
Qed.

(** A narrow bounded group far below, or reaching far above, the thermal window: the first
    sample lies below the group. *)
Lemma C33_narrow_refuted_proof :
  forall pc : PhysConst R, positive_hkc pc ->
  forall (T lo hi : R) (N : Z), 0 < T -> (2 <= N)%Z ->
  let tmin := pc_kb pc * T / (1000 * pc_h pc) in
  let tmax := 1000 * pc_kb pc * T / pc_h pc in
  (hi <= tmin /\ lo < tmin / 10) \/ (tmax <= lo /\ 10 * tmax < hi) ->
  0 < lo -> 6 / 10 * hi + 2 * tiny <= lo < hi ->
  exists l nu, visited (finpc pc) (Fin T) (Fin lo) (Fin hi) N = Ok (Fin nu :: l) /\ nu < lo.
Proof.
  intros pc (Hh & Hk & Hc) T lo hi N HT HN tmin tmax H Hlo Hb. pose proof tiny_pos as Tp.
  assert (HG : a_group lo (Fin hi)) by (split; [lra|left; eexists; split; [reflexivity|lra]]).
  assert (HN' : (0 < N)%Z) by lia.
  set (w := window (pc_h pc) (pc_kb pc) T lo (Fin hi)).
  pose proof (window_pos pc Hh Hk T lo (Fin hi) HT HG) as Hw. fold w in Hw.
  assert (W : w = (hi / 2, hi)).
  { unfold w, window. change (thermal_lo (pc_h pc) (pc_kb pc) T) with tmin.
    change (thermal_hi (pc_h pc) (pc_kb pc) T) with tmax.
    assert (P : 0 < tmin) by (unfold tmin; pos). assert (E : tmax = 1000000 * tmin) by (unfold tmax, tmin; field; lra).
    clearbody tmin tmax. clear w Hw.
    ifs; try reflexivity; lra. }
  eexists _, _. split.
  - rewrite visited_fin; auto; [|repeat split; assumption]. fold w.
    replace (Z.to_nat N) with (S (Z.to_nat N - 1)) by lia. cbn [seq map]. reflexivity.
  - rewrite W. unfold frequency, cell_width, logs. cbn [fst snd]. clear w Hw W.
    apply Rlt_le_trans with (6 / 10 * hi + 2 * tiny); [|lra].
    rewrite <- (pow10_log10 (6 / 10 * hi + 2 * tiny)) by lra. apply pow10_incr.
    assert (L2 : log10 (hi + tiny) < log10 2 + log10 (hi / 2 + tiny)).
    { unfold log10. pose proof ln10_pos. rewrite <- Rdiv_plus_distr, <- ln_mult by lra.
      apply Rmult_lt_compat_r; [now apply Rinv_0_lt_compat|]. apply ln_increasing; lra. }
    assert (L3 : log10 (hi / 2 + tiny) + log10 (12 / 10) <= log10 (6 / 10 * hi + 2 * tiny)).
    { unfold log10. pose proof ln10_pos. rewrite <- Rdiv_plus_distr, <- ln_mult by lra.
      apply Rmult_le_compat_r; [apply Rlt_le; now apply Rinv_0_lt_compat|]. apply Rlt_le, ln_increasing; lra. }
    assert (L4 : log10 2 <= 4 * log10 (12 / 10)).
    { unfold log10. pose proof ln10_pos. unfold Rdiv at 2. rewrite <- Rmult_assoc.
      apply Rmult_le_compat_r; [apply Rlt_le; now apply Rinv_0_lt_compat|].
      replace (4 * ln (12 / 10)) with (ln ((12 / 10) ^ 4)).
      - apply Rlt_le, ln_increasing; lra.
      - cbn [pow]. rewrite !ln_mult by lra. rewrite ln_1. ring. }
    assert (LN : 0 < log10 2) by (unfold log10; apply Rdiv_lt_0_compat; [rewrite <- ln_1; apply ln_increasing; lra|apply ln10_pos]).
    assert (IN : 2 <= IZR N) by (apply IZR_le; lia).
    assert (INR 0 + / 2 = / 2) as -> by (cbn; lra).
    set (d := log10 (hi + tiny) - log10 (hi / 2 + tiny)) in *.
    assert (D : / 2 * (d / IZR N) < log10 (12 / 10)).
    { apply Rlt_le_trans with (/ 2 * (log10 2 / IZR N)).
      - apply Rmult_lt_compat_l; [lra|]. apply Rmult_lt_compat_r; [apply Rinv_0_lt_compat; lra|]. unfold d. lra.
      - apply Rle_trans with (/ 2 * (log10 2 / 2)); [|lra].
        apply Rmult_le_compat_l; [lra|]. apply Rmult_le_compat_l; [lra|]. apply Rinv_le_contravar; lra. }
    lra.
Qed.

(** At about 48000 K: the groups [8 10^9, 10^10] and [8 10^19, 10^20]. *)
Lemma C33_narrow_refuted_example :
  let T := ex_T cgsR in
  let tmin := pc_kb cgsR * T / (1000 * pc_h cgsR) in
  let tmax := 1000 * pc_kb cgsR * T / pc_h cgsR in
  0 < T /\
  (10 ^ 10 <= tmin /\ 8 * 10 ^ 9 < tmin / 10) /\ 6 / 10 * 10 ^ 10 + 2 * tiny <= 8 * 10 ^ 9 < 10 ^ 10 /\
  (tmax <= 8 * 10 ^ 19 /\ 10 * tmax < 10 ^ 20) /\ 6 / 10 * 10 ^ 20 + 2 * tiny <= 8 * 10 ^ 19 < 10 ^ 20.
Proof.
  cbv zeta. destruct (ex_T_facts cgsR cgs_hkc) as (H1 & -> & ->). pose proof tiny_lt_1.
  split; [exact H1|]. repeat split; lra.
Qed.
