(** The constants of the library in double precision. *)
From Coq Require Import Reals ZArith Lra Lia Bool Machin Floats.SpecFloat.
From Flocq Require Import Core IEEE754.BinarySingleNaN.
From Verif Require Import Base.Ops Inst.B64 Model.Constants Spec.DoublePrecision Proofs.B64Facts Proofs.Near.
Open Scope R_scope.

(** ** pi to 16 digits *)
Lemma PI_digits : 31415926535897931 / 10000000000000000 <= PI <= 31415926535897934 / 10000000000000000.
Proof.
  destruct (PI_2_3_7_ineq 8) as [H1 H2].
  assert (T : forall k, tg_alt PI_2_3_7_tg k =
    (if Nat.even k then 1 else -1) *
    (2 * / (3 ^ (2 * k + 1) * INR (2 * k + 1)) + / (7 ^ (2 * k + 1) * INR (2 * k + 1)))).
  { intros k. unfold tg_alt, PI_2_3_7_tg, Ratan_seq. unfold Rdiv. rewrite !pow_inv, !Rinv_mult.
    replace ((-1) ^ k) with (if Nat.even k then 1 else -1); [ring|].
    induction k as [|k IH]; [reflexivity|]. rewrite Nat.even_succ, <- Nat.negb_even. simpl pow. rewrite <- IH.
    destruct (Nat.even k); simpl; ring. }
  change (S (2 * 8)) with 17%nat in H1. change (2 * 8)%nat with 16%nat in H2.
  cbn [sum_f_R0] in H1, H2. rewrite !T in H1. rewrite !T in H2. clear T. rewrite !INR_IZR_INZ in H1. rewrite !INR_IZR_INZ in H2.
  cbn [Nat.even Nat.mul Nat.add Z.of_nat Pos.of_succ_nat Pos.succ] in H1, H2.
  rewrite !pow_IZR, <- !mult_IZR in H1. rewrite !pow_IZR, <- !mult_IZR in H2.
  repeat match type of H1 with context [IZR ?t] =>
    match t with Z.mul _ _ => let v := eval vm_compute in t in change t with v in H1 end end.
  repeat match type of H2 with context [IZR ?t] =>
    match t with Z.mul _ _ => let v := eval vm_compute in t in change t with v in H2 end end.
  split; lra.
Qed.

(** ** Literals: a check by computation *)
Definition pow2_le (a num den : Z) : bool :=   (* 2^a <= num / den *)
  if (a <? 0)%Z then (den <=? num * 2 ^ (- a))%Z else (den * 2 ^ a <=? num)%Z.
Definition pow2_ge (b num den : Z) : bool :=   (* num / den <= 2^b *)
  if (b <? 0)%Z then (num * 2 ^ (- b) <=? den)%Z else (num <=? den * 2 ^ b)%Z.
Definition lit_ok (k : Z) (x : b64) (num den a b : Z) : bool :=
  match B2SF x with
  | S754_finite false m e =>
    let p := if (e <? 0)%Z then Zpos m else (Zpos m * 2 ^ e)%Z in
    let q := if (e <? 0)%Z then (2 ^ (- e))%Z else 1%Z in
    ((0 <? num) && (0 <? den) && (0 <? q) && (0 <=? k) && (k <=? 1000) &&
     (Z.abs (p * den - num * q) * 2 ^ 53 <=? k * (num * q)))%Z && pow2_le a num den && pow2_ge b num den
  | _ => false
  end.

Lemma bp_neg a : (a < 0)%Z -> bp a = / IZR (2 ^ (- a)).
Proof. intros H. replace a with (- (- a))%Z at 1 by lia. rewrite bpow_opp, <- IZR_Zpower by lia. reflexivity. Qed.
Lemma bp_nonneg a : (0 <= a)%Z -> bp a = IZR (2 ^ a).
Proof. intros H. rewrite <- IZR_Zpower by lia. reflexivity. Qed.

Lemma pow2_le_ok a num den : (0 < num)%Z -> (0 < den)%Z -> pow2_le a num den = true ->
  bp a <= IZR num / IZR den.
Proof.
  intros Hn Hd H. apply IZR_lt in Hn, Hd. unfold pow2_le in H. destruct (Z.ltb_spec a 0) as [C|C].
  - apply Z.leb_le, IZR_le in H. rewrite mult_IZR in H. rewrite bp_neg by lia.
    assert (P : 0 < IZR (2 ^ (- a))) by (apply IZR_lt, Z.pow_pos_nonneg; lia).
    apply Rmult_le_reg_r with (IZR (2 ^ (- a)) * IZR den); [apply Rmult_lt_0_compat; lra|].
    replace (/ IZR (2 ^ (- a)) * (IZR (2 ^ (- a)) * IZR den)) with (IZR den) by (field; lra).
    replace (IZR num / IZR den * (IZR (2 ^ (- a)) * IZR den)) with (IZR num * IZR (2 ^ (- a))) by (field; lra). exact H.
  - apply Z.leb_le, IZR_le in H. rewrite mult_IZR in H. rewrite bp_nonneg by lia.
    apply Rmult_le_reg_r with (IZR den); [lra|]. unfold Rdiv. rewrite (Rmult_assoc (IZR num)), Rinv_l by lra. lra.
Qed.
Lemma pow2_ge_ok b num den : (0 < num)%Z -> (0 < den)%Z -> pow2_ge b num den = true ->
  IZR num / IZR den <= bp b.
Proof.
  intros Hn Hd H. apply IZR_lt in Hn, Hd. unfold pow2_ge in H. destruct (Z.ltb_spec b 0) as [C|C].
  - apply Z.leb_le, IZR_le in H. rewrite mult_IZR in H. rewrite bp_neg by lia.
    assert (P : 0 < IZR (2 ^ (- b))) by (apply IZR_lt, Z.pow_pos_nonneg; lia).
    apply Rmult_le_reg_r with (IZR (2 ^ (- b)) * IZR den); [apply Rmult_lt_0_compat; lra|].
    replace (/ IZR (2 ^ (- b)) * (IZR (2 ^ (- b)) * IZR den)) with (IZR den) by (field; lra).
    replace (IZR num / IZR den * (IZR (2 ^ (- b)) * IZR den)) with (IZR num * IZR (2 ^ (- b))) by (field; lra). exact H.
  - apply Z.leb_le, IZR_le in H. rewrite mult_IZR in H. rewrite bp_nonneg by lia.
    apply Rmult_le_reg_r with (IZR den); [lra|]. unfold Rdiv. rewrite (Rmult_assoc (IZR num)), Rinv_l by lra. lra.
Qed.

(** the value of a double as a fraction *)
Lemma frac_value x m e : B2SF x = S754_finite false m e ->
  fin x /\ V x = IZR (if (e <? 0)%Z then Zpos m else (Zpos m * 2 ^ e)%Z) / IZR (if (e <? 0)%Z then (2 ^ (- e))%Z else 1%Z).
Proof.
  intros H. destruct x as [s|s| |s m0 e0 B]; try discriminate H. cbn in H. injection H as -> -> ->.
  split; [reflexivity|]. unfold V, B2R, F2R. cbn [Fnum Fexp cond_Zopp].
  destruct (Z.ltb_spec e 0) as [C|C].
  - rewrite bp_neg by lia. reflexivity.
  - rewrite bp_nonneg by lia. rewrite mult_IZR. lra.
Qed.

Lemma lit_near k x num den a b : lit_ok k x num den a b = true ->
  near (IZR k) a b x (IZR num / IZR den).
Proof.
  unfold lit_ok. intros H. destruct (B2SF x) as [s|s| |s m e] eqn:E; try discriminate H.
  destruct s; [discriminate H|]. destruct (frac_value x m e E) as [Fx Vx].
  set (p := if (e <? 0)%Z then Zpos m else (Zpos m * 2 ^ e)%Z) in *.
  set (q := if (e <? 0)%Z then (2 ^ (- e))%Z else 1%Z) in *. cbv zeta in H.
  repeat (apply andb_prop in H; destruct H as [H ?]).
  apply Z.ltb_lt in H. repeat match goal with K : (_ <? _)%Z = true |- _ => apply Z.ltb_lt in K
    | K : (_ <=? _)%Z = true |- _ => apply Z.leb_le in K end.
  assert (R : bp a <= IZR num / IZR den <= bp b) by (split; [apply pow2_le_ok|apply pow2_ge_ok]; assumption).
  assert (Pr : 0 < IZR num / IZR den) by (apply Rdiv_lt_0_compat; apply IZR_lt; assumption).
  assert (Hk : 0 <= IZR k <= 1000) by (split; apply IZR_le; assumption).
  destruct (within_near (IZR k) x (IZR num / IZR den)) as (F' & W1 & W2); [|exact Hk|exact Pr|].
  - split; [exact Fx|]. fold (V x). rewrite Vx, (Rabs_pos_eq (IZR num / IZR den)) by lra.
    match goal with K : (Z.abs _ * _ <= _)%Z |- _ => apply IZR_le in K; rename K into D end.
    rewrite !mult_IZR, abs_IZR, minus_IZR, !mult_IZR in D. apply IZR_lt in H.
    match goal with K : (0 < den)%Z |- _ => apply IZR_lt in K end.
    match goal with K : (0 < q)%Z |- _ => apply IZR_lt in K end.
    replace (IZR p / IZR q - IZR num / IZR den) with
      ((IZR p * IZR den - IZR num * IZR q) * / (IZR q * IZR den)) by (field; lra).
    rewrite Rabs_mult, (Rabs_pos_eq (/ _)) by (apply Rlt_le, Rinv_0_lt_compat, Rmult_lt_0_compat; lra).
    apply Rmult_le_reg_r with (IZR q * IZR den); [apply Rmult_lt_0_compat; lra|].
    rewrite Rmult_assoc, Rinv_l, Rmult_1_r by (apply Rgt_not_eq, Rmult_lt_0_compat; lra).
    replace (2 ^ 53) with (IZR (2 ^ 53)) by (simpl; lra).
    assert (P53 : 0 < IZR (2 ^ 53)) by (apply IZR_lt; reflexivity).
    apply Rmult_le_reg_r with (IZR (2 ^ 53)); [exact P53|].
    replace (IZR k * / IZR (2 ^ 53) * (IZR num / IZR den) * (IZR q * IZR den) * IZR (2 ^ 53)) with
      (IZR k * (IZR num * IZR q)) by (field; lra). exact D.
  - repeat split; try tauto; lra.
Qed.

Lemma lit_near' k x num den a b r : lit_ok k x num den a b = true -> r = IZR num / IZR den -> near (IZR k) a b x r.
Proof. intros H ->. apply lit_near, H. Qed.

(** M_PI *)
Lemma near_pi : near 1 1 2 (b64_ldexp 884279719003555 (-48)) PI.
Proof.
  destruct PI_digits as [P1 P2].
  destruct (V_lit 884279719003555 (-48)) as [E F]; try (vm_compute; congruence).
  destruct (within_near 1 (b64_ldexp 884279719003555 (-48)) PI) as (_ & W); [|lra|lra|].
  - split; [exact F|]. fold (V (b64_ldexp 884279719003555 (-48))). rewrite E.
    rewrite bp_neg by reflexivity. change (- (-48))%Z with 48%Z.
    replace (IZR (2 ^ 48)) with 281474976710656 by reflexivity. rewrite (Rabs_pos_eq PI) by lra.
    replace (2 ^ 53) with 9007199254740992 by (simpl; lra). apply Rabs_le. lra.
  - repeat split; try tauto; try lra; [change (bp 1) with 2|change (bp 2) with 4]; lra.
Qed.
