(** Rules for near over the operations of the model, the constants in cgs units, and the
    tactic that applies them. *)
From Coq Require Import Reals ZArith Lra Lia Bool.
From Flocq Require Import Core IEEE754.BinarySingleNaN.
From Verif Require Import Base.Ops Inst.B64 Model.Constants
  Spec.DoublePrecision Proofs.B64Facts Proofs.Near Proofs.NearConsts.
Open Scope R_scope.

Section Rules.
  Context (L : Libm) (HL : accurate_libm L).
  Notation O := (B64_ops L).
  Notation pc := (@PhysicalConstantsCGS b64 O).

  Lemma frac_pow m k : IZR m / 10 ^ k = IZR m / IZR (10 ^ Z.of_nat k).
  Proof. rewrite pow_IZR. reflexivity. Qed.

  Lemma c_h : near 1 (-87) (-86) (pc_h pc) h_cgs.
  Proof. apply (lit_near' 1 _ 662606957 (10 ^ 35)); [vm_compute; reflexivity|]. apply (frac_pow 662606957 35). Qed.
  Lemma c_kb : near 1 (-53) (-52) (pc_kb pc) k_cgs.
  Proof. apply (lit_near' 1 _ 13806488 (10 ^ 23)); [vm_compute; reflexivity|]. apply (frac_pow 13806488 23). Qed.
  Lemma c_c : near 0 34 35 (pc_c pc) c_cgs.
  Proof. apply (lit_near' 0 _ 29979245800 1); [vm_compute; reflexivity|]. unfold c_cgs. lra. Qed.
  Lemma c_me : near 2 (-90) (-89) (pc_me pc) me_cgs.
  Proof. apply (lit_near' 2 _ 910938291 (10 ^ 36)); [vm_compute; reflexivity|]. apply (frac_pow 910938291 36). Qed.
  Lemma c_mp : near 2 (-79) (-78) (pc_mp pc) mp_cgs.
  Proof. apply (lit_near' 2 _ 1672621777 (10 ^ 33)); [vm_compute; reflexivity|]. apply (frac_pow 1672621777 33). Qed.
  Lemma c_alpha : near 1 (-8) (-7) (pc_alpha pc) alpha_cgs.
  Proof. apply (lit_near' 1 _ 72973525698 (10 ^ 13)); [vm_compute; reflexivity|]. apply (frac_pow 72973525698 13). Qed.
  Lemma c_qe : near 2 (-31) (-30) (pc_qe pc) qe_cgs.
  Proof.
    apply (lit_near' 2 _ (1602176565 * 2997924580) (10 ^ 28)); [vm_compute; reflexivity|].
    unfold qe_cgs. rewrite <- mult_IZR. apply (frac_pow (1602176565 * 2997924580) 28). Qed.

  Lemma c_pi : near 1 1 2 (@Opi b64 O) PI.
  Proof. exact near_pi. Qed.

  Lemma n_mul n1 a1 b1 x r n2 a2 b2 y s :
    near n1 a1 b1 x r -> near n2 a2 b2 y s ->
    (-1021 <= a1 + a2)%Z -> (b1 + b2 <= 1021)%Z -> n1 + n2 <= 2 ^ 40 ->
    near (n1 + n2 + 1) (a1 + a2) (b1 + b2) (@Omul b64 O x y) (r * s).
  Proof. exact (near_mul n1 a1 b1 x r n2 a2 b2 y s). Qed.
  Lemma n_div n1 a1 b1 x r n2 a2 b2 y s :
    near n1 a1 b1 x r -> near n2 a2 b2 y s ->
    (-1021 <= a1 - b2)%Z -> (b1 - a2 <= 1021)%Z -> n1 + n2 <= 2 ^ 40 ->
    near (n1 + n2 + 1) (a1 - b2) (b1 - a2) (@Odiv b64 O x y) (r / s).
  Proof. exact (near_div n1 a1 b1 x r n2 a2 b2 y s). Qed.
  Lemma n_add n1 a1 b1 x r n2 a2 b2 y s :
    near n1 a1 b1 x r -> near n2 a2 b2 y s ->
    (-1021 <= Z.max a1 a2)%Z -> (Z.max b1 b2 + 1 <= 1021)%Z -> n1 + n2 <= 2 ^ 40 ->
    near (n1 + n2 + 1) (Z.max a1 a2) (Z.max b1 b2 + 1) (@Oadd b64 O x y) (r + s).
  Proof.
    intros Hx Hy Ha Hb Hn. assert (N1 : 0 <= n1) by apply Hx. assert (N2 : 0 <= n2) by apply Hy.
    assert (M : Rmax n1 n2 <= n1 + n2) by (apply Rmax_lub; lra).
    pose proof (near_add _ _ _ _ _ _ _ _ _ _ Hx Hy Ha Hb ltac:(lra)) as N.
    apply (near_weaken _ (n1 + n2 + 1) _ _ _ _ _ _ N); [lra|apply N].
  Qed.
  Lemma n_sqrt n a b x r : near n a b x r -> (-1021 <= Z.div a 2)%Z -> ((b + 1) / 2 <= 1021)%Z -> n <= 2 ^ 40 ->
    near (n / 2 + 1) (Z.div a 2) ((b + 1) / 2) (@Osqrt b64 O x) (sqrt r).
  Proof. exact (near_sqrt n a b x r). Qed.
  Lemma n_pow n a b x r k y : near n a b x r -> y = @OofZ b64 O (Z.of_nat k) -> (Z.of_nat k < 2 ^ 53)%Z ->
    (-1021 <= Z.of_nat k * a)%Z -> (Z.of_nat k * b <= 1021)%Z -> INR k * n <= 2 ^ 40 ->
    near (INR k * n + 2) (Z.of_nat k * a) (Z.of_nat k * b) (@Opow b64 O x y) (r ^ k).
  Proof.
    intros H -> Hk Ha Hb Hn.
    destruct (V_lit (Z.of_nat k) 0) as [E F]; [lia|lia|lia|].
    apply (near_pow_nat L HL); try assumption. change (V (b64_ldexp (Z.of_nat k) 0) = INR k).
    rewrite E, INR_IZR_INZ. change (bp 0) with 1. lra.
  Qed.

  Lemma near_conv n a b x r n' a' b' r' : near n a b x r -> r = r' -> n <= n' -> (a' <= a)%Z -> (b <= b')%Z ->
    near n' a' b' x r'.
  Proof.
    intros H <- Hn Ha Hb. apply (near_weaken _ _ _ _ _ _ _ _ H Hn). destruct H as (_ & _ & [H1 H2] & _).
    split; [apply Rle_trans with (bp a)|apply Rle_trans with (bp b)]; try assumption; apply bpow_le; assumption.
  Qed.
  Lemma near_in x : physical x -> near 0 (-100) 100 x (V x).
  Proof.
    intros [F H]. apply near_exact; [exact F|reflexivity|]. rewrite two_pow_bp in H.
    change (Z.of_nat 100) with 100%Z in H. change (-100)%Z with (- (100))%Z. rewrite bpow_opp. exact H.
  Qed.
End Rules.

Lemma div_1 r : r / 1 = r.
Proof. lra. Qed.
Ltac zlit k := let a := eval vm_compute in (Z.log2 k) in let b := eval vm_compute in (Z.log2_up k) in
  apply (lit_near' 0 _ k 1 a b); [vm_compute; reflexivity|symmetry; apply div_1].
Ltac zs := vm_compute; congruence.
Ltac rs := cbn [pow INR]; lra.
Ltac nearg HL :=
  lazymatch goal with
  | |- near _ _ _ (Omul _ _) _ => eapply n_mul; [nearg HL|nearg HL|zs|zs|rs]
  | |- near _ _ _ (Odiv _ _) _ => eapply n_div; [nearg HL|nearg HL|zs|zs|rs]
  | |- near _ _ _ (Oadd _ _) _ => eapply n_add; [nearg HL|nearg HL|zs|zs|rs]
  | |- near _ _ _ (Osqrt _) _ => eapply n_sqrt; [nearg HL|zs|zs|rs]
  | |- near _ _ _ (Opow _ (OofZ ?k)) _ =>
      let n := eval vm_compute in (Z.to_nat k) in
      eapply (n_pow _ HL _ _ _ _ _ n); [nearg HL|reflexivity|reflexivity|zs|zs|rs]
  | |- near _ _ _ (OofZ ?k) _ => zlit k
  | |- near _ _ _ Opi _ => apply c_pi
  | |- near _ _ _ (pc_h _) _ => apply c_h
  | |- near _ _ _ (pc_kb _) _ => apply c_kb
  | |- near _ _ _ (pc_c _) _ => apply c_c
  | |- near _ _ _ (pc_me _) _ => apply c_me
  | |- near _ _ _ (pc_mp _) _ => apply c_mp
  | |- near _ _ _ (pc_qe _) _ => apply c_qe
  | |- near _ _ _ (pc_alpha _) _ => apply c_alpha
  | _ => eassumption
  end.

