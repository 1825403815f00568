(** Left Riemann sums of a continuous function converge to its integral. *)
From Coq Require Import Reals Lra Lia.
From Coquelicot Require Import Coquelicot.
Open Scope R_scope.

(** sum of g (a + i dx) for i < n *)
Fixpoint lsum (g : R -> R) (a dx : R) (n : nat) : R :=
  match n with O => 0 | S m => lsum g a dx m + g (INR m * dx + a) end.

Lemma left_sum_error g a dx n eps : 0 <= dx -> 0 <= eps ->
  (forall x, a <= x <= a + INR n * dx -> continuous g x) ->
  (forall x y, a <= x <= a + INR n * dx -> a <= y <= a + INR n * dx -> Rabs (x - y) <= dx -> Rabs (g x - g y) <= eps) ->
  Rabs (lsum g a dx n * dx - RInt g a (a + INR n * dx)) <= eps * (INR n * dx).
Proof.
  intros Hd He. induction n as [|n IH]; intros Hc Hu.
  - cbn [lsum INR]. rewrite !Rmult_0_l, Rplus_0_r, RInt_point. change (@zero _) with 0. rewrite Rminus_0_r, Rabs_R0. lra.
  - rewrite S_INR in *. set (b := a + INR n * dx). assert (Pn : 0 <= INR n * dx) by (apply Rmult_le_pos; [apply pos_INR|exact Hd]).
    replace (a + (INR n + 1) * dx) with (b + dx) in * by (unfold b; ring).
    assert (E1 : ex_RInt g a b).
    { apply (ex_RInt_continuous (V := R_CompleteNormedModule)). intros z. rewrite Rmin_left, Rmax_right by (unfold b; lra).
      intros [? ?]. apply Hc. lra. }
    assert (E2 : ex_RInt g b (b + dx)).
    { apply (ex_RInt_continuous (V := R_CompleteNormedModule)). intros z. rewrite Rmin_left, Rmax_right by lra.
      unfold b. intros [? ?]. apply Hc. unfold b. lra. }
    rewrite <- (RInt_Chasles g a b (b + dx) E1 E2). cbn [lsum].
    change (plus (RInt g a b) (RInt g b (b + dx))) with (RInt g a b + RInt g b (b + dx)).
    specialize (IH (fun x Hx => Hc x ltac:(unfold b in *; lra)) (fun x y Hx Hy => Hu x y ltac:(unfold b in *; lra) ltac:(unfold b in *; lra))).
    fold b in IH.
    assert (C : Rabs (g (INR n * dx + a) * dx - RInt g b (b + dx)) <= eps * dx).
    { replace (INR n * dx + a) with b by (unfold b; ring).
      assert (Ec : RInt (fun _ => g b) b (b + dx) = g b * dx).
      { rewrite RInt_const. unfold scal. cbn. unfold mult. cbn. ring. }
      rewrite <- Ec.
      assert (E3 : ex_RInt (fun _ : R => g b) b (b + dx)) by apply ex_RInt_const.
      change (RInt (fun _ : R => g b) b (b + dx) - RInt g b (b + dx)) with (minus (RInt (fun _ : R => g b) b (b + dx)) (RInt g b (b + dx))).
      rewrite <- (RInt_minus (fun _ => g b) g b (b + dx) E3 E2).
      replace (eps * dx) with ((b + dx - b) * eps) by ring.
      apply abs_RInt_le_const; [lra|apply (@ex_RInt_minus R_NormedModule); assumption|].
      intros t Ht. unfold minus, plus, opp. cbn. apply Hu.
      - unfold b. lra.
      - unfold b in *. lra.
      - rewrite Rabs_left1 by lra. lra. }
    replace ((lsum g a dx n + g (INR n * dx + a)) * dx - (RInt g a b + RInt g b (b + dx)))
      with ((lsum g a dx n * dx - RInt g a b) + (g (INR n * dx + a) * dx - RInt g b (b + dx))) by ring.
    apply (Rle_trans _ _ _ (Rabs_triang _ _)).
    replace (eps * ((INR n + 1) * dx)) with (eps * (INR n * dx) + eps * dx) by ring. now apply Rplus_le_compat.
Qed.

Lemma left_sum_lim g a b : a < b -> (forall x, a <= x <= b -> continuous g x) ->
  is_lim_seq (fun n => lsum g a ((b - a) / INR (S n)) (S n) * ((b - a) / INR (S n))) (RInt g a b).
Proof.
  intros Hab Hc. apply is_lim_seq_spec. intros [eps He]. cbn.
  set (e := eps / (2 * (b - a))). assert (Pe : 0 < e) by (apply Rdiv_lt_0_compat; lra).
  destruct (Heine_cor2 (f := g) (a := a) (b := b)) with (eps := mkposreal e Pe) as [[d Hd] Hu].
  { intros x Hx. apply continuity_pt_filterlim. now apply Hc. }
  cbn in Hu.
  destruct (nfloor_ex ((b - a) / d)) as [n0 Hn0].
  { left. apply Rdiv_lt_0_compat; lra. }
  exists (S n0). intros n Hn. set (dx := (b - a) / INR (S n)).
  assert (Ps : 0 < INR (S n)) by (apply lt_0_INR; lia).
  assert (Pdx : 0 < dx) by (apply Rdiv_lt_0_compat; lra).
  assert (Ld : dx < d).
  { unfold dx. apply (Rmult_lt_reg_r (INR (S n))); [exact Ps|]. unfold Rdiv. rewrite Rmult_assoc, Rinv_l, Rmult_1_r by lra.
    assert (H1 : INR (S n0) < INR (S n)) by (apply lt_INR; lia). rewrite S_INR in H1 at 1.
    assert (H2 : (b - a) / d < INR (S n)) by lra.
    apply (Rmult_lt_compat_r d) in H2; [|exact Hd]. unfold Rdiv in H2. rewrite Rmult_assoc, Rinv_l, Rmult_1_r in H2 by lra. lra. }
  assert (Eb : a + INR (S n) * dx = b) by (unfold dx; field; lra).
  pose proof (left_sum_error g a dx (S n) e) as L. rewrite Eb in L.
  assert (L' : Rabs (lsum g a dx (S n) * dx - RInt g a b) <= e * (INR (S n) * dx)).
  { apply L; [lra|lra|exact Hc|]. intros x y Hx Hy Hxy. left. apply Hu; lra. }
  apply (Rle_lt_trans _ _ _ L'). replace (INR (S n) * dx) with (b - a) by lra.
  unfold e. replace (eps / (2 * (b - a)) * (b - a)) with (eps / 2) by (field; lra). lra.
Qed.
