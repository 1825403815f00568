(** Planck and Fermi-Dirac spectra in exact arithmetic. *)
From Coq Require Import Reals ZArith Lra Lia.
From Coquelicot Require Import Coquelicot.
From Verif Require Import Base.Ops Inst.ER Inst.ERTac Model.Constants
  Model.RadTypes Model.ThermalPhotons Model.ThermalNeutrinos Spec.Physics.
Open Scope R_scope.

Section Facts.
  Context (pc : PhysConst R).
  Hypotheses (Hh : 0 < pc_h pc) (Hk : 0 < pc_kb pc) (Hc : 0 < pc_c pc).
  Local Notation h := (pc_h pc).
  Local Notation k := (pc_kb pc).
  Local Notation c := (pc_c pc).

  Lemma x_pos T nu : 0 < T -> 0 < nu -> 0 < h * nu / (k * T).
  Proof. intros; pos. Qed.

  Lemma planck_nu_fin T nu : 0 < T -> 0 < nu ->
    planck_nu (finpc pc) (Fin T) (Fin nu) = Fin (Planck_B h k c T nu).
  Proof.
    intros HT Hn. unfold planck_nu, Planck_B. pose proof (x_pos T nu HT Hn).
    er. f_equal. field. repeat split; nz.
  Qed.

  Lemma Planck_B_pos T nu : 0 < T -> 0 < nu -> 0 < Planck_B h k c T nu.
  Proof.
    intros HT Hn. unfold Planck_B. pose proof (x_pos T nu HT Hn). pos.
  Qed.

  Lemma Planck_B_incr T1 T2 nu : 0 < T1 -> T1 < T2 -> 0 < nu ->
    Planck_B h k c T1 nu < Planck_B h k c T2 nu.
  Proof.
    intros H1 H2 Hn. unfold Planck_B, Rdiv at 1 4.
    apply Rmult_lt_compat_l; [pos|].
    apply Rinv_lt_contravar.
    - apply Rmult_lt_0_compat; apply expm1_pos; apply x_pos; lra.
    - apply Rplus_lt_compat_r. apply exp_increasing.
      unfold Rdiv. apply Rmult_lt_compat_l; [pos|].
      apply Rinv_lt_contravar; [|apply Rmult_lt_compat_l; lra].
      assert (0 < T2) by lra. pos.
  Qed.

  Lemma planck_nu_zero T : 0 < T ->
    planck_nu (finpc pc) (Fin T) (Fin 0) = NaN.
  Proof.
    intros HT. unfold planck_nu. er.
    replace (h * 0 / (k * T)) with 0 by (field; lra). rewrite exp_0.
    replace (2 * h * 0 * 0 * 0 / (c * c) * 1) with 0 by (field; lra).
    cbn. destruct (Req_EM_T (1 - 1) 0); [|lra].
    unfold inf_of_sign. destruct (Rlt_dec 0 0); [lra|reflexivity].
  Qed.

  Lemma planck_dT_fin T nu : 0 < T -> 0 < nu ->
    exists d, planck_dT (finpc pc) (Fin T) (Fin nu) = Fin d /\
      is_derive (fun t => Planck_B h k c t nu) T d.
  Proof.
    intros HT Hn. unfold planck_dT. pose proof (x_pos T nu HT Hn) as Hx.
    assert (Ho : - (exp (- (h * nu / (k * T))) - 1) <> 0).
    { pose proof (exp_neg_lt_1 _ Hx). lra. }
    eexists. split.
    - er. rewrite fin_div. reflexivity. nra.
    - unfold Planck_B. auto_derive.
      + repeat split; nz.
      + assert (He : exp (h * nu / (k * T)) <> 0) by (apply Rgt_not_eq, exp_pos).
        pose proof (one_lt_exp _ Hx) as H1.
        rewrite exp_Ropp. change (h * nu * / (k * T)) with (h * nu / (k * T)).
        set (E := exp (h * nu / (k * T))) in *.
        field. repeat split; try nz; lra.
  Qed.

  Context (ns : Z) (type : RadiationType).

  Lemma fd_nu_fin T nu : 0 < T ->
    fd_nu ns (finpc pc) (Fin T) type (Fin nu) =
    Fin (FermiDirac_B (IZR ns) h k c T nu).
  Proof.
    intros HT. unfold fd_nu, FermiDirac_B. er. f_equal. field.
    repeat split; nz.
  Qed.

  Lemma FD_pos n T nu : 0 < n -> 0 < T -> 0 < nu -> 0 < FermiDirac_B n h k c T nu.
  Proof. intros. unfold FermiDirac_B. pos. Qed.

  Lemma FD_incr n T1 T2 nu : 0 < n -> 0 < T1 -> T1 < T2 -> 0 < nu ->
    FermiDirac_B n h k c T1 nu < FermiDirac_B n h k c T2 nu.
  Proof.
    intros Hns H1 H2 Hn. unfold FermiDirac_B.
    apply Rmult_lt_compat_l; [assumption|]. unfold Rdiv at 1 4.
    apply Rmult_lt_compat_l; [pos|].
    apply Rinv_lt_contravar; [pos|].
    apply Rplus_lt_compat_r. apply exp_increasing.
    unfold Rdiv. apply Rmult_lt_compat_l; [pos|].
    apply Rinv_lt_contravar; [|apply Rmult_lt_compat_l; lra].
    assert (0 < T2) by lra. pos.
  Qed.

  Lemma fd_dT_fin T nu : 0 < T ->
    exists d, fd_dT ns (finpc pc) (Fin T) type (Fin nu) = Fin d /\
      is_derive (fun t => FermiDirac_B (IZR ns) h k c t nu) T d.
  Proof.
    intros HT. unfold fd_dT. eexists. split.
    - er. reflexivity.
    - unfold FermiDirac_B.
      pose proof (exp_pos (h * nu / (k * T))) as HE.
      auto_derive.
      + repeat split; nz.
      + rewrite exp_Ropp. change (h * nu * / (k * T)) with (h * nu / (k * T)).
        set (E := exp (h * nu / (k * T))) in *.
        field. repeat split; try nz; lra.
  Qed.
End Facts.
