(** Scaling extended reals by positive factors. *)
From Coq Require Import Reals ZArith Lra Lia.
From Verif Require Import Base.Outcome Base.Ops Inst.ER Inst.ERTac Model.NonCGSPhotons Spec.Units.
Open Scope R_scope.

Lemma fin_inj a b : Fin a = Fin b -> a = b.
Proof. intros H; injection H; auto. Qed.

Lemma inf_pos q : 0 < q -> inf_of_sign q = PInf.
Proof. intros H. unfold inf_of_sign. destruct (Rlt_dec 0 q); [reflexivity|lra]. Qed.
Lemma inf_neg q : q < 0 -> inf_of_sign q = NInf.
Proof. intros H. unfold inf_of_sign. destruct (Rlt_dec 0 q); [lra|]. destruct (Rlt_dec q 0); [reflexivity|lra]. Qed.

Lemma mul_rescale x q : 0 < q -> Omul x (Fin q) = rescale q x.
Proof. intros H. destruct x; cbn; rewrite ?inf_pos, ?inf_neg by lra; reflexivity. Qed.
Lemma mul_rescale_l x q : 0 < q -> Omul (Fin q) x = rescale q x.
Proof. intros H. destruct x; cbn; rewrite ?inf_pos, ?inf_neg by lra; try reflexivity. f_equal; ring. Qed.
Lemma div_rescale x q : 0 < q -> Odiv x (Fin q) = rescale (/ q) x.
Proof.
  intros H. destruct x; cbn; try reflexivity.
  - destruct (Req_EM_T q 0); [lra|reflexivity].
  - destruct (Rlt_dec q 0); [lra|reflexivity].
  - destruct (Rlt_dec q 0); [lra|reflexivity].
Qed.
Lemma rescale_rescale p q x : rescale p (rescale q x) = rescale (q * p) x.
Proof. destruct x; cbn; try reflexivity. f_equal. ring. Qed.
Lemma rescale_1 x : rescale 1 x = x.
Proof. destruct x; cbn; try reflexivity. f_equal. ring. Qed.

Definition sys_units (s : unit_system) : Units ER :=
  mk_units (Fin (us_time s)) (Fin (us_mass s)) (Fin (us_length s)) (Fin (us_temp s)).

(** The factors the wrapper computes are the units of the right dimensions. *)
Section Factors.
  Variable s : unit_system.
  Hypothesis Hs : positive_system s.

  Lemma unit_of_pos d : 0 < unit_of s d.
  Proof. destruct Hs as (A & B & C & D). unfold unit_of. pos. Qed.

  Ltac fac := destruct Hs as (A & B & C & D); unfold sys_units, mk_units;
    cbn [un_time un_mass un_length un_temp un_rho un_freq un_inv_emiss un_inv_num_emiss
         un_inv_intensity un_inv_energy_dens];
    er; f_equal; unfold unit_of, d_time, d_mass, d_length, d_temperature, d_mass_density, d_frequency,
      d_emissivity_nu, d_number_emissivity, d_intensity_nu, d_energy_density; cbn [dL dM dT dK]; unfold powerRZ; repeat pnat;
    field; repeat split; nz.

  Lemma f_time : un_time (sys_units s) = Fin (unit_of s d_time).
  Proof. fac. Qed.
  Lemma f_mass : un_mass (sys_units s) = Fin (unit_of s d_mass).
  Proof. fac. Qed.
  Lemma f_length : un_length (sys_units s) = Fin (unit_of s d_length).
  Proof. fac. Qed.
  Lemma f_temp : un_temp (sys_units s) = Fin (unit_of s d_temperature).
  Proof. fac. Qed.
  Lemma f_rho : un_rho (sys_units s) = Fin (unit_of s d_mass_density).
  Proof. fac. Qed.
  Lemma f_freq : un_freq (sys_units s) = Fin (unit_of s d_frequency).
  Proof. fac. Qed.
  Lemma f_emiss : un_inv_emiss (sys_units s) = Fin (/ unit_of s d_emissivity_nu).
  Proof. fac. Qed.
  Lemma f_num_emiss : un_inv_num_emiss (sys_units s) = Fin (/ unit_of s d_number_emissivity).
  Proof. fac. Qed.
  Lemma f_intensity : un_inv_intensity (sys_units s) = Fin (/ unit_of s d_intensity_nu).
  Proof. fac. Qed.
  Lemma f_energy_dens : un_inv_energy_dens (sys_units s) = Fin (/ unit_of s d_energy_density).
  Proof. fac. Qed.
End Factors.

(** close [wrapper method = in_code d (wrapped method at converted arguments)]:
    rewrite the wrapper's factors into units, then compare the scalings *)
Ltac dims := unfold unit_of, d_none, d_length, d_mass, d_time, d_temperature, d_frequency,
  d_mass_density, d_velocity, d_energy, d_action, d_absorption, d_cross_section,
  d_emissivity_nu, d_emissivity, d_number_emissivity, d_intensity_nu,
  d_intensity_nu_per_temp, d_intensity, d_number_intensity, d_energy_density,
  d_number_density; cbn [dL dM dT dK]; unfold powerRZ; repeat pnat.
Ltac cov s Hs :=
  rewrite ?(f_time s Hs), ?(f_mass s Hs), ?(f_length s Hs), ?(f_temp s Hs), ?(f_rho s Hs),
    ?(f_freq s Hs), ?(f_emiss s Hs), ?(f_num_emiss s Hs), ?(f_intensity s Hs),
    ?(f_energy_dens s Hs);
  unfold in_cgs, in_code, bind;
  repeat first [rewrite mul_rescale_l by (first [apply (unit_of_pos s Hs) | apply Rinv_0_lt_compat, (unit_of_pos s Hs) | apply Rmult_lt_0_compat; apply (unit_of_pos s Hs)])
               |rewrite mul_rescale by (first [apply (unit_of_pos s Hs) | apply Rinv_0_lt_compat, (unit_of_pos s Hs) | apply Rmult_lt_0_compat; apply (unit_of_pos s Hs)])
               |rewrite div_rescale by (first [apply (unit_of_pos s Hs) | apply Rinv_0_lt_compat, (unit_of_pos s Hs) | apply Rmult_lt_0_compat; apply (unit_of_pos s Hs)])];
  rewrite ?Rinv_inv.
Ltac covr s Hs :=
  match goal with |- match ?x with _ => _ end = _ => destruct x; try reflexivity end;
  rewrite ?fin_mul;
  repeat first [rewrite mul_rescale by (first [apply (unit_of_pos s Hs) | apply Rinv_0_lt_compat, (unit_of_pos s Hs) | apply Rmult_lt_0_compat; apply (unit_of_pos s Hs)])
               |rewrite div_rescale by (first [apply (unit_of_pos s Hs) | apply Rinv_0_lt_compat, (unit_of_pos s Hs) | apply Rmult_lt_0_compat; apply (unit_of_pos s Hs)])];
  rewrite ?rescale_rescale; f_equal; f_equal;
  destruct Hs as (A & B & C & D); dims; field; repeat split; nz.
