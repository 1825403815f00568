(** C24. Dimensions of the runtime constants. *)
From Coq Require Import Reals ZArith Lra.
From Verif Require Import Base.Outcome Base.Ops Inst.ER Inst.ERTac Inst.RConsts Model.Constants
  Spec.Units Spec.Opacities Proofs.UnitFacts.
Open Scope R_scope.

(** [has_dimension s d code cgs]: [code] is the value in code units of the constant
    whose CGS value is [cgs] and whose dimension is [d]. *)
Definition has_dimension (s : unit_system) (d : Dim) (code : ER) (cgs : R) : Prop :=
  code = Fin (cgs / unit_of s d).

(** Every constant whose conversion is right, in every unit system: Avogadro, the
    fine structure constant and the axial coupling are pure numbers; h and hbar are
    actions; k is energy per temperature; c a velocity; four masses; sigma, a_r,
    the electronvolt and the weak cross section. *)
Lemma C24_dimensions_proof :
  forall pc s, positive_system s ->
  let r := RuntimePC_units (finpc pc) (Fin (us_time s)) (Fin (us_mass s)) (Fin (us_length s))
                           (Fin (us_temp s)) in
  has_dimension s d_none (r_na r) (pc_na pc) /\
  has_dimension s d_none (r_alpha r) (pc_alpha pc) /\
  has_dimension s (dim 2 1 (-1) 0) (r_h r) (pc_h pc) /\
  has_dimension s (dim 2 1 (-1) 0) (r_hbar r) (pc_hbar pc) /\
  has_dimension s (dim 2 1 (-2) (-1)) (r_kb r) (pc_kb pc) /\
  has_dimension s (dim 1 0 (-1) 0) (r_c r) (pc_c pc) /\
  has_dimension s (dim 0 1 0 0) (r_me r) (pc_me pc) /\
  has_dimension s (dim 0 1 0 0) (r_mp r) (pc_mp pc) /\
  has_dimension s (dim 0 1 0 0) (r_mn r) (pc_mn pc) /\
  has_dimension s (dim 0 1 0 0) (r_amu r) (pc_amu pc) /\
  has_dimension s (dim 0 1 (-3) (-4)) (r_sb r) (pc_sb pc) /\
  has_dimension s (dim (-1) 1 (-2) (-4)) (r_ar r) (pc_ar pc) /\
  has_dimension s (dim 2 1 (-2) 0) (r_eV r) (pc_eV pc) /\
  has_dimension s (dim 2 0 0 0) (r_nu_sigma0 r) (pc_nu_sigma0 pc) /\
  has_dimension s d_none (r_gA r) (pc_gA pc) /\
  r_time r = Fin (us_time s) /\ r_mass r = Fin (us_mass s) /\
  r_length r = Fin (us_length s) /\ r_temp r = Fin (us_temp s).
Proof.
  intros pc s Hs r. pose proof Hs as (A & B & C & D).
  unfold r, RuntimePC_units, has_dimension.
  cbn [r_na r_alpha r_h r_hbar r_kb r_c r_me r_mp r_mn r_amu r_sb r_ar r_eV r_nu_sigma0 r_gA
       r_time r_mass r_length r_temp].
  repeat match goal with |- _ /\ _ => split end; er; try reflexivity;
    f_equal; dims; field; repeat split; nz.
Qed.

(** The gas constant is an energy per temperature like k (R = N_A k), but its
    conversion leaves the temperature unit out: it is right, and equal to N_A k of
    the same system, only if the temperature unit is 1. *)
Lemma C24_gas_constant_refuted_proof :
  forall pc s, positive_system s -> 0 < pc_r_gas pc ->
  let r := RuntimePC_units (finpc pc) (Fin (us_time s)) (Fin (us_mass s)) (Fin (us_length s))
                           (Fin (us_temp s)) in
  (has_dimension s (dim 2 1 (-2) (-1)) (r_r_gas r) (pc_r_gas pc) <-> us_temp s = 1) /\
  (pc_r_gas pc = pc_na pc * pc_kb pc ->
   (r_r_gas r = Omul (r_na r) (r_kb r) <-> us_temp s = 1)).
Proof.
  intros pc s Hs Hg r. pose proof Hs as (A & B & C & D).
  assert (E : r_r_gas r = Fin (pc_r_gas pc * us_time s ^ 2 / us_mass s / us_length s ^ 2)).
  { unfold r, RuntimePC_units; cbn [r_r_gas]. er. f_equal. }
  assert (K : forall x, pc_r_gas pc * us_time s ^ 2 / us_mass s / us_length s ^ 2 =
                        pc_r_gas pc * us_time s ^ 2 / us_mass s / us_length s ^ 2 * x <-> x = 1).
  { intros x. set (q := pc_r_gas pc * us_time s ^ 2 / us_mass s / us_length s ^ 2).
    assert (0 < q) by (unfold q; pos). split; intros H1; [|subst; ring].
    apply (Rmult_eq_reg_l q); [lra|nz]. }
  split.
  - unfold has_dimension. rewrite E. rewrite <- (K (us_temp s)). split; intros H.
    + injection H as H. rewrite H at 1. dims. field; repeat split; nz.
    + f_equal. rewrite H. dims. field; repeat split; nz.
  - intros Hna. rewrite E. unfold r, RuntimePC_units; cbn [r_na r_kb]. er.
    rewrite <- (K (us_temp s)). split; intros H.
    + injection H as H. rewrite H at 1. rewrite Hna. field; repeat split; nz.
    + f_equal. rewrite H at 1. rewrite Hna. field; repeat split; nz.
Qed.

(** Newton's constant has dimension L^3 M^-1 T^-2; the code divides by the mass unit
    instead of multiplying, so it is right only if the mass unit is 1. *)
Lemma C24_newton_refuted_proof :
  forall pc s, positive_system s -> 0 < pc_g_newt pc ->
  let r := RuntimePC_units (finpc pc) (Fin (us_time s)) (Fin (us_mass s)) (Fin (us_length s))
                           (Fin (us_temp s)) in
  has_dimension s (dim 3 (-1) (-2) 0) (r_g_newt r) (pc_g_newt pc) <-> us_mass s = 1.
Proof.
  intros pc s Hs Hg r. pose proof Hs as (A & B & C & D).
  assert (E : r_g_newt r = Fin (pc_g_newt pc / us_length s ^ 3 / us_mass s * us_time s ^ 2)).
  { unfold r, RuntimePC_units; cbn [r_g_newt]. er. f_equal. }
  unfold has_dimension. rewrite E. split; intros H.
  - injection H as H.
    assert (us_mass s * us_mass s = 1); [|nra].
    set (q := pc_g_newt pc / us_length s ^ 3 * us_time s ^ 2 / us_mass s).
    apply (Rmult_eq_reg_l q); [|unfold q; nz].
    etransitivity; [|etransitivity; [symmetry; exact H|]]; unfold q; dims; field; repeat split; nz.
  - f_equal. dims. rewrite H. field; repeat split; nz.
Qed.

(** The Fermi constant of the library is an inverse energy squared (its compile-time
    value is divided by energy^2, C25): dimension M^-2 L^-4 T^4. The runtime
    conversion uses M^1 L^-1 T^-2 instead. *)
Lemma C24_fermi_refuted_proof :
  forall pc s, positive_system s -> 0 < pc_Fc pc ->
  let r := RuntimePC_units (finpc pc) (Fin (us_time s)) (Fin (us_mass s)) (Fin (us_length s))
                           (Fin (us_temp s)) in
  has_dimension s (dim (-1) 1 (-2) 0) (r_Fc r) (pc_Fc pc) /\
  (has_dimension s (dim (-4) (-2) 4 0) (r_Fc r) (pc_Fc pc) <->
   us_time s ^ 6 = us_length s ^ 3 * us_mass s ^ 3).
Proof.
  intros pc s Hs Hg r. pose proof Hs as (A & B & C & D).
  assert (E : r_Fc r = Fin (pc_Fc pc * us_time s ^ 2 * us_length s / us_mass s)).
  { unfold r, RuntimePC_units; cbn [r_Fc]. er. f_equal. }
  unfold has_dimension. rewrite E. split; [f_equal; dims; field; repeat split; nz|].
  split; intros H.
  - injection H as H.
    set (q := pc_Fc pc * us_length s / us_mass s / us_time s ^ 4).
    apply (Rmult_eq_reg_l q); [|unfold q; nz].
    etransitivity; [|etransitivity; [exact H|]]; unfold q; dims; field; repeat split; nz.
  - f_equal. apply (Rmult_eq_reg_r (us_time s ^ 4)); [|nz].
    replace (pc_Fc pc * us_time s ^ 2 * us_length s / us_mass s * us_time s ^ 4)
      with (pc_Fc pc * us_length s / us_mass s * us_time s ^ 6) by (field; nz).
    rewrite H. dims. field; repeat split; nz.
Qed.

(** The charge is not converted at all, although in Gaussian units its square is an
    energy times a length, so that e^2/(hbar c) is a pure number (the fine structure
    constant). In code units that number is off by M L^3 / T^2; it is right only if
    M L^3 = T^2. *)
Lemma C24_charge_refuted_proof :
  forall pc s, positive_system s -> 0 < pc_qe pc -> 0 < pc_hbar pc -> 0 < pc_c pc ->
  let r := RuntimePC_units (finpc pc) (Fin (us_time s)) (Fin (us_mass s)) (Fin (us_length s))
                           (Fin (us_temp s)) in
  Odiv (Omul (r_qe r) (r_qe r)) (Omul (r_hbar r) (r_c r)) =
    Fin (pc_qe pc ^ 2 / (pc_hbar pc * pc_c pc) * (us_mass s * us_length s ^ 3 / us_time s ^ 2)) /\
  (Odiv (Omul (r_qe r) (r_qe r)) (Omul (r_hbar r) (r_c r)) =
     Fin (pc_qe pc ^ 2 / (pc_hbar pc * pc_c pc)) <->
   us_mass s * us_length s ^ 3 = us_time s ^ 2).
Proof.
  intros pc s Hs Hq Hh Hc r. pose proof Hs as (A & B & C & D).
  assert (E : Odiv (Omul (r_qe r) (r_qe r)) (Omul (r_hbar r) (r_c r)) =
    Fin (pc_qe pc ^ 2 / (pc_hbar pc * pc_c pc) * (us_mass s * us_length s ^ 3 / us_time s ^ 2))).
  { unfold r, RuntimePC_units; cbn [r_qe r_hbar r_c]. er. f_equal. field; repeat split; nz. }
  split; [exact E|]. rewrite E.
  set (q := pc_qe pc ^ 2 / (pc_hbar pc * pc_c pc)).
  assert (Hq0 : 0 < q) by (unfold q; pos).
  split; intros H.
  - apply fin_inj in H.
    assert (H1 : us_mass s * us_length s ^ 3 / us_time s ^ 2 = 1)
      by (apply (Rmult_eq_reg_l q); [lra|nz]).
    apply (f_equal (fun z => z * us_time s ^ 2)) in H1.
    replace (us_mass s * us_length s ^ 3 / us_time s ^ 2 * us_time s ^ 2)
      with (us_mass s * us_length s ^ 3) in H1 by (field; nz). lra.
  - f_equal. rewrite H. field. nz.
Qed.

(** An admissible system breaking each of the four, with the library's constants. *)
Lemma C24_example :
  let s := {| us_time := 3; us_mass := 1000; us_length := 100; us_temp := 11604 |} in
  positive_system s /\ us_temp s <> 1 /\ us_mass s <> 1 /\
  us_time s ^ 6 <> us_length s ^ 3 * us_mass s ^ 3 /\
  us_mass s * us_length s ^ 3 <> us_time s ^ 2 /\
  0 < pc_r_gas cgsR /\ 0 < pc_g_newt cgsR /\ 0 < pc_Fc cgsR /\ 0 < pc_qe cgsR.
Proof.
  cbn [us_time us_mass us_length us_temp]. pose proof cgs_pos as H. unfold positive_consts in H.
  unfold positive_system; cbn [us_time us_mass us_length us_temp].
  repeat split; try lra; try apply H.
Qed.
