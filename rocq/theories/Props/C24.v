(** C24. Dimensions of the runtime constants. *)
From Coq Require Import Reals ZArith Lra.
From Verif Require Import Proofs.C24 Base.Outcome Base.Ops Inst.ER Inst.ERTac Inst.RConsts Model.Constants
  Spec.Units Spec.Opacities Proofs.UnitFacts.
Open Scope R_scope.

(** Every constant whose conversion is right, in every unit system: Avogadro, the
    fine structure constant and the axial coupling are pure numbers; h and hbar are
    actions; k is energy per temperature; c a velocity; four masses; sigma, a_r,
    the electronvolt and the weak cross section. *)
Theorem C24_dimensions :
  forall pc s, positive_system s ->
  let r := RuntimePC_units (finpc pc) (Fin (us_time s)) (Fin (us_mass s)) (Fin (us_length s))
                           (Fin (us_temp s)) in
  has_dimension s d_none (r_na r) (pc_na pc) /\
  has_dimension s d_none (r_alpha r) (pc_alpha pc) /\
  has_dimension s (dim 2 1 (-1) 0) (r_h r) (pc_h pc) /\
  has_dimension s (dim 2 1 (-1) 0) (r_hbar r) (pc_hbar pc) /\
  has_dimension s (dim 2 1 (-2) (-1)) (r_kb r) (pc_kb pc) /\
  has_dimension s (dim 1 0 (-1) 0) (r_c r) (pc_c pc) /\
  has_dimension s (dim 0 1 0 0) (r_me r) (pc_me pc) /\
  has_dimension s (dim 0 1 0 0) (r_mp r) (pc_mp pc) /\
  has_dimension s (dim 0 1 0 0) (r_mn r) (pc_mn pc) /\
  has_dimension s (dim 0 1 0 0) (r_amu r) (pc_amu pc) /\
  has_dimension s (dim 0 1 (-3) (-4)) (r_sb r) (pc_sb pc) /\
  has_dimension s (dim (-1) 1 (-2) (-4)) (r_ar r) (pc_ar pc) /\
  has_dimension s (dim 2 1 (-2) 0) (r_eV r) (pc_eV pc) /\
  has_dimension s (dim 2 0 0 0) (r_nu_sigma0 r) (pc_nu_sigma0 pc) /\
  has_dimension s d_none (r_gA r) (pc_gA pc) /\
  r_time r = Fin (us_time s) /\ r_mass r = Fin (us_mass s) /\
  r_length r = Fin (us_length s) /\ r_temp r = Fin (us_temp s).
Proof. exact C24_dimensions_proof. Qed.
Print Assumptions C24_dimensions.

(** The gas constant is an energy per temperature like k (R = N_A k), but its
    conversion leaves the temperature unit out: it is right, and equal to N_A k of
    the same system, only if the temperature unit is 1. *)
Theorem C24_gas_constant_refuted :
  forall pc s, positive_system s -> 0 < pc_r_gas pc ->
  let r := RuntimePC_units (finpc pc) (Fin (us_time s)) (Fin (us_mass s)) (Fin (us_length s))
                           (Fin (us_temp s)) in
  (has_dimension s (dim 2 1 (-2) (-1)) (r_r_gas r) (pc_r_gas pc) <-> us_temp s = 1) /\
  (pc_r_gas pc = pc_na pc * pc_kb pc ->
   (r_r_gas r = Omul (r_na r) (r_kb r) <-> us_temp s = 1)).
Proof. exact C24_gas_constant_refuted_proof. Qed.
Print Assumptions C24_gas_constant_refuted.

(** Newton's constant has dimension L^3 M^-1 T^-2; the code divides by the mass unit
    instead of multiplying, so it is right only if the mass unit is 1. *)
Theorem C24_newton_refuted :
  forall pc s, positive_system s -> 0 < pc_g_newt pc ->
  let r := RuntimePC_units (finpc pc) (Fin (us_time s)) (Fin (us_mass s)) (Fin (us_length s))
                           (Fin (us_temp s)) in
  has_dimension s (dim 3 (-1) (-2) 0) (r_g_newt r) (pc_g_newt pc) <-> us_mass s = 1.
Proof. exact C24_newton_refuted_proof. Qed.
Print Assumptions C24_newton_refuted.

(** The Fermi constant of the library is an inverse energy squared (its compile-time
    value is divided by energy^2, C25): dimension M^-2 L^-4 T^4. The runtime
    conversion uses M^1 L^-1 T^-2 instead. *)
Theorem C24_fermi_refuted :
  forall pc s, positive_system s -> 0 < pc_Fc pc ->
  let r := RuntimePC_units (finpc pc) (Fin (us_time s)) (Fin (us_mass s)) (Fin (us_length s))
                           (Fin (us_temp s)) in
  has_dimension s (dim (-1) 1 (-2) 0) (r_Fc r) (pc_Fc pc) /\
  (has_dimension s (dim (-4) (-2) 4 0) (r_Fc r) (pc_Fc pc) <->
   us_time s ^ 6 = us_length s ^ 3 * us_mass s ^ 3).
Proof. exact C24_fermi_refuted_proof. Qed.
Print Assumptions C24_fermi_refuted.

(** The charge is not converted at all, although in Gaussian units its square is an
    energy times a length, so that e^2/(hbar c) is a pure number (the fine structure
    constant). In code units that number is off by M L^3 / T^2; it is right only if
    M L^3 = T^2. *)
Theorem C24_charge_refuted :
  forall pc s, positive_system s -> 0 < pc_qe pc -> 0 < pc_hbar pc -> 0 < pc_c pc ->
  let r := RuntimePC_units (finpc pc) (Fin (us_time s)) (Fin (us_mass s)) (Fin (us_length s))
                           (Fin (us_temp s)) in
  Odiv (Omul (r_qe r) (r_qe r)) (Omul (r_hbar r) (r_c r)) =
    Fin (pc_qe pc ^ 2 / (pc_hbar pc * pc_c pc) * (us_mass s * us_length s ^ 3 / us_time s ^ 2)) /\
  (Odiv (Omul (r_qe r) (r_qe r)) (Omul (r_hbar r) (r_c r)) =
     Fin (pc_qe pc ^ 2 / (pc_hbar pc * pc_c pc)) <->
   us_mass s * us_length s ^ 3 = us_time s ^ 2).
Proof. exact C24_charge_refuted_proof. Qed.
Print Assumptions C24_charge_refuted.

(** An admissible system breaking each of the four, with the library's constants. *)
Example C24_example_holds :
  let s := {| us_time := 3; us_mass := 1000; us_length := 100; us_temp := 11604 |} in
  positive_system s /\ us_temp s <> 1 /\ us_mass s <> 1 /\
  us_time s ^ 6 <> us_length s ^ 3 * us_mass s ^ 3 /\
  us_mass s * us_length s ^ 3 <> us_time s ^ 2 /\
  0 < pc_r_gas cgsR /\ 0 < pc_g_newt cgsR /\ 0 < pc_Fc cgsR /\ 0 < pc_qe cgsR.
Proof. exact C24_example. Qed.
