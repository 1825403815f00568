(** C25. Compile-time constants agree between unit systems. *)
From Coq Require Import Reals ZArith Lra.
From Verif Require Import Proofs.C25 Base.Outcome Base.Ops Inst.ER Inst.ERTac Inst.RConsts Model.Constants
  Spec.Physics Spec.Units Spec.Opacities Proofs.UnitFacts.
Open Scope R_scope.

(** For every set of base values and every conversion: each constant converts by its
    physical dimension, the charge by the charge factor, pure numbers not at all. *)
Theorem C25_conversions :
  forall b u, positive_base b -> positive_units u ->
  let p0 := PhysicalConstants (b_map Fin b) UnitConversionDefault in
  let p := PhysicalConstants (b_map Fin b) (u_map Fin u) in
  converts u d_none (pc_na p0) (pc_na p) /\
  converts u d_none (pc_alpha p0) (pc_alpha p) /\
  converts u (dim 2 1 (-1) 0) (pc_h p0) (pc_h p) /\
  converts u (dim 2 1 (-1) 0) (pc_hbar p0) (pc_hbar p) /\
  converts u (dim 2 1 (-2) (-1)) (pc_kb p0) (pc_kb p) /\
  converts u (dim 2 1 (-2) (-1)) (pc_r_gas p0) (pc_r_gas p) /\
  converts u (dim 1 0 (-1) 0) (pc_c p0) (pc_c p) /\
  converts u (dim 3 (-1) (-2) 0) (pc_g_newt p0) (pc_g_newt p) /\
  converts u (dim 0 1 0 0) (pc_me p0) (pc_me p) /\
  converts u (dim 0 1 0 0) (pc_mp p0) (pc_mp p) /\
  converts u (dim 0 1 0 0) (pc_mn p0) (pc_mn p) /\
  converts u (dim 0 1 0 0) (pc_amu p0) (pc_amu p) /\
  converts u (dim 0 1 (-3) (-4)) (pc_sb p0) (pc_sb p) /\
  converts u (dim (-1) 1 (-2) (-4)) (pc_ar p0) (pc_ar p) /\
  converts u (dim 2 1 (-2) 0) (pc_eV p0) (pc_eV p) /\
  converts u (dim (-4) (-2) 4 0) (pc_Fc p0) (pc_Fc p) /\
  (exists q, pc_qe p0 = Fin q /\ pc_qe p = Fin (q * u_charge u)) /\
  pc_gA p = pc_gA p0.
Proof. exact C25_conversions_proof. Qed.
Print Assumptions C25_conversions.

(** The derived constants satisfy their defining relations in every unit system. *)
Theorem C25_relations :
  forall b u, positive_base b -> positive_units u ->
  let p := PhysicalConstants (b_map Fin b) (u_map Fin u) in
  exists h hbar k c sb ar na,
    pc_h p = Fin h /\ pc_hbar p = Fin hbar /\ pc_kb p = Fin k /\ pc_c p = Fin c /\
    pc_sb p = Fin sb /\ pc_ar p = Fin ar /\ pc_na p = Fin na /\
    h = 2 * PI * hbar /\ sb = sigma_SB h k c /\ ar = a_rad h k c /\ sb = ar * c / 4 /\
    pc_r_gas p = Fin (na * k).
Proof. exact C25_relations_proof. Qed.
Print Assumptions C25_relations.

(** The weak cross section is an area, but carries two extra factors of length: it
    converts with L^4, hence correctly only if the length factor is 1. *)
Theorem C25_weak_cross_section_refuted :
  forall b u, positive_base b -> positive_units u ->
  let p0 := PhysicalConstants (b_map Fin b) UnitConversionDefault in
  let p := PhysicalConstants (b_map Fin b) (u_map Fin u) in
  converts u (dim 4 0 0 0) (pc_nu_sigma0 p0) (pc_nu_sigma0 p) /\
  (converts u (dim 2 0 0 0) (pc_nu_sigma0 p0) (pc_nu_sigma0 p) <-> u_length u = 1).
Proof. exact C25_weak_cross_section_refuted_proof. Qed.
Print Assumptions C25_weak_cross_section_refuted.

(** The base value of the Fermi constant is documented as being in erg^-2, but it
    sits among SI values and is divided by the square of the energy factor: the CGS
    constant is 10^-14 of the documented one, and with the extra length factors the
    CGS weak cross section is 10^-24 of the one computed from the documented value
    (about 1e-68 instead of 1e-44 cm^2). *)
Theorem C25_fermi_constant_refuted :
  let F := 4543791885043567014 * powerRZ 10 (-18) in (* erg^-2, constants.hpp 72-73 *)
  exists hbar c me,
    pc_hbar (T := ER) PhysicalConstantsCGS = Fin hbar /\ pc_c (T := ER) PhysicalConstantsCGS = Fin c /\
    pc_me (T := ER) PhysicalConstantsCGS = Fin me /\
    let sigma0 := 4 * F ^ 2 * (hbar * c) ^ 2 * (me * c ^ 2) ^ 2 / PI in
    pc_Fc (T := ER) PhysicalConstantsCGS = Fin (F * powerRZ 10 (-14)) /\
    pc_nu_sigma0 (T := ER) PhysicalConstantsCGS = Fin (sigma0 * powerRZ 10 (-24)) /\
    powerRZ 10 (-45) < sigma0.
Proof. exact C25_fermi_constant_refuted_proof. Qed.
Print Assumptions C25_fermi_constant_refuted.

Example C25_example_holds :
  positive_base BaseSICODATA2010 /\ positive_units UnitConversionSIToCGS /\
  u_length (T := R) UnitConversionSIToCGS <> 1.
Proof. exact C25_example. Qed.
