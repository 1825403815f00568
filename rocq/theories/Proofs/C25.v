(** C25. Compile-time constants agree between unit systems. *)
From Coq Require Import Reals ZArith Lra.
From Verif Require Import Base.Outcome Base.Ops Inst.ER Inst.ERTac Inst.RConsts Model.Constants
  Spec.Physics Spec.Units Spec.Opacities Proofs.UnitFacts.
Open Scope R_scope.

(** [converts u d x y]: y is the base-unit value x of a quantity of dimension d,
    converted with the factors of u. *)
Definition converts (u : UnitConv R) (d : Dim) (x y : ER) : Prop :=
  exists v, x = Fin v /\
    y = Fin (v * (powerRZ (u_length u) (dL d) * powerRZ (u_mass u) (dM d) *
                  powerRZ (u_time u) (dT d) * powerRZ (u_temperature u) (dK d))).

Ltac cdims := unfold d_none; cbn [dL dM dT dK]; unfold powerRZ; repeat pnat.

Lemma default_is_ones b : positive_base b ->
  PhysicalConstants (b_map Fin b) UnitConversionDefault =
  finpc (PhysicalConstants b UnitConversionDefault).
Proof. intros Hb. apply (PhysicalConstants_fin b UnitConversionDefault Hb UnitDefault_pos). Qed.

(** For every set of base values and every conversion: each constant converts by its
    physical dimension, the charge by the charge factor, pure numbers not at all. *)
Lemma C25_conversions_proof :
  forall b u, positive_base b -> positive_units u ->
  let p0 := PhysicalConstants (b_map Fin b) UnitConversionDefault in
  let p := PhysicalConstants (b_map Fin b) (u_map Fin u) in
  converts u d_none (pc_na p0) (pc_na p) /\
  converts u d_none (pc_alpha p0) (pc_alpha p) /\
  converts u (dim 2 1 (-1) 0) (pc_h p0) (pc_h p) /\
  converts u (dim 2 1 (-1) 0) (pc_hbar p0) (pc_hbar p) /\
  converts u (dim 2 1 (-2) (-1)) (pc_kb p0) (pc_kb p) /\
  converts u (dim 2 1 (-2) (-1)) (pc_r_gas p0) (pc_r_gas p) /\
  converts u (dim 1 0 (-1) 0) (pc_c p0) (pc_c p) /\
  converts u (dim 3 (-1) (-2) 0) (pc_g_newt p0) (pc_g_newt p) /\
  converts u (dim 0 1 0 0) (pc_me p0) (pc_me p) /\
  converts u (dim 0 1 0 0) (pc_mp p0) (pc_mp p) /\
  converts u (dim 0 1 0 0) (pc_mn p0) (pc_mn p) /\
  converts u (dim 0 1 0 0) (pc_amu p0) (pc_amu p) /\
  converts u (dim 0 1 (-3) (-4)) (pc_sb p0) (pc_sb p) /\
  converts u (dim (-1) 1 (-2) (-4)) (pc_ar p0) (pc_ar p) /\
  converts u (dim 2 1 (-2) 0) (pc_eV p0) (pc_eV p) /\
  converts u (dim (-4) (-2) 4 0) (pc_Fc p0) (pc_Fc p) /\
  (exists q, pc_qe p0 = Fin q /\ pc_qe p = Fin (q * u_charge u)) /\
  pc_gA p = pc_gA p0.
Proof.
  intros b u Hb Hu p0 p. pose proof Hb as (?&?&?&?&?&?&?&?&?&?&?&?). pose proof Hu as (?&?&?&?&?).
  unfold p0, p. rewrite (default_is_ones b Hb), (PhysicalConstants_fin b u Hb Hu).
  unfold finpc, pc_map, converts, PhysicalConstants, UnitConversionDefault.
  cbn [u_length u_mass u_time u_temperature u_charge pc_na pc_alpha pc_h pc_hbar pc_kb
        pc_r_gas pc_qe pc_c pc_g_newt pc_me pc_mp pc_mn pc_amu pc_sb pc_ar pc_eV pc_Fc
        pc_nu_sigma0 pc_gA].
  rops. pose proof PI_RGT_0.
  repeat match goal with |- _ /\ _ => split end; try reflexivity;
    eexists; (split; [reflexivity|]); f_equal; cdims; field; repeat split; nz.
Qed.

(** The derived constants satisfy their defining relations in every unit system. *)
Lemma C25_relations_proof :
  forall b u, positive_base b -> positive_units u ->
  let p := PhysicalConstants (b_map Fin b) (u_map Fin u) in
  exists h hbar k c sb ar na,
    pc_h p = Fin h /\ pc_hbar p = Fin hbar /\ pc_kb p = Fin k /\ pc_c p = Fin c /\
    pc_sb p = Fin sb /\ pc_ar p = Fin ar /\ pc_na p = Fin na /\
    h = 2 * PI * hbar /\ sb = sigma_SB h k c /\ ar = a_rad h k c /\ sb = ar * c / 4 /\
    pc_r_gas p = Fin (na * k).
Proof.
  intros b u Hb Hu p. pose proof Hb as (?&?&?&?&?&?&?&?&?&?&?&?). pose proof Hu as (?&?&?&?&?).
  unfold p. rewrite (PhysicalConstants_fin b u Hb Hu).
  unfold finpc, pc_map, PhysicalConstants.
  cbn [pc_na pc_alpha pc_h pc_hbar pc_kb
        pc_r_gas pc_qe pc_c pc_g_newt pc_me pc_mp pc_mn pc_amu pc_sb pc_ar pc_eV pc_Fc
        pc_nu_sigma0 pc_gA].
  rops. pose proof PI_RGT_0.
  do 7 eexists. do 7 (split; [reflexivity|]). unfold a_rad, sigma_SB.
  repeat split; try reflexivity; field; repeat split; nz.
Qed.

(** The weak cross section is an area, but carries two extra factors of length: it
    converts with L^4, hence correctly only if the length factor is 1. *)
Lemma C25_weak_cross_section_refuted_proof :
  forall b u, positive_base b -> positive_units u ->
  let p0 := PhysicalConstants (b_map Fin b) UnitConversionDefault in
  let p := PhysicalConstants (b_map Fin b) (u_map Fin u) in
  converts u (dim 4 0 0 0) (pc_nu_sigma0 p0) (pc_nu_sigma0 p) /\
  (converts u (dim 2 0 0 0) (pc_nu_sigma0 p0) (pc_nu_sigma0 p) <-> u_length u = 1).
Proof.
  intros b u Hb Hu p0 p. pose proof Hb as (?&?&?&?&?&?&?&?&?&?&?&?). pose proof Hu as (?&?&?&?&?).
  assert (E : converts u (dim 4 0 0 0) (pc_nu_sigma0 p0) (pc_nu_sigma0 p)).
  { unfold p0, p. rewrite (default_is_ones b Hb), (PhysicalConstants_fin b u Hb Hu).
    unfold finpc, pc_map, converts, PhysicalConstants, UnitConversionDefault.
    cbn [u_length u_mass u_time u_temperature u_charge pc_nu_sigma0].
    rops. pose proof PI_RGT_0.
    eexists; (split; [reflexivity|]); f_equal; cdims; field; repeat split; nz. }
  assert (P : exists v, pc_nu_sigma0 p0 = Fin v /\ 0 < v).
  { unfold p0. rewrite (default_is_ones b Hb).
    pose proof (PhysicalConstants_pos b UnitConversionDefault Hb UnitDefault_pos) as Hp.
    eexists; split; [reflexivity|]. apply Hp. }
  split; [exact E|]. destruct E as [v [E1 E2]]. destruct P as [v' [E1' Hv]].
  rewrite E1 in E1'. injection E1' as <-. split.
  - intros [v' [E3 E4]]. rewrite E1 in E3. injection E3 as <-. rewrite E2 in E4. injection E4 as E4.
    revert E4. cdims. intros E4.
    assert (u_length u ^ 2 = 1); [|nra].
    apply (Rmult_eq_reg_l (v * u_length u ^ 2)); [|nz].
    etransitivity; [|etransitivity; [exact E4|]]; field.
  - intros L. exists v. split; [exact E1|]. rewrite E2. f_equal. cdims. rewrite L. ring.
Qed.

(** The base value of the Fermi constant is documented as being in erg^-2, but it
    sits among SI values and is divided by the square of the energy factor: the CGS
    constant is 10^-14 of the documented one, and with the extra length factors the
    CGS weak cross section is 10^-24 of the one computed from the documented value
    (about 1e-68 instead of 1e-44 cm^2). *)
Lemma C25_fermi_constant_refuted_proof :
  let F := 4543791885043567014 * powerRZ 10 (-18) in (* erg^-2, constants.hpp 72-73 *)
  exists hbar c me,
    pc_hbar (T := ER) PhysicalConstantsCGS = Fin hbar /\ pc_c (T := ER) PhysicalConstantsCGS = Fin c /\
    pc_me (T := ER) PhysicalConstantsCGS = Fin me /\
    let sigma0 := 4 * F ^ 2 * (hbar * c) ^ 2 * (me * c ^ 2) ^ 2 / PI in
    pc_Fc (T := ER) PhysicalConstantsCGS = Fin (F * powerRZ 10 (-14)) /\
    pc_nu_sigma0 (T := ER) PhysicalConstantsCGS = Fin (sigma0 * powerRZ 10 (-24)) /\
    powerRZ 10 (-45) < sigma0.
Proof.
  intros F. unfold PhysicalConstantsCGS, PhysicalConstants, UnitConversionSIToCGS, BaseSICODATA2010.
  cbn [u_length u_mass u_time u_temperature u_charge b_avogadro b_fine_structure b_planck b_boltzmann b_elementary_charge
    b_speed_of_light b_gravitational_constant b_electron_mass b_proton_mass b_neutron_mass
    b_atomic_mass_unit b_fermi_coupling_constant pc_hbar pc_c pc_me pc_Fc pc_nu_sigma0].
  pose proof PI_RGT_0.
  do 3 eexists. split; [er; reflexivity|]. split; [er; reflexivity|]. split; [er; reflexivity|].
  split; [|split].
  - er. f_equal. unfold F, powerRZ; repeat pnat. field.
  - er. f_equal. unfold F, powerRZ; repeat pnat. field. nz.
  - match goal with |- _ < ?z => assert (E : z = F ^ 2 * (662606957 * powerRZ 10 (-35) * (299792458 * 100)) ^ 2 *
       (910938291 * powerRZ 10 (-36) * (299792458 * 100) ^ 2) ^ 2 / PI ^ 3) end.
    { unfold F, powerRZ; repeat pnat. field. nz. }
    rewrite E. clear E.
    assert (P3 : PI ^ 3 <= 64).
    { pose proof PI_4. replace 64 with (4 ^ 3) by ring. apply pow_incr. lra. }
    assert (P0 : 0 < PI ^ 3) by pos.
    apply Rlt_le_trans with (F ^ 2 * (662606957 * powerRZ 10 (-35) * (299792458 * 100)) ^ 2 *
       (910938291 * powerRZ 10 (-36) * (299792458 * 100) ^ 2) ^ 2 / 64).
    + unfold F, powerRZ; repeat pnat. lra.
    + apply Rmult_le_compat_l; [|apply Rinv_le_contravar; assumption].
      apply Rlt_le. unfold F. pos.
Qed.

Lemma C25_example :
  positive_base BaseSICODATA2010 /\ positive_units UnitConversionSIToCGS /\
  u_length (T := R) UnitConversionSIToCGS <> 1.
Proof. split; [exact BaseSI_pos|]. split; [exact UnitSIToCGS_pos|]. cbn. lra. Qed.
