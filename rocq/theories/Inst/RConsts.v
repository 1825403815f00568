(** The library's constants as real numbers.

    [R_ops] is a plain real instance of [Ops], used only to name the real values
    of the compile-time constants ([PhysicalConstantsCGS (T := R)] etc.); the
    lemmas below show that the exact instance computes exactly these. *)
From Coq Require Import Reals ZArith Lra.
From Verif Require Import Base.Ops Inst.ER Inst.ERTac Model.Constants Spec.Opacities.
Open Scope R_scope.

#[global] Instance R_ops : Ops R := {
  Oadd := Rplus; Osub := Rminus; Omul := Rmult; Odiv := Rdiv;
  Oopp := Ropp; Oabs := Rabs;
  Oexp := exp; Oexpm1 := fun x => exp x - 1; Olog10 := fun x => ln x / ln 10; Olog := ln;
  Olog10f := fun x => ln x / ln 10; Osqrt := sqrt; Ocos := cos; Opow := Rpower;
  Oltb := Rltb; Oleb := Rleb; Oeqb := Reqb;
  Oisnan := fun _ => false; Oisinf := fun _ => false;
  Otrunc := fun r => er_trunc (Fin r);
  OofZ := IZR;
  Odec := fun m e => IZR m * powerRZ 10 e;
  Opi := PI; Oinf := 0;
  Onum_min := R_num_min; Onum_eps := R_num_eps;
}.

Definition b_map {A B} (f : A -> B) (b : BaseConsts A) : BaseConsts B := {|
  b_avogadro := f (b_avogadro b); b_fine_structure := f (b_fine_structure b);
  b_planck := f (b_planck b); b_boltzmann := f (b_boltzmann b);
  b_elementary_charge := f (b_elementary_charge b);
  b_speed_of_light := f (b_speed_of_light b);
  b_gravitational_constant := f (b_gravitational_constant b);
  b_electron_mass := f (b_electron_mass b); b_proton_mass := f (b_proton_mass b);
  b_neutron_mass := f (b_neutron_mass b);
  b_atomic_mass_unit := f (b_atomic_mass_unit b);
  b_fermi_coupling_constant := f (b_fermi_coupling_constant b) |}.
Definition u_map {A B} (f : A -> B) (u : UnitConv A) : UnitConv B := {|
  u_length := f (u_length u); u_mass := f (u_mass u); u_time := f (u_time u);
  u_temperature := f (u_temperature u); u_charge := f (u_charge u) |}.

Definition positive_base (b : BaseConsts R) : Prop :=
  0 < b_avogadro b /\ 0 < b_fine_structure b /\ 0 < b_planck b /\ 0 < b_boltzmann b /\
  0 < b_elementary_charge b /\ 0 < b_speed_of_light b /\ 0 < b_gravitational_constant b /\
  0 < b_electron_mass b /\ 0 < b_proton_mass b /\ 0 < b_neutron_mass b /\
  0 < b_atomic_mass_unit b /\ 0 < b_fermi_coupling_constant b.
Definition positive_units (u : UnitConv R) : Prop :=
  0 < u_length u /\ 0 < u_mass u /\ 0 < u_time u /\ 0 < u_temperature u /\ 0 < u_charge u.

Ltac rops := unfold R_ops, Oadd, Osub, Omul, Odiv, Oopp, Odec, Opi, OofZ in *.

Lemma pc_ext {A} (p q : PhysConst A) :
  pc_na p = pc_na q ->
  pc_alpha p = pc_alpha q ->
  pc_h p = pc_h q ->
  pc_hbar p = pc_hbar q ->
  pc_kb p = pc_kb q ->
  pc_r_gas p = pc_r_gas q ->
  pc_qe p = pc_qe q ->
  pc_c p = pc_c q ->
  pc_g_newt p = pc_g_newt q ->
  pc_me p = pc_me q ->
  pc_mp p = pc_mp q ->
  pc_mn p = pc_mn q ->
  pc_amu p = pc_amu q ->
  pc_sb p = pc_sb q ->
  pc_ar p = pc_ar q ->
  pc_eV p = pc_eV q ->
  pc_Fc p = pc_Fc q ->
  pc_nu_sigma0 p = pc_nu_sigma0 q ->
  pc_gA p = pc_gA q -> p = q.
Proof. destruct p, q; cbn; intros; subst; reflexivity. Qed.

Lemma PhysicalConstants_fin b u : positive_base b -> positive_units u ->
  PhysicalConstants (b_map Fin b) (u_map Fin u) = finpc (PhysicalConstants b u).
Proof.
  intros (?&?&?&?&?&?&?&?&?&?&?&?) (?&?&?&?&?).
  pose proof PI_RGT_0.
  apply pc_ext; unfold PhysicalConstants, finpc, pc_map, b_map, u_map;
  cbn [b_avogadro b_fine_structure b_planck b_boltzmann b_elementary_charge
    b_speed_of_light b_gravitational_constant b_electron_mass b_proton_mass b_neutron_mass
    b_atomic_mass_unit b_fermi_coupling_constant u_length u_mass u_time u_temperature
    u_charge pc_na pc_alpha pc_h pc_hbar pc_kb
        pc_r_gas pc_qe pc_c pc_g_newt pc_me pc_mp pc_mn pc_amu pc_sb pc_ar pc_eV pc_Fc
        pc_nu_sigma0 pc_gA];
  rewrite ?fin_ofZ, ?fin_pi, ?fin_dec;
  repeat first [rewrite fin_mul | rewrite fin_div by solve [nz]]; reflexivity.
Qed.

Lemma PhysicalConstants_pos b u : positive_base b -> positive_units u ->
  positive_consts (PhysicalConstants b u).
Proof.
  intros (?&?&?&?&?&?&?&?&?&?&?&?) (?&?&?&?&?).
  unfold PhysicalConstants, positive_consts.
  cbn [pc_na pc_alpha pc_h pc_hbar pc_kb
        pc_r_gas pc_qe pc_c pc_g_newt pc_me pc_mp pc_mn pc_amu pc_sb pc_ar pc_eV pc_Fc
        pc_nu_sigma0 pc_gA].
  rops. pose proof PI_RGT_0. repeat split; pos.
Qed.

Lemma BaseSI_pos : positive_base BaseSICODATA2010.
Proof. unfold positive_base, BaseSICODATA2010; cbn -[powerRZ IZR]. repeat split; pos. Qed.
Lemma BaseUnity_pos : positive_base BaseUnity.
Proof. unfold positive_base, BaseUnity; cbn -[powerRZ IZR]. repeat split; pos. Qed.
Lemma UnitDefault_pos : positive_units UnitConversionDefault.
Proof. unfold positive_units, UnitConversionDefault; cbn -[powerRZ IZR]. repeat split; pos. Qed.
Lemma UnitSIToCGS_pos : positive_units UnitConversionSIToCGS.
Proof. unfold positive_units, UnitConversionSIToCGS; cbn -[powerRZ IZR]. repeat split; pos. Qed.

(** the three constant sets of the library *)
Definition cgsR : PhysConst R := PhysicalConstantsCGS.
Definition siR : PhysConst R := PhysicalConstantsSI.
Definition unityR : PhysConst R := PhysicalConstantsUnity.

Lemma cgs_fin : PhysicalConstantsCGS = finpc cgsR.
Proof. apply (PhysicalConstants_fin _ _ BaseSI_pos UnitSIToCGS_pos). Qed.
Lemma si_fin : PhysicalConstantsSI = finpc siR.
Proof. apply (PhysicalConstants_fin _ _ BaseSI_pos UnitDefault_pos). Qed.
Lemma unity_fin : PhysicalConstantsUnity = finpc unityR.
Proof. apply (PhysicalConstants_fin _ _ BaseUnity_pos UnitDefault_pos). Qed.
Lemma cgs_pos : positive_consts cgsR.
Proof. apply (PhysicalConstants_pos _ _ BaseSI_pos UnitSIToCGS_pos). Qed.
Lemma si_pos : positive_consts siR.
Proof. apply (PhysicalConstants_pos _ _ BaseSI_pos UnitDefault_pos). Qed.
Lemma unity_pos : positive_consts unityR.
Proof. apply (PhysicalConstants_pos _ _ BaseUnity_pos UnitDefault_pos). Qed.

Lemma positive_consts_hkc pc : positive_consts pc -> positive_hkc pc.
Proof. unfold positive_consts, positive_hkc; tauto. Qed.
Lemma cgs_hkc : positive_hkc cgsR.
Proof. apply positive_consts_hkc, cgs_pos. Qed.
