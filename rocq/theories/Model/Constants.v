(** Model of singularity-opac/constants/constants.hpp. *)
From Coq Require Import ZArith Bool.
From Verif Require Import Base.Ops.
Open Scope ops_scope.

(** The template parameter BASE (constants.hpp 27-76). The members
    acceleration_from_gravity, vacuum_permeability and
    axial_vector_coupling_constant are never read by PhysicalConstants and are
    left out. *)
Record BaseConsts (T : Type) := {
  b_avogadro : T; b_fine_structure : T; b_planck : T; b_boltzmann : T;
  b_elementary_charge : T; b_speed_of_light : T; b_gravitational_constant : T;
  b_electron_mass : T; b_proton_mass : T; b_neutron_mass : T;
  b_atomic_mass_unit : T; b_fermi_coupling_constant : T;
}.
Arguments b_avogadro {T}. Arguments b_fine_structure {T}. Arguments b_planck {T}.
Arguments b_boltzmann {T}. Arguments b_elementary_charge {T}.
Arguments b_speed_of_light {T}. Arguments b_gravitational_constant {T}.
Arguments b_electron_mass {T}. Arguments b_proton_mass {T}.
Arguments b_neutron_mass {T}. Arguments b_atomic_mass_unit {T}.
Arguments b_fermi_coupling_constant {T}.

(** The template parameter CONVERSION (constants.hpp 78-94); [current] is never
    used and left out. *)
Record UnitConv (T : Type) := {
  u_length : T; u_mass : T; u_time : T; u_temperature : T; u_charge : T;
}.
Arguments u_length {T}. Arguments u_mass {T}. Arguments u_time {T}.
Arguments u_temperature {T}. Arguments u_charge {T}.

(** Public members of PhysicalConstants (constants.hpp 112-181). *)
Record PhysConst (T : Type) := {
  pc_na : T; pc_alpha : T; pc_h : T; pc_hbar : T; pc_kb : T; pc_r_gas : T;
  pc_qe : T; pc_c : T; pc_g_newt : T; pc_me : T; pc_mp : T; pc_mn : T;
  pc_amu : T; pc_sb : T; pc_ar : T; pc_eV : T; pc_Fc : T; pc_nu_sigma0 : T;
  pc_gA : T;
}.
Arguments pc_na {T}. Arguments pc_alpha {T}. Arguments pc_h {T}.
Arguments pc_hbar {T}. Arguments pc_kb {T}. Arguments pc_r_gas {T}.
Arguments pc_qe {T}. Arguments pc_c {T}. Arguments pc_g_newt {T}.
Arguments pc_me {T}. Arguments pc_mp {T}. Arguments pc_mn {T}.
Arguments pc_amu {T}. Arguments pc_sb {T}. Arguments pc_ar {T}.
Arguments pc_eV {T}. Arguments pc_Fc {T}. Arguments pc_nu_sigma0 {T}.
Arguments pc_gA {T}.

(** RuntimePhysicalConstants data members (constants.hpp 213-236). *)
Record RuntimePC (T : Type) := {
  r_time : T; r_mass : T; r_length : T; r_temp : T;
  r_na : T; r_alpha : T; r_h : T; r_hbar : T; r_kb : T; r_r_gas : T;
  r_qe : T; r_c : T; r_g_newt : T; r_me : T; r_mp : T; r_mn : T;
  r_amu : T; r_sb : T; r_ar : T; r_eV : T; r_Fc : T; r_nu_sigma0 : T;
  r_gA : T;
}.
Arguments r_time {T}. Arguments r_mass {T}. Arguments r_length {T}.
Arguments r_temp {T}. Arguments r_na {T}. Arguments r_alpha {T}.
Arguments r_h {T}. Arguments r_hbar {T}. Arguments r_kb {T}.
Arguments r_r_gas {T}. Arguments r_qe {T}. Arguments r_c {T}.
Arguments r_g_newt {T}. Arguments r_me {T}. Arguments r_mp {T}.
Arguments r_mn {T}. Arguments r_amu {T}. Arguments r_sb {T}.
Arguments r_ar {T}. Arguments r_eV {T}. Arguments r_Fc {T}.
Arguments r_nu_sigma0 {T}. Arguments r_gA {T}.

Section Constants.
  Context {T : Type} {O : Ops T}.

  (** BaseUnity, constants.hpp 27-43 *)
  Definition BaseUnity : BaseConsts T := {|
    b_avogadro := #1; b_fine_structure := #1; b_planck := #1; b_boltzmann := #1;
    b_elementary_charge := #1; b_speed_of_light := #1;
    b_gravitational_constant := #1; b_electron_mass := #1; b_proton_mass := #1;
    b_neutron_mass := #1; b_atomic_mass_unit := #1;
    b_fermi_coupling_constant := #1 |}.

  (** BaseSICODATA2010, constants.hpp 45-76 *)
  Definition BaseSICODATA2010 : BaseConsts T := {|
    b_avogadro := Odec 602214129 15;                     (* 6.02214129e23 *)
    b_fine_structure := Odec 72973525698 (-13);          (* 7.2973525698e-3 *)
    b_planck := Odec 662606957 (-42);                    (* 6.62606957e-34 *)
    b_boltzmann := Odec 1380648800 (-32);                (* 1.380648800e-23 *)
    b_elementary_charge := Odec 1602176565 (-28);        (* 1.602176565e-19 *)
    b_speed_of_light := Odec 299792458 0;                (* 2.99792458e8 *)
    b_gravitational_constant := Odec 667384 (-16);       (* 6.67384e-11 *)
    b_electron_mass := Odec 910938291 (-39);             (* 9.10938291e-31 *)
    b_proton_mass := Odec 1672621777 (-36);              (* 1.672621777e-27 *)
    b_neutron_mass := Odec 1674927351 (-36);             (* 1.674927351e-27 *)
    b_atomic_mass_unit := Odec 1660538921 (-36);         (* 1.660538921e-27 *)
    b_fermi_coupling_constant := Odec 4543791885043567014 (-18) |}.

  (** UnitConversionDefault, constants.hpp 78-85 *)
  Definition UnitConversionDefault : UnitConv T := {|
    u_length := #1; u_mass := #1; u_time := #1; u_temperature := #1;
    u_charge := #1 |}.

  (** UnitConversionSIToCGS, constants.hpp 87-94 *)
  Definition UnitConversionSIToCGS : UnitConv T := {|
    u_length := #100; u_mass := #1000; u_time := #1; u_temperature := #1;
    u_charge := #2997924580 |}.

  (** PhysicalConstants<BASE, CONVERSION>, constants.hpp 96-182 *)
  Definition PhysicalConstants (b : BaseConsts T) (u : UnitConv T) : PhysConst T :=
    let length := u_length u in
    let mass := u_mass u in
    let time := u_time u in
    let temperature := u_temperature u in
    let charge := u_charge u in
    let force := mass * length / (time * time) in                   (* 108 *)
    let energy := force * length in                                 (* 109 *)
    let na := b_avogadro b in                                       (* 113 *)
    let h := b_planck b * energy * time in                          (* 119 *)
    let hbar := h / (#2 * Opi) in                                   (* 123 *)
    let kb := b_boltzmann b * energy / temperature in               (* 126 *)
    let c := b_speed_of_light b * length / time in                  (* 136 *)
    let me := b_electron_mass b * mass in                           (* 144 *)
    let sb := #2 * Opi * Opi * Opi * Opi * Opi * kb * kb * kb * kb /
              (#15 * h * h * h * c * c) in                          (* 157 *)
    let Fc := b_fermi_coupling_constant b / (energy * energy) in    (* 170 *)
    {| pc_na := na;
       pc_alpha := b_fine_structure b;                              (* 116 *)
       pc_h := h; pc_hbar := hbar; pc_kb := kb;
       pc_r_gas := na * kb;                                         (* 130 *)
       pc_qe := b_elementary_charge b * charge;                     (* 133 *)
       pc_c := c;
       pc_g_newt := b_gravitational_constant b * length * length * length /
                    (mass * time * time);                           (* 139 *)
       pc_me := me;
       pc_mp := b_proton_mass b * mass;                             (* 147 *)
       pc_mn := b_neutron_mass b * mass;                            (* 150 *)
       pc_amu := b_atomic_mass_unit b * mass;                       (* 153 *)
       pc_sb := sb;
       pc_ar := #4 * sb / c;                                        (* 163 *)
       pc_eV := b_elementary_charge b * energy;                     (* 167 *)
       pc_Fc := Fc;
       pc_nu_sigma0 := #4 * length * length * Fc * Fc * c * c * hbar * hbar *
                       me * me * c * c * c * c / Opi;               (* 175 *)
       pc_gA := Odec (-123) (-2) |}.                                (* 180 *)

  (** Aliases, constants.hpp 275-280 *)
  Definition PhysicalConstantsUnity := PhysicalConstants BaseUnity UnitConversionDefault.
  Definition PhysicalConstantsSI := PhysicalConstants BaseSICODATA2010 UnitConversionDefault.
  Definition PhysicalConstantsCGS := PhysicalConstants BaseSICODATA2010 UnitConversionSIToCGS.

  (** RuntimePhysicalConstants(T pc), constants.hpp 185-191 *)
  Definition RuntimePC_of (pc : PhysConst T) : RuntimePC T := {|
    r_time := #1; r_mass := #1; r_length := #1; r_temp := #1;
    r_na := pc_na pc; r_alpha := pc_alpha pc; r_h := pc_h pc;
    r_hbar := pc_hbar pc; r_kb := pc_kb pc; r_r_gas := pc_r_gas pc;
    r_qe := pc_qe pc; r_c := pc_c pc; r_g_newt := pc_g_newt pc;
    r_me := pc_me pc; r_mp := pc_mp pc; r_mn := pc_mn pc; r_amu := pc_amu pc;
    r_sb := pc_sb pc; r_ar := pc_ar pc; r_eV := pc_eV pc; r_Fc := pc_Fc pc;
    r_nu_sigma0 := pc_nu_sigma0 pc; r_gA := pc_gA pc |}.

  (** RuntimePhysicalConstants(T pc, time, mass, length, temp),
      constants.hpp 193-210 *)
  Definition RuntimePC_units (pc : PhysConst T) (time mass length temp : T)
    : RuntimePC T := {|
    r_time := time; r_mass := mass; r_length := length; r_temp := temp;
    r_na := pc_na pc; r_alpha := pc_alpha pc;
    r_h := pc_h pc * time / mass * Opow length #(-2);
    r_hbar := pc_hbar pc * time / mass * Opow length #(-2);
    r_kb := pc_kb pc * Opow time #2 / mass * Opow length #(-2) * temp;
    r_r_gas := pc_r_gas pc * Opow time #2 / mass * Opow length #(-2);
    r_qe := pc_qe pc;
    r_c := pc_c pc * time / length;
    r_g_newt := pc_g_newt pc * Opow length #(-3) / mass * Opow time #2;
    r_me := pc_me pc / mass; r_mp := pc_mp pc / mass; r_mn := pc_mn pc / mass;
    r_amu := pc_amu pc / mass;
    r_sb := pc_sb pc * Opow time #3 / mass * Opow temp #4;
    r_ar := pc_ar pc * Opow time #2 * length / mass * Opow temp #4;
    r_eV := pc_eV pc * Opow time #2 / mass * Opow length #(-2);
    r_Fc := pc_Fc pc * Opow time #2 * length / mass;
    r_nu_sigma0 := pc_nu_sigma0 pc / Opow length #2;
    r_gA := pc_gA pc |}.

  (** eps_equal, constants.hpp 25 and 268-272 *)
  Definition eps_equal (a b : T) : bool :=
    let diff := Oabs (a - b) in
    let scale := Odec 5 (-1) * (Oabs a + Oabs b) in
    diff / (scale + Odec 1 (-100)) <=? #10 * Onum_min.

  (** operator==, constants.hpp 239-265 *)
  Definition RuntimePC_eqb (x y : RuntimePC T) : bool :=
    eps_equal (r_time x) (r_time y) && eps_equal (r_mass x) (r_mass y) &&
    eps_equal (r_length x) (r_length y) && eps_equal (r_temp x) (r_temp y) &&
    eps_equal (r_na x) (r_na y) && eps_equal (r_alpha x) (r_alpha y) &&
    eps_equal (r_h x) (r_h y) && eps_equal (r_hbar x) (r_hbar y) &&
    eps_equal (r_kb x) (r_kb y) && eps_equal (r_r_gas x) (r_r_gas y) &&
    eps_equal (r_qe x) (r_qe y) && eps_equal (r_c x) (r_c y) &&
    eps_equal (r_g_newt x) (r_g_newt y) && eps_equal (r_me x) (r_me y) &&
    eps_equal (r_mp x) (r_mp y) && eps_equal (r_mn x) (r_mn y) &&
    eps_equal (r_amu x) (r_amu y) && eps_equal (r_sb x) (r_sb y) &&
    eps_equal (r_ar x) (r_ar y) && eps_equal (r_eV x) (r_eV y) &&
    eps_equal (r_Fc x) (r_Fc y) && eps_equal (r_nu_sigma0 x) (r_nu_sigma0 y) &&
    eps_equal (r_gA x) (r_gA y).
End Constants.
