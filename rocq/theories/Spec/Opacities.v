(** The library's opacity objects, by class, for a given set of constants. *)
From Coq Require Import Reals ZArith.
From Verif Require Import Base.Ops Inst.ER Inst.ERTac Model.Constants Model.RadTypes Model.PhotonApi
  Model.GrayPhotons Model.PowerLawPhotons Model.EPBremsPhotons Model.NeutrinoApi
  Model.OpacNeutrinos.

(** "a photon opacity": one of the three absorption models *)
Definition photon_opacity {T} {O : Ops T} (pc : PhysConst T) (o : PhotonOpac T) : Prop :=
  (exists kappa, o = GrayOpacity pc kappa) \/
  (exists p, o = PowerLawOpacity pc p) \/
  o = EPBremsstrahlungOpacity pc.

(** "a neutrino opacity": one of the three closed-form models, for a given number
    of species in the Fermi-Dirac distribution *)
Definition neutrino_opacity {T} {O : Ops T} (ns : Z) (pc : PhysConst T) (o : NuOpac T)
  : Prop :=
  (exists kappa, o = NuGrayOpacity ns pc kappa) \/
  o = BRTOpacity ns pc \/
  (exists C numin numax, o = TophatEmissivity ns pc C numin numax).

(** Real-valued physical constants used by the thermal functions. *)
Definition positive_hkc (pc : PhysConst R) : Prop :=
  (0 < pc_h pc /\ 0 < pc_kb pc /\ 0 < pc_c pc)%R.

(** Every constant positive except the axial coupling, which is nonzero in the
    library but negative. *)
Definition positive_consts (pc : PhysConst R) : Prop :=
  (0 < pc_na pc /\ 0 < pc_alpha pc /\ 0 < pc_h pc /\ 0 < pc_hbar pc /\ 0 < pc_kb pc /\
   0 < pc_r_gas pc /\ 0 < pc_qe pc /\ 0 < pc_c pc /\ 0 < pc_g_newt pc /\ 0 < pc_me pc /\
   0 < pc_mp pc /\ 0 < pc_mn pc /\ 0 < pc_amu pc /\ 0 < pc_sb pc /\ 0 < pc_ar pc /\
   0 < pc_eV pc /\ 0 < pc_Fc pc /\ 0 < pc_nu_sigma0 pc)%R.

(** Electron-fraction weight with which a species is emitted by the tophat model:
    2 Ye for electron neutrinos, 1 - 2 Ye for anti-neutrinos, 0 otherwise. *)
Definition Ye_weight (t : RadiationType) (Ye : R) : R :=
  (match t with NU_ELECTRON => 2 * Ye | NU_ELECTRON_ANTI => 1 - 2 * Ye | _ => 0 end)%R.
