(** C60. More matter, or hotter matter, never absorbs or emits less. *)
From Coquelicot Require Import Coquelicot.
From Coq Require Import Reals ZArith Lra Lia Bool.
From Flocq Require Import Core IEEE754.BinarySingleNaN.
From Verif Require Import Proofs.C60 Base.Outcome Base.Ops Inst.ER Inst.ERTac Inst.RConsts Inst.B64 Model.Constants Model.RadTypes
  Model.PhotonApi Model.GrayPhotons Model.PowerLawPhotons Model.EPBremsPhotons Model.ThermalPhotons
  Model.NonCGSPhotons Model.NeutrinoApi Model.OpacNeutrinos Model.NonCGSNeutrinos
  Spec.Opacities Spec.Nonneg Spec.Growth Proofs.SignLaws Proofs.MonoLaws Proofs.CrLibm Proofs.ModelFacts Proofs.C49.
Open Scope R_scope.

(** Photons, exact arithmetic. Gray: at no smaller density and no smaller temperature, no
    absorption coefficient, emissivity or thermal function is smaller. The power law: the
    same for growing exponents without stimulated emission, and otherwise at a fixed
    temperature. Bremsstrahlung: at a fixed temperature. The temperature recovered from an
    energy density grows with it. All of it also in other units. *)
Theorem C60_photons :
  forall pc : PhysConst R, positive_consts pc ->
  let ok := fun D warm o =>
    photon_up pos_real D warm o /\ photon_thermal_up pos_real o /\
    forall time mass len tmp, pos_real time -> pos_real mass -> pos_real len -> pos_real tmp ->
    let o' := NonCGSUnits (finpc pc) o (mk_units time mass len tmp) in
    photon_up pos_real D warm o' /\ photon_thermal_up pos_real o' in
  (forall kappa, nonneg_real kappa -> ok nonneg_real no_less (GrayOpacity (finpc pc) kappa)) /\
  (forall p, powerlaw_domain (PP := pos_real) (NN := nonneg_real) (RR := a_real) p ->
     (nonneg_real (pl_rho_exp p) -> ok pos_real eq (PowerLawOpacity (finpc pc) p)) /\
     (growing nonneg_real p -> ok pos_real no_less (PowerLawOpacity (finpc pc) p))) /\
  ok nonneg_real eq (EPBremsstrahlungOpacity (finpc pc)).
Proof. exact C60_photons_proof. Qed.
Print Assumptions C60_photons.

(** The same in binary64 with the library's constants, for all arguments that are not
    negative, provided the mathematical library is monotone: rounding, overflow to
    infinity and underflow to zero never turn an increase into a decrease. *)
Theorem C60_photons_binary64 :
  forall L : Libm, sane_libm L -> monotone_libm L ->
  let _ := B64_ops L in
  let pc := PhysicalConstantsCGS in
  let nn := not_negative in
  let ok := fun warm o =>
    photon_up nn nn warm o /\ photon_thermal_up nn o /\
    forall time mass len tmp, nn time -> nn mass -> nn len -> nn tmp ->
    let o' := NonCGSUnits pc o (mk_units time mass len tmp) in
    photon_up nn nn warm o' /\ photon_thermal_up nn o' in
  (forall kappa, nn kappa -> ok no_less (GrayOpacity pc kappa)) /\
  (forall p, powerlaw_domain (PP := nn) (NN := nn) (RR := fun _ => True) p ->
     (nn (pl_rho_exp p) -> ok eq (PowerLawOpacity pc p)) /\
     (growing nn p -> ok no_less (PowerLawOpacity pc p))) /\
  ok eq (EPBremsstrahlungOpacity pc).
Proof. exact C60_photons_binary64_proof. Qed.
Print Assumptions C60_photons_binary64.

(** Neutrinos, exact arithmetic, every species: gray and the Burrows, Reddy and Thompson
    absorption grow with density and temperature. *)
Theorem C60_neutrinos :
  forall (pc : PhysConst R) (ns : positive), positive_consts pc ->
  let ok := fun o =>
    neutrino_up pos_real nonneg_real no_less o /\ neutrino_thermal_up pos_real o /\
    forall time mass len tmp, pos_real time -> pos_real mass -> pos_real len -> pos_real tmp ->
    let o' := NuNonCGSUnits (finpc pc) o (mk_units time mass len tmp) in
    neutrino_up pos_real nonneg_real no_less o' /\ neutrino_thermal_up pos_real o' in
  (forall kappa, nonneg_real kappa -> ok (NuGrayOpacity (Zpos ns) (finpc pc) kappa)) /\
  ok (BRTOpacity (Zpos ns) (finpc pc)).
Proof. exact C60_neutrinos_proof. Qed.
Print Assumptions C60_neutrinos.

(** The same in binary64 *)
Theorem C60_neutrinos_binary64 :
  forall (L : Libm) (ns : positive), sane_libm L -> monotone_libm L ->
  let _ := B64_ops L in
  let pc := PhysicalConstantsCGS in
  let nn := not_negative in
  let ok := fun o =>
    neutrino_up nn nn no_less o /\ neutrino_thermal_up nn o /\
    forall time mass len tmp, nn time -> nn mass -> nn len -> nn tmp ->
    let o' := NuNonCGSUnits pc o (mk_units time mass len tmp) in
    neutrino_up nn nn no_less o' /\ neutrino_thermal_up nn o' in
  (forall kappa, nn kappa -> ok (NuGrayOpacity (Zpos ns) pc kappa)) /\
  ok (BRTOpacity (Zpos ns) pc).
Proof. exact C60_neutrinos_binary64_proof. Qed.
Print Assumptions C60_neutrinos_binary64.

(** the hypotheses on the mathematical library hold of one that rounds correctly *)
Example C60_photons_binary64_example_holds : sane_libm cr_libm /\ monotone_libm cr_libm.
Proof. exact C60_photons_binary64_example. Qed.

(** In exact arithmetic the total bremsstrahlung emission also grows with temperature. *)
Theorem C60_brems_total :
  forall (pc : PhysConst R) (rho t t' : R), positive_consts pc -> 0 < rho -> 0 < t < t' ->
  exists j j', ph_Emissivity (EPBremsstrahlungOpacity (finpc pc)) (Fin rho) (Fin t) = Ok (Fin j) /\
    ph_Emissivity (EPBremsstrahlungOpacity (finpc pc)) (Fin rho) (Fin t') = Ok (Fin j') /\ 0 < j < j'.
Proof. exact C60_brems_total_proof. Qed.
Print Assumptions C60_brems_total.

(** Its emission at one frequency does not: at low frequencies hotter gas emits less, which
    is why the temperature is fixed above. *)
Theorem C60_brems_hotter_emits_less :
  forall (pc : PhysConst R) (rho : R), positive_consts pc -> 0 < rho ->
  exists nu j j', 0 < nu /\
    ph_EmissivityPerNuOmega (EPBremsstrahlungOpacity (finpc pc)) (Fin rho) (Fin 1) (Fin nu) = Ok (Fin j) /\
    ph_EmissivityPerNuOmega (EPBremsstrahlungOpacity (finpc pc)) (Fin rho) (Fin 4) (Fin nu) = Ok (Fin j') /\
    0 < j' < j.
Proof. exact C60_brems_hotter_emits_less_proof. Qed.
Print Assumptions C60_brems_hotter_emits_less.

(** a power law rising with density and temperature, and two states *)
Example C60_photons_example_holds :
  let p := {| pl_kappa0 := Fin 1; pl_rho_exp := Fin 1; pl_temp_exp := Fin (7 / 2);
     pl_rho_ref := Fin 1; pl_rho_off := Fin 0; pl_temp_ref := Fin 1; pl_temp_off := Fin 0;
     pl_nu_exp := Fin (-3); pl_nu_ref := Fin 1; pl_nu_off := Fin 0; pl_do_stim_emit := false |} in
  powerlaw_domain (PP := pos_real) (NN := nonneg_real) (RR := a_real) p /\ growing nonneg_real p /\
  pos_real (Fin 1) /\ pos_real (Fin 2) /\ no_less (Fin 1) (Fin 2) /\ ~ no_less (Fin 2) (Fin 1).
Proof. exact C60_photons_example. Qed.
