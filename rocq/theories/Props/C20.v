(** C20. The unit-conversion wrapper and the temperature derivative of the spectrum. *)
From Coq Require Import Reals ZArith Lra Lia.
From Coquelicot Require Import Coquelicot.
From Verif Require Import Proofs.C20 Base.Outcome Base.Ops Inst.ER Inst.ERTac Inst.RConsts Model.Constants Model.RadTypes
  Model.PhotonApi Model.GrayPhotons Model.PowerLawPhotons Model.EPBremsPhotons Model.NeutrinoApi
  Model.OpacNeutrinos Model.NonCGSPhotons Model.NonCGSNeutrinos Spec.Physics Spec.Integral
  Spec.Units Spec.Opacities Proofs.PlanckFacts Proofs.UnitFacts.
Open Scope R_scope.

(** For every photon opacity and every unit system: the wrapper's derivative call
    returns the derivative of the wrapper's spectrum call at all temperatures and
    frequencies if and only if the time and temperature units are both 1. *)
Theorem C20_photons_iff :
  forall pc o s, positive_hkc pc -> photon_opacity (finpc pc) o -> positive_system s ->
  let w := NonCGSUnits (finpc pc) o (mk_units (Fin (us_time s)) (Fin (us_mass s))
                                              (Fin (us_length s)) (Fin (us_temp s))) in
  (forall nu, 0 < nu ->
   forall B, (forall T, 0 < T ->
     returns (ph_ThermalDistributionOfTNu w (Fin T) (Fin nu)) (B T)) ->
   forall T, 0 < T ->
     exists d, returns (ph_DThermalDistributionOfTNuDT w (Fin T) (Fin nu)) d /\
               is_derive B T d)
  <-> us_time s = 1 /\ us_temp s = 1.
Proof. exact C20_photons_iff_proof. Qed.
Print Assumptions C20_photons_iff.

(** so it fails, for instance, with all units 1 except a temperature unit of 2 *)
Theorem C20_photons_refuted :
  ~ (forall pc o s, positive_hkc pc -> photon_opacity (finpc pc) o -> positive_system s ->
     let w := NonCGSUnits (finpc pc) o (mk_units (Fin (us_time s)) (Fin (us_mass s))
                                                 (Fin (us_length s)) (Fin (us_temp s))) in
     forall nu, 0 < nu ->
     forall B, (forall T, 0 < T ->
       returns (ph_ThermalDistributionOfTNu w (Fin T) (Fin nu)) (B T)) ->
     forall T, 0 < T ->
       exists d, returns (ph_DThermalDistributionOfTNuDT w (Fin T) (Fin nu)) d /\
                 is_derive B T d).
Proof. exact C20_photons_refuted_proof. Qed.
Print Assumptions C20_photons_refuted.

(** The same for every neutrino opacity, any positive number of species. *)
Theorem C20_neutrinos_iff :
  forall ns pc o s type, (0 < ns)%Z -> positive_hkc pc -> neutrino_opacity ns (finpc pc) o ->
  positive_system s ->
  let w := NuNonCGSUnits (finpc pc) o (mk_units (Fin (us_time s)) (Fin (us_mass s))
                                                (Fin (us_length s)) (Fin (us_temp s))) in
  (forall nu, 0 < nu ->
   forall B, (forall T, 0 < T ->
     returns (nu_ThermalDistributionOfTNu w (Fin T) type (Fin nu)) (B T)) ->
   forall T, 0 < T ->
     exists d, returns (nu_DThermalDistributionOfTNuDT w (Fin T) type (Fin nu)) d /\
               is_derive B T d)
  <-> us_time s = 1 /\ us_temp s = 1.
Proof. exact C20_neutrinos_iff_proof. Qed.
Print Assumptions C20_neutrinos_iff.

Theorem C20_neutrinos_refuted :
  ~ (forall ns pc o s type, (0 < ns)%Z -> positive_hkc pc -> neutrino_opacity ns (finpc pc) o ->
     positive_system s ->
     let w := NuNonCGSUnits (finpc pc) o (mk_units (Fin (us_time s)) (Fin (us_mass s))
                                                   (Fin (us_length s)) (Fin (us_temp s))) in
     forall nu, 0 < nu ->
     forall B, (forall T, 0 < T ->
       returns (nu_ThermalDistributionOfTNu w (Fin T) type (Fin nu)) (B T)) ->
     forall T, 0 < T ->
       exists d, returns (nu_DThermalDistributionOfTNuDT w (Fin T) type (Fin nu)) d /\
                 is_derive B T d).
Proof. exact C20_neutrinos_refuted_proof. Qed.
Print Assumptions C20_neutrinos_refuted.

(** The library's CGS constants, a gray opacity, and two unit systems: one on each
    side of the equivalence. *)
Example C20_example_holds :
  positive_hkc cgsR /\ photon_opacity (finpc cgsR) (GrayOpacity (finpc cgsR) (Fin 1)) /\
  positive_system {| us_time := 1; us_mass := 5; us_length := 7; us_temp := 1 |} /\
  positive_system {| us_time := 1; us_mass := 5; us_length := 7; us_temp := 11604 |}.
Proof. exact C20_example. Qed.
