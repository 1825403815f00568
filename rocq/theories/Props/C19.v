(** C19. The photon unit-conversion wrapper is covariant. *)
From Coq Require Import Reals ZArith Lra.
From Verif Require Import Proofs.C19 Base.Outcome Base.Ops Inst.ER Inst.ERTac Model.Constants Model.PhotonApi
  Model.GrayPhotons Model.NonCGSPhotons Inst.RConsts Spec.Units Spec.Opacities Spec.Covariance
  Proofs.PlanckFacts Proofs.UnitFacts Proofs.C20.
Open Scope R_scope.

(** Every unit system, every wrapped opacity whatsoever, all arguments (also
    infinite or NaN), errors included: every scalar method of the wrapper except
    the temperature derivative (C20). *)
Theorem C19_covariant :
  forall s, positive_system s -> forall pc o,
  photon_covariant s o
    (NonCGSUnits pc o (mk_units (Fin (us_time s)) (Fin (us_mass s)) (Fin (us_length s))
                                (Fin (us_temp s)))).
Proof. exact C19_covariant_proof. Qed.
Print Assumptions C19_covariant.

(** The remaining scalar method, the temperature derivative of the spectrum, for
    every wrapped opacity: it is covariant exactly when the wrapped derivative does
    not notice the conversion of its two arguments. *)
Theorem C19_derivative_iff :
  forall s, positive_system s -> forall pc o,
  photon_dT_covariant s o
    (NonCGSUnits pc o (mk_units (Fin (us_time s)) (Fin (us_mass s)) (Fin (us_length s))
                                (Fin (us_temp s)))) <->
  forall T nu,
    ph_DThermalDistributionOfTNuDT o (in_cgs s d_temperature T) (in_cgs s d_frequency nu) =
    ph_DThermalDistributionOfTNuDT o T nu.
Proof. exact C19_derivative_iff_proof. Qed.
Print Assumptions C19_derivative_iff.

(** For the library's opacities that happens only when the time and temperature
    units are both 1. *)
Theorem C19_derivative_units :
  forall pc o s, positive_hkc pc -> photon_opacity (finpc pc) o -> positive_system s ->
  photon_dT_covariant s o
    (NonCGSUnits (finpc pc) o (mk_units (Fin (us_time s)) (Fin (us_mass s)) (Fin (us_length s))
                                        (Fin (us_temp s)))) <->
  us_time s = 1 /\ us_temp s = 1.
Proof. exact C19_derivative_units_proof. Qed.
Print Assumptions C19_derivative_units.

(** So "each scalar method is covariant" is false of the code. *)
Theorem C19_derivative_refuted :
  ~ (forall pc o s, positive_hkc pc -> photon_opacity (finpc pc) o -> positive_system s ->
     photon_dT_covariant s o
       (NonCGSUnits (finpc pc) o (mk_units (Fin (us_time s)) (Fin (us_mass s)) (Fin (us_length s))
                                           (Fin (us_temp s))))).
Proof. exact C19_derivative_refuted_proof. Qed.
Print Assumptions C19_derivative_refuted.

(** Kilograms, metres, minutes and electronvolt-like temperatures. *)
Example C19_example_holds :
  positive_system {| us_time := 60; us_mass := 1000; us_length := 100; us_temp := 11604 |}.
Proof. exact C19_example. Qed.
