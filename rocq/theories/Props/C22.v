(** C22. Unit-conversion wrappers form a monoid action. *)
From Coq Require Import Reals ZArith Lra.
From Verif Require Import Proofs.C22 Base.Outcome Base.Ops Inst.ER Inst.ERTac Inst.RConsts Model.Constants Model.RadTypes Model.PhotonApi
  Model.NeutrinoApi Model.GrayPhotons Model.ScatteringPhotons Model.NonCGSPhotons Model.NonCGSNeutrinos Spec.Units
  Spec.Covariance Proofs.UnitFacts Proofs.C19 Proofs.C21.
Open Scope R_scope.

(** Wrapping with all units equal to one changes no scalar result. *)
Theorem C22_identity_photons :
  forall pc o,
  photon_same_scalars o
    (NonCGSUnits pc o (mk_units (Fin 1) (Fin 1) (Fin 1) (Fin 1))).
Proof. exact C22_identity_photons_proof. Qed.
Print Assumptions C22_identity_photons.

Theorem C22_identity_neutrinos :
  forall pc o,
  neutrino_same_scalars o
    (NuNonCGSUnits pc o (mk_units (Fin 1) (Fin 1) (Fin 1) (Fin 1))).
Proof. exact C22_identity_neutrinos_proof. Qed.
Print Assumptions C22_identity_neutrinos.

Theorem C22_identity_scattering :
  forall o,
  scattering_same o (NonCGSUnitsS o (mk_units (Fin 1) (Fin 1) (Fin 1) (Fin 1))).
Proof. exact C22_identity_scattering_proof. Qed.
Print Assumptions C22_identity_scattering.

(** Wrapping with units t, and the result with units s (given in units of the
    first wrapper), equals wrapping once with the componentwise product. *)
Theorem C22_composition_photons :
  forall pc o s t, positive_system s -> positive_system t ->
  photon_same_scalars
    (NonCGSUnits pc o (mk_units (Fin (us_time s * us_time t)) (Fin (us_mass s * us_mass t))
                                (Fin (us_length s * us_length t)) (Fin (us_temp s * us_temp t))))
    (NonCGSUnits pc
       (NonCGSUnits pc o (mk_units (Fin (us_time t)) (Fin (us_mass t)) (Fin (us_length t)) (Fin (us_temp t))))
       (mk_units (Fin (us_time s)) (Fin (us_mass s)) (Fin (us_length s)) (Fin (us_temp s)))).
Proof. exact C22_composition_photons_proof. Qed.
Print Assumptions C22_composition_photons.

Theorem C22_composition_neutrinos :
  forall pc o s t, positive_system s -> positive_system t ->
  neutrino_same_scalars
    (NuNonCGSUnits pc o (mk_units (Fin (us_time s * us_time t)) (Fin (us_mass s * us_mass t))
                                  (Fin (us_length s * us_length t)) (Fin (us_temp s * us_temp t))))
    (NuNonCGSUnits pc
       (NuNonCGSUnits pc o (mk_units (Fin (us_time t)) (Fin (us_mass t)) (Fin (us_length t)) (Fin (us_temp t))))
       (mk_units (Fin (us_time s)) (Fin (us_mass s)) (Fin (us_length s)) (Fin (us_temp s)))).
Proof. exact C22_composition_neutrinos_proof. Qed.
Print Assumptions C22_composition_neutrinos.

(** The reported runtime constants do not compose: a doubly wrapped opacity reports
    the constants of its outer wrapper only, so the speed of light it reports is
    wrong whenever the inner units do not keep it unchanged. *)
Theorem C22_nested_constants_refuted :
  forall pc c o s t, positive_system s -> positive_system t -> pc_c pc = Fin c -> 0 < c ->
  us_time t <> us_length t ->
  let once := NonCGSUnits pc o (mk_units (Fin (us_time s * us_time t)) (Fin (us_mass s * us_mass t))
                (Fin (us_length s * us_length t)) (Fin (us_temp s * us_temp t))) in
  let twice := NonCGSUnits pc
       (NonCGSUnits pc o (mk_units (Fin (us_time t)) (Fin (us_mass t)) (Fin (us_length t)) (Fin (us_temp t))))
       (mk_units (Fin (us_time s)) (Fin (us_mass s)) (Fin (us_length s)) (Fin (us_temp s))) in
  r_c (ph_RuntimePC once) = Fin (c * (us_time s * us_time t) / (us_length s * us_length t)) /\
  r_c (ph_RuntimePC twice) = Fin (c * us_time s / us_length s) /\
  r_c (ph_RuntimePC twice) <> r_c (ph_RuntimePC once).
Proof. exact C22_nested_constants_refuted_proof. Qed.
Print Assumptions C22_nested_constants_refuted.

(** Minutes and metres inside, hours and kilometres outside. *)
Example C22_example_holds :
  positive_system {| us_time := 60; us_mass := 1; us_length := 1000; us_temp := 1 |} /\
  positive_system {| us_time := 60; us_mass := 1000; us_length := 100; us_temp := 11604 |} /\ 60 <> 100.
Proof. exact C22_example. Qed.
