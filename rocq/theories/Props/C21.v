(** C21. The neutrino and scattering unit-conversion wrappers are covariant. *)
From Coq Require Import Reals ZArith Lra.
From Verif Require Import Proofs.C21 Base.Outcome Base.Ops Inst.ER Inst.ERTac Model.Constants Model.RadTypes Model.PhotonApi
  Model.NeutrinoApi Model.OpacNeutrinos Model.ScatteringPhotons Model.NonCGSPhotons
  Model.NonCGSNeutrinos Model.MeanUtils Model.MeanPhotons Model.MeanVariants Inst.RConsts Spec.Units
  Spec.Opacities Spec.Covariance Proofs.PlanckFacts Proofs.UnitFacts Proofs.C19 Proofs.C20.
Open Scope R_scope.

(** Every unit system, every wrapped neutrino opacity, all arguments and errors:
    every scalar method except the temperature derivative (C20). *)
Theorem C21_neutrino_covariant :
  forall s, positive_system s -> forall pc o,
  neutrino_covariant s o
    (NuNonCGSUnits pc o (mk_units (Fin (us_time s)) (Fin (us_mass s)) (Fin (us_length s))
                                  (Fin (us_temp s)))).
Proof. exact C21_neutrino_covariant_proof. Qed.
Print Assumptions C21_neutrino_covariant.

(** Photon scattering wrapper. *)
Theorem C21_scattering_covariant :
  forall s, positive_system s -> forall o,
  scattering_covariant s o
    (NonCGSUnitsS o (mk_units (Fin (us_time s)) (Fin (us_mass s)) (Fin (us_length s))
                              (Fin (us_temp s)))).
Proof. exact C21_scattering_covariant_proof. Qed.
Print Assumptions C21_scattering_covariant.

(** Neutrino scattering wrapper. *)
Theorem C21_neutrino_scattering_covariant :
  forall s, positive_system s -> forall o,
  neutrino_scattering_covariant s o
    (NuNonCGSUnitsS o (mk_units (Fin (us_time s)) (Fin (us_mass s)) (Fin (us_length s))
                                (Fin (us_temp s)))).
Proof. exact C21_neutrino_scattering_covariant_proof. Qed.
Print Assumptions C21_neutrino_scattering_covariant.

(** Photon mean-opacity wrapper around every object with the mean-opacity members:
    coefficient by group and by frequency, group lookup, group count. *)
Theorem C21_mean_covariant :
  forall s, positive_system s -> forall o,
  mean_covariant s o
    (MeanNonCGSUnits o (mk_units (Fin (us_time s)) (Fin (us_mass s)) (Fin (us_length s))
                                 (Fin (us_temp s)))).
Proof. exact C21_mean_covariant_proof. Qed.
Print Assumptions C21_mean_covariant.

(** The calls that name the Planck or the Rosseland mean, around every mean-opacity
    table (the wrapped calls are then the wrapped object's own named calls). *)
Theorem C21_mean_named_covariant :
  forall s, positive_system s -> forall pc m,
  mean_named_covariant s (mean_api pc m)
    (MeanNonCGSUnits (mean_api pc m)
       (mk_units (Fin (us_time s)) (Fin (us_mass s)) (Fin (us_length s)) (Fin (us_temp s)))).
Proof. exact C21_mean_named_covariant_proof. Qed.
Print Assumptions C21_mean_named_covariant.

(** Photon mean-scattering wrapper, around every object with its two members. *)
Theorem C21_mean_scattering_covariant :
  forall s, positive_system s -> forall o,
  mean_s_covariant s o
    (MeanNonCGSUnitsS o (mk_units (Fin (us_time s)) (Fin (us_mass s)) (Fin (us_length s))
                                  (Fin (us_temp s)))).
Proof. exact C21_mean_scattering_covariant_proof. Qed.
Print Assumptions C21_mean_scattering_covariant.

(** Neutrino mean-opacity and mean-scattering wrappers. *)
Theorem C21_neutrino_mean_covariant :
  forall s, positive_system s -> forall o,
  nu_mean_covariant s o
    (NuMeanNonCGSUnits o (mk_units (Fin (us_time s)) (Fin (us_mass s)) (Fin (us_length s))
                                   (Fin (us_temp s)))).
Proof. exact C21_neutrino_mean_covariant_proof. Qed.
Print Assumptions C21_neutrino_mean_covariant.

(** The speed of light a photon mean-opacity wrapper reports is the CGS one, so it is
    the code-unit value only when the length and time units agree; the neutrino
    wrapper's report is the code-unit value always. *)
Theorem C21_mean_constants_iff :
  forall s, positive_system s -> forall pc, positive_hkc pc -> forall m,
  let u := mk_units (Fin (us_time s)) (Fin (us_mass s)) (Fin (us_length s)) (Fin (us_temp s)) in
  (Ok (r_c (ma_RPC (MeanNonCGSUnits (mean_api (finpc pc) m) u))) =
     in_code s d_velocity (Ok (r_c (ma_RPC (mean_api (finpc pc) m)))) <->
   us_length s = us_time s) /\
  forall o, Ok (r_c (na_RPC (NuMeanNonCGSUnits o u))) =
     in_code s d_velocity (Ok (pc_c PhysicalConstantsCGS)).
Proof. exact C21_mean_constants_iff_proof. Qed.
Print Assumptions C21_mean_constants_iff.

(** The temperature derivative through the neutrino wrapper, every wrapped opacity:
    covariant exactly when the wrapped derivative does not notice the conversion of
    its arguments. *)
Theorem C21_derivative_iff :
  forall s, positive_system s -> forall pc o,
  neutrino_dT_covariant s o
    (NuNonCGSUnits pc o (mk_units (Fin (us_time s)) (Fin (us_mass s)) (Fin (us_length s))
                                  (Fin (us_temp s)))) <->
  forall T t nu,
    nu_DThermalDistributionOfTNuDT o (in_cgs s d_temperature T) t (in_cgs s d_frequency nu) =
    nu_DThermalDistributionOfTNuDT o T t nu.
Proof. exact C21_derivative_iff_proof. Qed.
Print Assumptions C21_derivative_iff.

(** For the library's closed-form opacities: only when the time and temperature units
    are both 1. *)
Theorem C21_derivative_units :
  forall ns pc o s, (0 < ns)%Z -> positive_hkc pc -> neutrino_opacity ns (finpc pc) o ->
  positive_system s ->
  neutrino_dT_covariant s o
    (NuNonCGSUnits (finpc pc) o (mk_units (Fin (us_time s)) (Fin (us_mass s)) (Fin (us_length s))
                                          (Fin (us_temp s)))) <->
  us_time s = 1 /\ us_temp s = 1.
Proof. exact C21_derivative_units_proof. Qed.
Print Assumptions C21_derivative_units.

(** So "method by method" is false of the code, through this one method. *)
Theorem C21_derivative_refuted :
  ~ (forall ns pc o s, (0 < ns)%Z -> positive_hkc pc -> neutrino_opacity ns (finpc pc) o ->
     positive_system s ->
     neutrino_dT_covariant s o
       (NuNonCGSUnits (finpc pc) o (mk_units (Fin (us_time s)) (Fin (us_mass s)) (Fin (us_length s))
                                             (Fin (us_temp s))))).
Proof. exact C21_derivative_refuted_proof. Qed.
Print Assumptions C21_derivative_refuted.

(** A unit system with all four units different from one. *)
Example C21_example_holds :
  positive_system {| us_time := 60; us_mass := 1000; us_length := 100; us_temp := 11604 |}.
Proof. exact C21_example. Qed.
