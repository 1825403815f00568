(** C23. Reported runtime constants describe the wrapped opacity. *)
From Coq Require Import Reals ZArith Lra.
From Verif Require Import Proofs.C23 Base.Outcome Base.Ops Inst.ER Inst.ERTac Inst.RConsts Model.Constants Model.RadTypes
  Model.PhotonApi Model.GrayPhotons Model.PowerLawPhotons Model.EPBremsPhotons Model.NeutrinoApi
  Model.OpacNeutrinos Model.NonCGSPhotons Model.NonCGSNeutrinos Spec.Physics Spec.Integral
  Spec.Units Spec.Opacities Proofs.PlanckFacts Proofs.UnitFacts Proofs.C07 Proofs.C20.
Open Scope R_scope.

(** The Planck law written with the reported h, k and c gives exactly the wrapper's
    spectrum, at all temperatures and frequencies in code units. *)
Theorem C23_photons :
  forall pc o s, positive_hkc pc -> photon_opacity (finpc pc) o -> positive_system s ->
  let w := NonCGSUnits (finpc pc) o (mk_units (Fin (us_time s)) (Fin (us_mass s))
                                              (Fin (us_length s)) (Fin (us_temp s))) in
  exists h k c,
    r_h (ph_RuntimePC w) = Fin h /\ r_kb (ph_RuntimePC w) = Fin k /\
    r_c (ph_RuntimePC w) = Fin c /\ 0 < h /\ 0 < k /\ 0 < c /\
    forall T nu, 0 < T -> 0 < nu ->
      returns (ph_ThermalDistributionOfTNu w (Fin T) (Fin nu)) (Planck_B h k c T nu).
Proof. exact C23_photons_proof. Qed.
Print Assumptions C23_photons.

(** The Fermi-Dirac law with the reported constants, for neutrinos. *)
Theorem C23_neutrinos :
  forall ns pc o s type, positive_hkc pc -> neutrino_opacity ns (finpc pc) o -> positive_system s ->
  let w := NuNonCGSUnits (finpc pc) o (mk_units (Fin (us_time s)) (Fin (us_mass s))
                                                (Fin (us_length s)) (Fin (us_temp s))) in
  exists h k c,
    r_h (nu_RuntimePC w) = Fin h /\ r_kb (nu_RuntimePC w) = Fin k /\
    r_c (nu_RuntimePC w) = Fin c /\ 0 < h /\ 0 < k /\ 0 < c /\
    forall T nu, 0 < T -> 0 < nu ->
      returns (nu_ThermalDistributionOfTNu w (Fin T) type (Fin nu)) (FermiDirac_B (IZR ns) h k c T nu).
Proof. exact C23_neutrinos_proof. Qed.
Print Assumptions C23_neutrinos.

(** An unwrapped opacity reports the constants it computes with. *)
Theorem C23_unwrapped :
  forall T (O : Ops T) pc o, photon_opacity pc o ->
  r_h (ph_RuntimePC o) = pc_h pc /\ r_kb (ph_RuntimePC o) = pc_kb pc /\
  r_c (ph_RuntimePC o) = pc_c pc /\ ph_RuntimePC o = RuntimePC_of pc.
Proof. exact C23_unwrapped_proof. Qed.
Print Assumptions C23_unwrapped.

Example C23_example_holds :
  positive_hkc cgsR /\ photon_opacity (finpc cgsR) (GrayOpacity (finpc cgsR) (Fin 1)) /\
  positive_system {| us_time := 60; us_mass := 1000; us_length := 100; us_temp := 11604 |}.
Proof. exact C23_example. Qed.
