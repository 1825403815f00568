(** C17. Array calls equal scalar calls, bin by bin, and touch nothing else. *)
From Coq Require Import List ZArith Lia.
From Verif Require Import Proofs.C17 Base.Outcome Base.Ops Inst.ER Model.Constants Model.RadTypes
  Model.PhotonApi Model.GrayPhotons Model.PowerLawPhotons Model.EPBremsPhotons
  Model.NeutrinoApi Model.OpacNeutrinos Model.SpinerNeutrinos Model.NonCGSPhotons Model.NonCGSNeutrinos
  Model.Variants Spec.Opacities Spec.Arrays Proofs.ArrayFacts.

(** Any arithmetic; the four array overloads of the photon models. *)
Theorem C17_photon_arrays :
  forall (T : Type) (O : Ops T) (pc : PhysConst T) (o : PhotonOpac T), photon_opacity pc o ->
  forall rho temp,
  bin_by_bin (ph_Absorption o rho temp) (ph_Absorption_v o rho temp) /\
  bin_by_bin (ph_AngleAvgAbsorption o rho temp) (ph_AngleAvgAbsorption_v o rho temp) /\
  bin_by_bin (ph_EmissivityPerNuOmega o rho temp) (ph_EmissivityPerNuOmega_v o rho temp) /\
  bin_by_bin (ph_EmissivityPerNu o rho temp) (ph_EmissivityPerNu_v o rho temp).
Proof. exact C17_photon_arrays_proof. Qed.
Print Assumptions C17_photon_arrays.

Theorem C17_neutrino_arrays :
  forall (T : Type) (O : Ops T) (ns : Z) (pc : PhysConst T) (o : NuOpac T),
  neutrino_opacity ns pc o -> forall rho temp Ye type,
  bin_by_bin (nu_Absorption o rho temp Ye type) (nu_Absorption_v o rho temp Ye type) /\
  bin_by_bin (nu_AngleAvgAbsorption o rho temp Ye type) (nu_AngleAvgAbsorption_v o rho temp Ye type) /\
  bin_by_bin (nu_EmissivityPerNuOmega o rho temp Ye type) (nu_EmissivityPerNuOmega_v o rho temp Ye type) /\
  bin_by_bin (nu_EmissivityPerNu o rho temp Ye type) (nu_EmissivityPerNu_v o rho temp Ye type).
Proof. exact C17_neutrino_arrays_proof. Qed.
Print Assumptions C17_neutrino_arrays.

(** The tabulated neutrino opacity, any table, any arithmetic; here the scalar call can
    fail (a radiation type that has no table index, a state too far outside the table). *)
Theorem C17_tabulated :
  forall (T : Type) (O : Ops T) (ns : Z) (pc : PhysConst T) (t : SpinerTables T),
  forall rho temp Ye type, let o := SpinerOpacity ns pc t in
  bin_by_bin_or_fail (nu_Absorption o rho temp Ye type) (nu_Absorption_v o rho temp Ye type) /\
  bin_by_bin_or_fail (nu_AngleAvgAbsorption o rho temp Ye type) (nu_AngleAvgAbsorption_v o rho temp Ye type) /\
  bin_by_bin_or_fail (nu_EmissivityPerNuOmega o rho temp Ye type) (nu_EmissivityPerNuOmega_v o rho temp Ye type) /\
  bin_by_bin_or_fail (nu_EmissivityPerNu o rho temp Ye type) (nu_EmissivityPerNu_v o rho temp Ye type).
Proof. exact C17_tabulated_proof. Qed.
Print Assumptions C17_tabulated.

(** Buffers shorter than nbins are outside the contract: the access is out of
    bounds. *)
Theorem C17_short_buffers :
  forall (T : Type) (O : Ops T) (pc : PhysConst T) (o : PhotonOpac T), photon_opacity pc o ->
  forall rho temp,
  short_buffer_is_UB (ph_Absorption_v o rho temp) /\
  short_buffer_is_UB (ph_AngleAvgAbsorption_v o rho temp) /\
  short_buffer_is_UB (ph_EmissivityPerNuOmega_v o rho temp) /\
  short_buffer_is_UB (ph_EmissivityPerNu_v o rho temp).
Proof. exact C17_short_buffers_proof. Qed.
Print Assumptions C17_short_buffers.

(** No class, wrapper or variant asks for scratch cells besides the two buffers. *)
Theorem C17_no_scratch :
  forall (T : Type) (O : Ops T),
  (forall (pc : PhysConst T) (o : PhotonOpac T), photon_opacity pc o ->
     ph_nlambda o = 0%Z /\ forall pc' u, ph_nlambda (NonCGSUnits pc' o u) = 0%Z) /\
  (forall (ns : Z) (pc : PhysConst T) (o : NuOpac T), neutrino_opacity ns pc o \/ (exists t, o = SpinerOpacity ns pc t) ->
     nu_nlambda o = 0%Z /\ forall pc' u, nu_nlambda (NuNonCGSUnits pc' o u) = 0%Z) /\
  (forall v : @PhotonAlt T, ph_nlambda (ph_variant v) = 0%Z) /\ (forall v : @NuAlt T, nu_nlambda (nu_variant v) = 0%Z).
Proof. exact C17_no_scratch_proof. Qed.
Print Assumptions C17_no_scratch.

(** Two bins, output buffer after the input buffer, a cell in between. *)
Example C17_example_holds :
  photon_opacity PhysicalConstantsUnity (GrayOpacity PhysicalConstantsUnity (OofZ 1)) /\
  (0 <= 2)%Z /\ (0 + Z.to_nat 2 <= length (repeat (OofZ 7 : ER) 5))%nat /\
  (3 + Z.to_nat 2 <= length (repeat (OofZ 7 : ER) 5))%nat /\ (0 + Z.to_nat 2 <= 3)%nat.
Proof. exact C17_example. Qed.
