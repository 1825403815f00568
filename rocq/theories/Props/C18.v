(** C18. Unit-converting array calls and the caller's frequency bins. *)
From Coq Require Import Reals List ZArith Lra Lia.
From Flocq Require Import IEEE754.BinarySingleNaN.
From Verif Require Import Proofs.C18 Base.Outcome Base.Ops Inst.ER Inst.ERTac Inst.B64 Model.Constants
  Model.RadTypes Model.PhotonApi Model.GrayPhotons Model.PowerLawPhotons Model.EPBremsPhotons
  Model.NeutrinoApi Model.OpacNeutrinos Model.NonCGSPhotons Model.NonCGSNeutrinos
  Spec.Opacities Spec.Arrays Proofs.ArrayFacts Proofs.C17.
Import ListNotations.
Open Scope R_scope.

(** Exact arithmetic, disjoint buffers, finite frequencies, any nonzero time unit
    and any other units: the array overloads of the wrapped photon models return
    the wrapper's scalar results and restore the bins. *)
Theorem C18_disjoint_exact :
  forall pc o, photon_opacity pc o -> forall t mass len temp, t <> 0 ->
  let w := NonCGSUnits pc o (mk_units (Fin t) mass len temp) in
  forall rho T,
  converted is_fin (ph_Absorption w rho T) (ph_Absorption_v w rho T) /\
  converted is_fin (ph_AngleAvgAbsorption w rho T) (ph_AngleAvgAbsorption_v w rho T) /\
  converted is_fin (ph_EmissivityPerNuOmega w rho T) (ph_EmissivityPerNuOmega_v w rho T) /\
  converted is_fin (ph_EmissivityPerNu w rho T) (ph_EmissivityPerNu_v w rho T).
Proof. exact C18_disjoint_exact_proof. Qed.
Print Assumptions C18_disjoint_exact.

Theorem C18_disjoint_exact_neutrinos :
  forall ns pc o, neutrino_opacity ns pc o -> forall t mass len temp, t <> 0 ->
  let w := NuNonCGSUnits pc o (mk_units (Fin t) mass len temp) in
  forall rho T Ye type,
  converted is_fin (nu_Absorption w rho T Ye type) (nu_Absorption_v w rho T Ye type) /\
  converted is_fin (nu_AngleAvgAbsorption w rho T Ye type) (nu_AngleAvgAbsorption_v w rho T Ye type) /\
  converted is_fin (nu_EmissivityPerNuOmega w rho T Ye type) (nu_EmissivityPerNuOmega_v w rho T Ye type) /\
  converted is_fin (nu_EmissivityPerNu w rho T Ye type) (nu_EmissivityPerNu_v w rho T Ye type).
Proof. exact C18_disjoint_exact_neutrinos_proof. Qed.
Print Assumptions C18_disjoint_exact_neutrinos.

(** Shared buffer: the same wrapped call, with the output buffer equal to the bin
    buffer, returns the scalar result times the time unit. So for a gray opacity
    and every time unit other than 1 the result is wrong. *)
Theorem C18_shared_buffer_refuted :
  forall pc kappa, 0 < kappa -> forall t mass len temp rho T nu,
  0 < t -> t <> 1 -> 0 < mass -> 0 < len -> 0 < temp -> 0 < rho -> 0 < T -> 0 < nu ->
  let w := NonCGSUnits pc (GrayOpacity pc (Fin kappa))
             (mk_units (Fin t) (Fin mass) (Fin len) (Fin temp)) in
  exists v, 0 < v /\
    ph_Absorption w (Fin rho) (Fin T) (Fin nu) = Ok (Fin v) /\
    ph_Absorption_v w (Fin rho) (Fin T) 0%nat 0%nat 1%Z [Fin nu] = Ok [Fin (v * t)] /\
    v * t <> v.
Proof. exact C18_shared_buffer_refuted_proof. Qed.
Print Assumptions C18_shared_buffer_refuted.

(** In IEEE double arithmetic the bins are not restored bit for bit even for
    disjoint buffers: nu = 1 with a time unit of 49 comes back as 1 - 2^-53,
    whatever the math library, the opacity model constants and the other units. *)
Theorem C18_binary64_refuted :
  forall (L : Libm) (pc : PhysConst b64) (kappa mass len temp rho T : b64),
  let O := B64_ops L in
  let w := @NonCGSUnits b64 O pc (@GrayOpacity b64 O pc kappa)
             (@mk_units b64 O (b64_of_Z 49) mass len temp) in
  forall out, exists v,
  @ph_Absorption_v b64 w rho T 0%nat 1%nat 1%Z [b64_of_Z 1; out] =
    Ok [b64_ldexp (2 ^ 53 - 1) (-53); v] /\
  b64_ldexp (2 ^ 53 - 1) (-53) <> b64_of_Z 1.
Proof. exact C18_binary64_refuted_proof. Qed.
Print Assumptions C18_binary64_refuted.

(** Two bins in exact arithmetic, time unit 49. *)
Example C18_example_holds :
  photon_opacity PhysicalConstantsUnity (GrayOpacity PhysicalConstantsUnity (Fin 1)) /\
  (49 <> 0 /\ 49 <> 1) /\ is_fin (Fin 3).
Proof. exact C18_example. Qed.
