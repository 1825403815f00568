(** C11. EmissivityPerNu is 4 pi times EmissivityPerNuOmega. *)
From Coq Require Import Reals ZArith.
From Verif Require Import Proofs.C11 Base.Outcome Base.Ops
  Model.Constants Model.RadTypes Model.PhotonApi
  Model.GrayPhotons Model.PowerLawPhotons Model.EPBremsPhotons Model.NeutrinoApi
  Model.OpacNeutrinos Model.NonCGSPhotons Model.NonCGSNeutrinos Model.SpinerNeutrinos Model.Variants
  Inst.ER Inst.ERTac Spec.Opacities Spec.Alternatives Proofs.C47.
From Coq Require Import Lra.

(** Any arithmetic and any state, bit for bit. *)
Theorem C11_photons :
  forall (T : Type) (O : Ops T) (pc : PhysConst T) (o : PhotonOpac T), photon_opacity pc o ->
  forall rho temp nu J j,
  ph_EmissivityPerNu o rho temp nu = Ok J -> ph_EmissivityPerNuOmega o rho temp nu = Ok j ->
  J = Omul (Omul (OofZ 4) Opi) j.
Proof. exact C11_photons_proof. Qed.
Print Assumptions C11_photons.

Theorem C11_neutrinos :
  forall (T : Type) (O : Ops T) (ns : Z) (pc : PhysConst T) (o : NuOpac T),
  neutrino_opacity ns pc o ->
  forall rho temp Ye type nu J j,
  nu_EmissivityPerNu o rho temp Ye type nu = Ok J ->
  nu_EmissivityPerNuOmega o rho temp Ye type nu = Ok j ->
  J = Omul (Omul (OofZ 4) Opi) j.
Proof. exact C11_neutrinos_proof. Qed.
Print Assumptions C11_neutrinos.

(** The tabulated neutrino opacity, any arithmetic. *)
Theorem C11_tabulated :
  forall (T : Type) (O : Ops T) (ns : Z) (pc : PhysConst T) (t : SpinerTables T) rho temp Ye type nu,
  nu_EmissivityPerNu (SpinerOpacity ns pc t) rho temp Ye type nu =
    bind (nu_EmissivityPerNuOmega (SpinerOpacity ns pc t) rho temp Ye type nu) (fun j => Ok (Omul (Omul (OofZ 4) Opi) j)).
Proof. exact C11_tabulated_proof. Qed.
Print Assumptions C11_tabulated.

(** Everything the two Opacity variants can hold, behind units or not, in exact arithmetic
    with infinities and NaN: the answer of EmissivityPerNu is 4 pi times that of
    EmissivityPerNuOmega, and they fail together. *)
Theorem C11_variants :
  (forall (v : PhotonAlt ER) rho temp nu,
   ph_EmissivityPerNu (ph_variant v) rho temp nu =
     bind (ph_EmissivityPerNuOmega (ph_variant v) rho temp nu) (fun j => Ok (Omul (Fin (4 * PI)) j))) /\
  (forall (v : NuAlt ER) rho temp Ye type nu,
   nu_EmissivityPerNu (nu_variant v) rho temp Ye type nu =
     bind (nu_EmissivityPerNuOmega (nu_variant v) rho temp Ye type nu) (fun j => Ok (Omul (Fin (4 * PI)) j))).
Proof. exact C11_variants_proof. Qed.
Print Assumptions C11_variants.
