(** Model of singularity-opac/base/radiation_types.hpp. *)
From Coq Require Import ZArith.
From Verif Require Import Base.Outcome.

(** constexpr int NEUTRINO_NTYPES, 23 *)
Definition NEUTRINO_NTYPES : Z := 3%Z.

(** enum class RadiationType, 24-30 *)
Inductive RadiationType := TRACER | NU_ELECTRON | NU_ELECTRON_ANTI | NU_HEAVY | PHOTON.

(** == on the enumeration, as in brt_neutrinos.hpp 183 and 194 and
    tophat_emissivity_neutrinos.hpp 201 and 203 *)
Definition RadType_eqb (a b : RadiationType) : bool :=
  match a, b with
  | TRACER, TRACER | NU_ELECTRON, NU_ELECTRON | NU_ELECTRON_ANTI, NU_ELECTRON_ANTI
  | NU_HEAVY, NU_HEAVY | PHOTON, PHOTON => true
  | _, _ => false
  end.

(** RadType2Idx, 32-33: static_cast<int>(type) *)
Definition RadType2Idx (t : RadiationType) : Z :=
  match t with
  | TRACER => -1 | NU_ELECTRON => 0 | NU_ELECTRON_ANTI => 1 | NU_HEAVY => 2 | PHOTON => 3
  end%Z.

(** Idx2RadType, 35-51; the default branch calls OPAC_ERROR. *)
Definition Idx2RadType (i : Z) : result RadiationType :=
  if (i =? -1)%Z then Ok TRACER
  else if (i =? 0)%Z then Ok NU_ELECTRON
  else if (i =? 1)%Z then Ok NU_ELECTRON_ANTI
  else if (i =? 2)%Z then Ok NU_HEAVY
  else if (i =? 3)%Z then Ok PHOTON
  else Error.
