(** C46. Radiation types and table indices correspond one to one. *)
From Coq Require Import ZArith Lia List.
From Verif Require Import Proofs.C46 Base.Outcome Model.RadTypes.
Open Scope Z_scope.

(** From type to index and back, for all five types. *)
Theorem C46_type_roundtrip : forall t, Idx2RadType (RadType2Idx t) = Ok t.
Proof. exact C46_type_roundtrip_proof. Qed.
Print Assumptions C46_type_roundtrip.

(** From index to type and back; the valid indices are -1, ..., 3 and every other
    integer is an error. *)
Theorem C46_index_roundtrip :
  forall i : Z,
  (-1 <= i <= 3 -> exists t, Idx2RadType i = Ok t /\ RadType2Idx t = i) /\
  (~ -1 <= i <= 3 -> Idx2RadType i = Error).
Proof. exact C46_index_roundtrip_proof. Qed.
Print Assumptions C46_index_roundtrip.

(** The indices of a table with NEUTRINO_NTYPES species are those of the three
    neutrino types, and of no other type. *)
Theorem C46_neutrino_indices :
  forall t, 0 <= RadType2Idx t < NEUTRINO_NTYPES <->
  t = NU_ELECTRON \/ t = NU_ELECTRON_ANTI \/ t = NU_HEAVY.
Proof. exact C46_neutrino_indices_proof. Qed.
Print Assumptions C46_neutrino_indices.

(** Distinct types have distinct indices. *)
Theorem C46_injective : forall s t, RadType2Idx s = RadType2Idx t -> s = t.
Proof. exact C46_injective_proof. Qed.
Print Assumptions C46_injective.

Example C46_neutrino_indices_example_holds :
  0 <= RadType2Idx NU_HEAVY < NEUTRINO_NTYPES /\ ~ 0 <= RadType2Idx PHOTON < NEUTRINO_NTYPES.
Proof. exact C46_neutrino_indices_example. Qed.

(** The comparison of types the gates use holds exactly between a type and itself, so it
    is the comparison of the indices. *)
Theorem C46_equality : forall s t,
  (RadType_eqb s t = true <-> s = t) /\ RadType_eqb s t = Z.eqb (RadType2Idx s) (RadType2Idx t).
Proof. exact C46_equality_proof. Qed.
Print Assumptions C46_equality.
