(** C46. Radiation types and table indices correspond one to one. *)
From Coq Require Import ZArith Lia List.
From Verif Require Import Base.Outcome Model.RadTypes.
Open Scope Z_scope.

(** From type to index and back, for all five types. *)
Lemma C46_type_roundtrip_proof : forall t, Idx2RadType (RadType2Idx t) = Ok t.
Proof.
  intros []; reflexivity.
Qed.

(** From index to type and back; the valid indices are -1, ..., 3 and every other
    integer is an error. *)
Lemma C46_index_roundtrip_proof :
  forall i : Z,
  (-1 <= i <= 3 -> exists t, Idx2RadType i = Ok t /\ RadType2Idx t = i) /\
  (~ -1 <= i <= 3 -> Idx2RadType i = Error).
Proof.
  intros i. unfold Idx2RadType. split; intros H.
  - assert (C : i = -1 \/ i = 0 \/ i = 1 \/ i = 2 \/ i = 3) by lia.
    destruct C as [->|[->|[->|[->| ->]]]]; cbn; eexists; split; reflexivity.
  - destruct (Z.eqb_spec i (-1)); [lia|]. destruct (Z.eqb_spec i 0); [lia|].
    destruct (Z.eqb_spec i 1); [lia|]. destruct (Z.eqb_spec i 2); [lia|].
    destruct (Z.eqb_spec i 3); [lia|reflexivity].
Qed.

(** The indices of a table with NEUTRINO_NTYPES species are those of the three
    neutrino types, and of no other type. *)
Lemma C46_neutrino_indices_proof :
  forall t, 0 <= RadType2Idx t < NEUTRINO_NTYPES <->
  t = NU_ELECTRON \/ t = NU_ELECTRON_ANTI \/ t = NU_HEAVY.
Proof.
  intros []; unfold NEUTRINO_NTYPES; cbn; split; intros H; try lia; auto;
    destruct H as [H|[H|H]]; try discriminate; lia.
Qed.

(** Distinct types have distinct indices. *)
Lemma C46_injective_proof : forall s t, RadType2Idx s = RadType2Idx t -> s = t.
Proof.
  intros [] []; cbn; intros H; try reflexivity; discriminate.
Qed.

Lemma C46_neutrino_indices_example :
  0 <= RadType2Idx NU_HEAVY < NEUTRINO_NTYPES /\ ~ 0 <= RadType2Idx PHOTON < NEUTRINO_NTYPES.
Proof.
  unfold NEUTRINO_NTYPES; cbn; lia.
Qed.

(** The comparison of types the gates use holds exactly between a type and itself, so it
    is the comparison of the indices. *)
Lemma C46_equality_proof : forall s t,
  (RadType_eqb s t = true <-> s = t) /\ RadType_eqb s t = Z.eqb (RadType2Idx s) (RadType2Idx t).
Proof. intros [] []; split; try reflexivity; split; intros H; try reflexivity; discriminate. Qed.
