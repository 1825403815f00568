(** C11. EmissivityPerNu is 4 pi times EmissivityPerNuOmega. *)
From Coq Require Import Reals ZArith.
From Verif Require Import Base.Outcome Base.Ops
  Model.Constants Model.RadTypes Model.PhotonApi
  Model.GrayPhotons Model.PowerLawPhotons Model.EPBremsPhotons Model.NeutrinoApi
  Model.OpacNeutrinos Model.NonCGSPhotons Model.NonCGSNeutrinos Model.SpinerNeutrinos Model.Variants
  Inst.ER Inst.ERTac Spec.Opacities Spec.Alternatives Proofs.C47.
From Coq Require Import Lra.

(** Any arithmetic and any state, bit for bit. *)
Lemma C11_photons_proof :
  forall (T : Type) (O : Ops T) (pc : PhysConst T) (o : PhotonOpac T), photon_opacity pc o ->
  forall rho temp nu J j,
  ph_EmissivityPerNu o rho temp nu = Ok J -> ph_EmissivityPerNuOmega o rho temp nu = Ok j ->
  J = Omul (Omul (OofZ 4) Opi) j.
Proof.
  intros T O pc o [[kap ->]|[[p ->]| ->]] rho temp nu J j [= <-] [= <-]; reflexivity.
Qed.

Lemma C11_neutrinos_proof :
  forall (T : Type) (O : Ops T) (ns : Z) (pc : PhysConst T) (o : NuOpac T),
  neutrino_opacity ns pc o ->
  forall rho temp Ye type nu J j,
  nu_EmissivityPerNu o rho temp Ye type nu = Ok J ->
  nu_EmissivityPerNuOmega o rho temp Ye type nu = Ok j ->
  J = Omul (Omul (OofZ 4) Opi) j.
Proof.
  intros T O ns pc o [[kap ->]|[->|[C [n1 [n2 ->]]]]] rho temp Ye ty nu J j [= <-] [= <-];
    reflexivity.
Qed.

(** The tabulated neutrino opacity, any arithmetic. *)
Lemma C11_tabulated_proof :
  forall (T : Type) (O : Ops T) (ns : Z) (pc : PhysConst T) (t : SpinerTables T) rho temp Ye type nu,
  nu_EmissivityPerNu (SpinerOpacity ns pc t) rho temp Ye type nu =
    bind (nu_EmissivityPerNuOmega (SpinerOpacity ns pc t) rho temp Ye type nu) (fun j => Ok (Omul (Omul (OofZ 4) Opi) j)).
Proof. reflexivity. Qed.

Lemma scale_assoc (a : R) (b c : ER) : (0 < a)%R -> er_mul (er_mul (Fin a) b) c = er_mul (Fin a) (er_mul b c).
Proof.
  intros A.
  assert (S : forall x, inf_of_sign (a * x) = inf_of_sign x).
  { intros x. unfold inf_of_sign.
    assert (E : (0 < x <-> 0 < a * x)%R).
    { split; intros P; [apply Rmult_lt_0_compat; lra|apply Rmult_lt_reg_l with a; lra]. }
    assert (F : (x < 0 <-> a * x < 0)%R).
    { split; intros P; [replace 0%R with (a * 0)%R by ring; apply Rmult_lt_compat_l; lra|apply Rmult_lt_reg_l with a; lra]. }
    destruct (Rlt_dec 0 x), (Rlt_dec 0 (a * x)), (Rlt_dec x 0), (Rlt_dec (a * x) 0); tauto. }
  assert (S' : forall x, inf_of_sign (- (a * x)) = inf_of_sign (- x)).
  { intros x. replace (- (a * x))%R with (a * - x)%R by ring. apply S. }
  assert (P : inf_of_sign a = PInf) by (unfold inf_of_sign; destruct (Rlt_dec 0 a); [reflexivity|lra]).
  assert (N : inf_of_sign (- a) = NInf).
  { unfold inf_of_sign. destruct (Rlt_dec 0 (- a)); [lra|]. destruct (Rlt_dec (- a) 0); [reflexivity|lra]. }
  assert (I : forall x, er_mul (Fin a) (inf_of_sign x) = inf_of_sign x).
  { intros x. unfold inf_of_sign at 1 2. destruct (Rlt_dec 0 x); [exact P|]. destruct (Rlt_dec x 0); [exact N|reflexivity]. }
  destruct b as [b| | |], c as [c| | |]; cbn [er_mul]; rewrite ?P, ?N, ?S, ?S'; cbn [er_mul]; rewrite ?P, ?N;
    try reflexivity; try (f_equal; ring);
    symmetry; match goal with |- _ = inf_of_sign ?x => specialize (I x); cbn [er_mul] in I; rewrite P, N in I; exact I end.
Qed.

Lemma base_ph (T : Type) (O : Ops T) (pc : PhysConst T) (o : PhotonOpac T) : photon_opacity pc o ->
  forall rho temp nu, ph_EmissivityPerNu o rho temp nu =
    bind (ph_EmissivityPerNuOmega o rho temp nu) (fun j => Ok (Omul (Omul (OofZ 4) Opi) j)).
Proof. intros [[kap ->]|[[p ->]| ->]] rho temp nu; reflexivity. Qed.
Lemma base_nu (T : Type) (O : Ops T) (pc : PhysConst T) (o : NuOpac T) : neutrino_opacity 3 pc o ->
  forall rho temp Ye type nu, nu_EmissivityPerNu o rho temp Ye type nu =
    bind (nu_EmissivityPerNuOmega o rho temp Ye type nu) (fun j => Ok (Omul (Omul (OofZ 4) Opi) j)).
Proof. intros [[kap ->]|[->|[C [n1 [n2 ->]]]]] rho temp Ye ty nu; reflexivity. Qed.

Definition ph_4pi (o : PhotonOpac ER) : Prop := forall rho temp nu,
  ph_EmissivityPerNu o rho temp nu =
    bind (ph_EmissivityPerNuOmega o rho temp nu) (fun j => Ok (Omul (Omul (OofZ 4) Opi) j)).
Definition nu_4pi (o : NuOpac ER) : Prop := forall rho temp Ye type nu,
  nu_EmissivityPerNu o rho temp Ye type nu =
    bind (nu_EmissivityPerNuOmega o rho temp Ye type nu) (fun j => Ok (Omul (Omul (OofZ 4) Opi) j)).

Lemma wrap_4pi (r : result ER) (u : ER) :
  bind (bind r (fun j => Ok (Omul (Omul (OofZ 4) Opi) j))) (fun J => Ok (Omul J u)) =
  bind (bind r (fun j => Ok (Omul j u))) (fun j => Ok (Omul (Omul (OofZ 4) Opi) j)).
Proof.
  assert (P : (0 < 4 * PI)%R) by (pose proof PI_RGT_0; lra).
  destruct r as [j| |]; [|reflexivity|reflexivity]. apply (f_equal Ok), (scale_assoc (4 * PI) j u P).
Qed.
Lemma wrap_ph pc o u : ph_4pi o -> ph_4pi (NonCGSUnits pc o u).
Proof.
  intros H rho temp nu. unfold NonCGSUnits. cbn [ph_EmissivityPerNu ph_EmissivityPerNuOmega]. rewrite H. apply wrap_4pi.
Qed.
Lemma wrap_nu pc o u : nu_4pi o -> nu_4pi (NuNonCGSUnits pc o u).
Proof.
  intros H rho temp Ye type nu. unfold NuNonCGSUnits. cbn [nu_EmissivityPerNu nu_EmissivityPerNuOmega]. rewrite H.
  apply wrap_4pi.
Qed.
Lemma alt_ph k o : photon_alternative k o -> ph_4pi o.
Proof.
  intros [x|x|p|p| |x a b c d|p a b c d|a b c d]; try apply wrap_ph; refine (base_ph _ _ _ _ _); unfold photon_opacity; eauto.
Qed.
Lemma alt_nu k o : neutrino_alternative k o -> nu_4pi o.
Proof.
  intros [x| |x|x y z|t|a b c d|x a b c d|x y z a b c d|t a b c d]; try apply wrap_nu;
    first [refine (base_nu _ _ _ _ _); unfold neutrino_opacity; solve [eauto 6]
          |intros rho temp Ye type nu; apply C11_tabulated_proof].
Qed.

(** Everything the two Opacity variants can hold, behind units or not, in exact arithmetic
    with infinities and NaN: the answer of EmissivityPerNu is 4 pi times that of
    EmissivityPerNuOmega, and they fail together. *)
Lemma C11_variants_proof :
  (forall (v : PhotonAlt ER) rho temp nu,
   ph_EmissivityPerNu (ph_variant v) rho temp nu =
     bind (ph_EmissivityPerNuOmega (ph_variant v) rho temp nu) (fun j => Ok (Omul (Fin (4 * PI)) j))) /\
  (forall (v : NuAlt ER) rho temp Ye type nu,
   nu_EmissivityPerNu (nu_variant v) rho temp Ye type nu =
     bind (nu_EmissivityPerNuOmega (nu_variant v) rho temp Ye type nu) (fun j => Ok (Omul (Fin (4 * PI)) j))).
Proof.
  change (Fin (4 * PI)) with (Omul (OofZ 4) Opi : ER). split; intros v.
  - exact (alt_ph _ _ (proj1 (proj1 (C47_photons_proof ER _) v))).
  - exact (alt_nu _ _ (proj1 (proj1 (C47_neutrinos_proof ER _) v))).
Qed.
