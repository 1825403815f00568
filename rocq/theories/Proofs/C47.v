(** C47. The variant behaves exactly as the opacity it holds. *)
From Coq Require Import Reals ZArith List Lia Lra Bool.
From Verif Require Import Base.Outcome Base.Ops Inst.ER Inst.ERTac Model.Constants Model.RadTypes Model.PhotonApi Model.NeutrinoApi
  Model.GrayPhotons Model.PowerLawPhotons Model.EPBremsPhotons Model.NonCGSPhotons Model.ScatteringPhotons
  Model.OpacNeutrinos Model.NonCGSNeutrinos Model.SpinerNeutrinos Model.Spiner Model.MeanUtils Model.MeanPhotons
  Model.MeanNeutrinos Model.MeanVariants Model.Variants Spec.Alternatives Spec.Tables Spec.TableShape Proofs.C28 Proofs.C30.
Import ListNotations.
Open Scope R_scope.

(** photons::Opacity, any arithmetic: all nineteen members together are those of the
    alternative held, which is one of the eight objects of the list at the position IsType
    reports; get hands out that object for its own type and fails for every other; and every
    object of the list can be held. *)
Lemma C47_photons_proof :
  forall (T : Type) (O : Ops T),
  (forall v : PhotonAlt T,
     photon_alternative (ph_index v) (ph_variant v) /\
     (forall k, ph_IsType k v = true <-> k = ph_index v) /\
     ph_get (ph_index v) v = Ok (ph_variant v) /\
     (forall k, k <> ph_index v -> ph_get k v = Error)) /\
  (forall k o, photon_alternative k o -> exists v : PhotonAlt T, ph_index v = k /\ ph_variant v = o).
Proof.
  intros T O. split.
  - intros v. split; [destruct v; constructor|]. split; [|split].
    + intros k. unfold ph_IsType. rewrite PeanoNat.Nat.eqb_eq. split; congruence.
    + unfold ph_get, ph_IsType. rewrite PeanoNat.Nat.eqb_refl. destruct v; reflexivity.
    + intros k H. unfold ph_get, ph_IsType. destruct (PeanoNat.Nat.eqb_spec (ph_index v) k); congruence.
  - intros k o [x|x|p|p| |x a b c d|p a b c d|a b c d].
    + exists (PhScaleFree x). split; reflexivity.
    + exists (PhGray x). split; reflexivity.
    + exists (PhPowerLawScaleFree p). split; reflexivity.
    + exists (PhPowerLaw p). split; reflexivity.
    + exists PhEPBremss. split; reflexivity.
    + exists (PhUnitsGray x {| u4_time := a; u4_mass := b; u4_length := c; u4_temp := d |}). split; reflexivity.
    + exists (PhUnitsPowerLaw p {| u4_time := a; u4_mass := b; u4_length := c; u4_temp := d |}). split; reflexivity.
    + exists (PhUnitsEPBremss {| u4_time := a; u4_mass := b; u4_length := c; u4_temp := d |}). split; reflexivity.
Qed.

(** photons::SOpacity, likewise. *)
Lemma C47_photon_scattering_proof :
  forall (T : Type) (O : Ops T),
  (forall v : PhotonSAlt T,
     photon_s_alternative (ps_index v) (ps_variant v) /\
     (forall k, ps_IsType k v = true <-> k = ps_index v) /\
     ps_get (ps_index v) v = Ok (ps_variant v) /\
     (forall k, k <> ps_index v -> ps_get k v = Error)) /\
  (forall k o, photon_s_alternative k o -> exists v : PhotonSAlt T, ps_index v = k /\ ps_variant v = o).
Proof.
  intros T O. split.
  - intros v. split; [destruct v; constructor|]. split; [|split].
    + intros k. unfold ps_IsType. rewrite PeanoNat.Nat.eqb_eq. split; congruence.
    + unfold ps_get, ps_IsType. rewrite PeanoNat.Nat.eqb_refl. destruct v; reflexivity.
    + intros k H. unfold ps_get, ps_IsType. destruct (PeanoNat.Nat.eqb_spec (ps_index v) k); congruence.
  - intros k o [x y|x y|y|p y|x y a b c d|y a b c d|p y a b c d].
    + exists (PsScaleFree x y). split; reflexivity.
    + exists (PsGray x y). split; reflexivity.
    + exists (PsThomson y). split; reflexivity.
    + exists (PsPowerLaw p y). split; reflexivity.
    + exists (PsUnitsGray x y {| u4_time := a; u4_mass := b; u4_length := c; u4_temp := d |}). split; reflexivity.
    + exists (PsUnitsThomson y {| u4_time := a; u4_mass := b; u4_length := c; u4_temp := d |}). split; reflexivity.
    + exists (PsUnitsPowerLaw p y {| u4_time := a; u4_mass := b; u4_length := c; u4_temp := d |}). split; reflexivity.
Qed.

(** neutrinos::Opacity, likewise. *)
Lemma C47_neutrinos_proof :
  forall (T : Type) (O : Ops T),
  (forall v : NuAlt T,
     neutrino_alternative (nu_index v) (nu_variant v) /\
     (forall k, nu_IsType k v = true <-> k = nu_index v) /\
     nu_get (nu_index v) v = Ok (nu_variant v) /\
     (forall k, k <> nu_index v -> nu_get k v = Error)) /\
  (forall k o, neutrino_alternative k o -> exists v : NuAlt T, nu_index v = k /\ nu_variant v = o).
Proof.
  intros T O. split.
  - intros v. split; [destruct v; constructor|]. split; [|split].
    + intros k. unfold nu_IsType. rewrite PeanoNat.Nat.eqb_eq. split; congruence.
    + unfold nu_get, nu_IsType. rewrite PeanoNat.Nat.eqb_refl. destruct v; reflexivity.
    + intros k H. unfold nu_get, nu_IsType. destruct (PeanoNat.Nat.eqb_spec (nu_index v) k); congruence.
  - intros k o [x| |x|x y z|t|a b c d|x a b c d|x y z a b c d|t a b c d].
    + exists (NuScaleFree x). split; reflexivity.
    + exists NuBRT. split; reflexivity.
    + exists (NuGray x). split; reflexivity.
    + exists (NuTophat x y z). split; reflexivity.
    + exists (NuSpiner t). split; reflexivity.
    + exists (NuUnitsBRT {| u4_time := a; u4_mass := b; u4_length := c; u4_temp := d |}). split; reflexivity.
    + exists (NuUnitsGray x {| u4_time := a; u4_mass := b; u4_length := c; u4_temp := d |}). split; reflexivity.
    + exists (NuUnitsTophat x y z {| u4_time := a; u4_mass := b; u4_length := c; u4_temp := d |}). split; reflexivity.
    + exists (NuUnitsSpiner t {| u4_time := a; u4_mass := b; u4_length := c; u4_temp := d |}). split; reflexivity.
Qed.

(** neutrinos::SOpacity, likewise. *)
Lemma C47_neutrino_scattering_proof :
  forall (T : Type) (O : Ops T),
  (forall v : NuSAlt T,
     neutrino_s_alternative (ns_index v) (ns_variant v) /\
     (forall k, ns_IsType k v = true <-> k = ns_index v) /\
     ns_get (ns_index v) v = Ok (ns_variant v) /\
     (forall k, k <> ns_index v -> ns_get k v = Error)) /\
  (forall k o, neutrino_s_alternative k o -> exists v : NuSAlt T, ns_index v = k /\ ns_variant v = o).
Proof.
  intros T O. split.
  - intros v. split; [destruct v; constructor|]. split; [|split].
    + intros k. unfold ns_IsType. rewrite PeanoNat.Nat.eqb_eq. split; congruence.
    + unfold ns_get, ns_IsType. rewrite PeanoNat.Nat.eqb_refl. destruct v; reflexivity.
    + intros k H. unfold ns_get, ns_IsType. destruct (PeanoNat.Nat.eqb_spec (ns_index v) k); congruence.
  - intros k o [x y|x y|x y a b c d].
    + exists (NsScaleFree x y). split; reflexivity.
    + exists (NsGray x y). split; reflexivity.
    + exists (NsUnitsGray x y {| u4_time := a; u4_mass := b; u4_length := c; u4_temp := d |}). split; reflexivity.
Qed.

(** GetOnDevice gives a variant of the same type with the same members, in any arithmetic,
    and can be repeated. *)
Lemma C47_device_proof :
  forall (T : Type) (O : Ops T),
  (forall v : PhotonAlt T, ph_index (ph_GetOnDevice v) = ph_index v /\ ph_variant (ph_GetOnDevice v) = ph_variant v /\
     ph_GetOnDevice (ph_GetOnDevice v) = ph_GetOnDevice v) /\
  (forall v : PhotonSAlt T, ps_index (ps_GetOnDevice v) = ps_index v /\ ps_variant (ps_GetOnDevice v) = ps_variant v /\
     ps_GetOnDevice (ps_GetOnDevice v) = ps_GetOnDevice v) /\
  (forall v : NuAlt T, nu_index (nu_GetOnDevice v) = nu_index v /\ nu_variant (nu_GetOnDevice v) = nu_variant v /\
     nu_GetOnDevice (nu_GetOnDevice v) = nu_GetOnDevice v) /\
  (forall v : NuSAlt T, ns_index (ns_GetOnDevice v) = ns_index v /\ ns_variant (ns_GetOnDevice v) = ns_variant v /\
     ns_GetOnDevice (ns_GetOnDevice v) = ns_GetOnDevice v).
Proof.
  intros T O. split; [|split; [|split]]; intros v; destruct v; (split; [|split]); reflexivity.
Qed.

(** The mean-opacity variants, any arithmetic: every call answers as the table, or as the
    table behind its units, with the arguments unchanged. *)
Lemma C47_means_proof :
  forall (T : Type) (O : Ops T) (pc : PhysConst T),
  (forall (v : MeanAlt T) (o : MeanApi T),
     (exists m, v = MeanBase m /\ o = mean_api pc m) \/
     (exists m u, v = MeanUnits m u /\ o = MeanNonCGSUnits (mean_api pc m) u) ->
     (forall rho temp group gmode, mv_Coefficient pc v rho temp group gmode = ma_Coefficient o rho temp group gmode) /\
     (forall rho temp group, mv_PlanckGroup pc v rho temp group = ma_PlanckGroup o rho temp group) /\
     (forall rho temp group, mv_RosselandGroup pc v rho temp group = ma_RosselandGroup o rho temp group) /\
     (forall nu, mv_GroupOfNu pc v nu = ma_GroupOfNu o nu) /\
     (forall rho temp nu gmode, mv_FromNu pc v rho temp nu gmode = ma_FromNu o rho temp nu gmode) /\
     (forall rho temp nu, mv_PlanckFromNu pc v rho temp nu = ma_PlanckFromNu o rho temp nu) /\
     (forall rho temp nu, mv_RosselandFromNu pc v rho temp nu = ma_RosselandFromNu o rho temp nu) /\
     mv_ngroups pc v = ma_ngroups o /\ mv_HasGroupBounds pc v = ma_HasGroupBounds o /\ mv_RPC pc v = ma_RPC o /\
     (forall io, mv_Save pc v io = ma_Save o io)) /\
  (forall (v : NuMeanAlt T) (o : NuMeanApi T),
     (exists m, v = NuMeanBase m /\ o = nu_mean_api pc m) \/
     (exists m u, v = NuMeanUnits m u /\ o = NuMeanNonCGSUnits (nu_mean_api pc m) u) ->
     (forall rho temp Ye type, nmv_Planck pc v rho temp Ye type = na_Planck o rho temp Ye type) /\
     (forall rho temp Ye type, nmv_Rosseland pc v rho temp Ye type = na_Rosseland o rho temp Ye type) /\
     nmv_RPC pc v = na_RPC o /\ (forall io, nmv_Save pc v io = na_Save o io)).
Proof.
  intros T O pc. split; intros v o [(m & -> & ->)|(m & u & -> & ->)]; repeat split; reflexivity.
Qed.

(** GetOnDevice of the mean-opacity variants: the same object again, for units as the
    constructor makes them. *)
Lemma C47_means_device_proof :
  forall (T : Type) (O : Ops T),
  (forall m : MeanTable T, mean_GetOnDevice (MeanBase m) = MeanBase m) /\
  (forall (m : MeanTable T) t k l q, mean_GetOnDevice (MeanUnits m (mk_units t k l q)) = MeanUnits m (mk_units t k l q)) /\
  (forall m : NuMeanTable T, nu_mean_GetOnDevice (NuMeanBase m) = NuMeanBase m) /\
  (forall (m : NuMeanTable T) t k l q, nu_mean_GetOnDevice (NuMeanUnits m (mk_units t k l q)) = NuMeanUnits m (mk_units t k l q)).
Proof. intros T O. repeat split; intros m; destruct m; reflexivity. Qed.

(** The exception: AbsorptionCoefficient of the mean photon variant with three arguments is
    not the object's call with the same three arguments (two groups, exact arithmetic; no
    error on either side). *)
Lemma C47_means_refuted_proof :
  ~ (forall (m : MeanTable ER) (pc : PhysConst ER) (rho temp : R) (k : Z),
     constructed m -> 0 < rho -> 0 < temp -> (0 <= k < mt_ngroups m)%Z ->
     mv_Coefficient3 pc (MeanBase m) (Fin rho) (Fin temp) k = ma_Coefficient3 (mean_api pc m) (Fin rho) (Fin temp) k).
Proof.
  intros H. destruct C30_variant_refuted_proof as (m & rho & temp & a & b & C & N & P & Q & D & E).
  destruct (E PhysicalConstantsCGS) as [E1 E2].
  specialize (H m PhysicalConstantsCGS rho temp 1%Z C P Q). rewrite E1, E2 in H. rewrite N in H.
  assert (K : @Ok ER (Fin b) = Ok (Fin a)) by (apply H; lia). congruence.
Qed.

(** A wrapped power law held by the variant, copied to the device, asked for its type. *)
Lemma C47_photons_example :
  let p := {| pl_kappa0 := Fin 2; pl_rho_exp := Fin 1; pl_temp_exp := Fin (-3); pl_rho_ref := Fin 1; pl_rho_off := Fin 0;
    pl_temp_ref := Fin 1; pl_temp_off := Fin 0; pl_nu_exp := Fin 0; pl_nu_ref := Fin 1; pl_nu_off := Fin 0;
    pl_do_stim_emit := false |} in
  let v := PhUnitsPowerLaw p {| u4_time := Fin 5; u4_mass := Fin 7; u4_length := Fin 11; u4_temp := Fin 13 |} in
  ph_IsType 6 (ph_GetOnDevice v) = true /\ ph_IsType 3 (ph_GetOnDevice v) = false /\ ph_get 3 v = Error /\
  ph_variant (ph_GetOnDevice v) =
    NonCGSUnits PhysicalConstantsCGS (PowerLawOpacity PhysicalConstantsCGS p) (mk_units (Fin 5) (Fin 7) (Fin 11) (Fin 13)).
Proof. repeat split; reflexivity. Qed.
