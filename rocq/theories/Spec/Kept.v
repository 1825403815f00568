(** What a saved object should be read back as. *)
From Coq Require Import ZArith List String Bool.
From Verif Require Import Base.Outcome Base.Ops Model.Spiner Model.MeanPhotons Model.MeanNeutrinos Model.SpinerNeutrinos Model.Files.
Import ListNotations.

Section Kept.
  Context {T : Type} {O : Ops T}.

  (** the classes with files; [true]: scattering *)
  Inductive kind := PhotonMeans (scattering : bool) | NeutrinoMeans (scattering : bool) | NeutrinoTables.
  Inductive thing :=
  | PhotonThing (scattering : bool) (m : MeanTable T)
  | NeutrinoThing (scattering : bool) (m : NuMeanTable T)
  | TableThing (t : SpinerTables T).
  Definition kind_of (x : thing) : kind :=
    match x with PhotonThing s _ => PhotonMeans s | NeutrinoThing s _ => NeutrinoMeans s | TableThing _ => NeutrinoTables end.

  Definition save_thing (h : H5) (fs : FileSystem T) (path : string) (x : thing) : FileSystem T * result unit :=
    match x with
    | PhotonThing s m => photon_save s h fs path m
    | NeutrinoThing s m => neutrino_save s h fs path m
    | TableThing t => table_save h fs path t
    end.
  Definition load_as (k : kind) (h : H5) (fs : FileSystem T) (path : string) : result thing :=
    match k with
    | PhotonMeans s => m <- photon_load s h fs path ;; Ok (PhotonThing s m)
    | NeutrinoMeans s => m <- neutrino_load s h fs path ;; Ok (NeutrinoThing s m)
    | NeutrinoTables => t <- table_load h fs path ;; Ok (TableThing t)
    end.

  (** neutrino objects are to come back as they were; photon means as C36 says of a file
      that has one field per dataset *)
  Definition kept (x : thing) : result thing :=
    match x with
    | PhotonThing s m => f <- Save true m ;; m' <- LoadFile (Some f) ;; Ok (PhotonThing s m')
    | x => Ok x
    end.

  (** how many datasets an object has *)
  Definition datasets_of (k : kind) : nat :=
    match k with PhotonMeans _ => 3 | NeutrinoMeans _ => 2 | NeutrinoTables => 4 end.
  (** every HDF5 call that is made succeeds *)
  Definition no_failure (h : H5) (k : kind) : Prop :=
    h5_open h = true /\ h5_close h = true /\ forall i, (i < datasets_of k)%nat -> h5_data h i = true.
End Kept.
Arguments thing : clear implicits.
