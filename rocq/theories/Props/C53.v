(** C53. Saved tables are read back only as what they are. *)
From Coq Require Import ZArith List String Bool Lia Reals.
From Verif Require Import Proofs.C53 Base.Outcome Base.Ops Inst.ER Model.Spiner Model.MeanUtils Model.MeanPhotons Model.MeanNeutrinos Model.SpinerNeutrinos Model.Files
  Spec.Kept Spec.Groups Spec.Tables Spec.TableShape Proofs.OrderLaws Proofs.TableFacts Proofs.C35 Proofs.C36 Proofs.C37.
Import ListNotations.
Open Scope Z_scope.

(** Nothing failing, whatever the file system held before: an object saved and loaded as its own
    kind is the one C36 describes, neutrino objects unchanged bit for bit; other files are left
    alone. In any arithmetic. *)
Theorem C53_round_trip :
  forall (T : Type) (O : Ops T) (h h' : H5) (fs : FileSystem T) (path : string) (x : thing T),
  no_failure h (kind_of x) -> no_failure h' (kind_of x) ->
  let saved := save_thing h fs path x in
  (_ <- snd saved ;; load_as (kind_of x) h' (fst saved) path) = kept x /\
  forall q, q <> path -> fst saved q = fs q.
Proof. exact C53_round_trip_proof. Qed.
Print Assumptions C53_round_trip.

(** With C36: photon means in order come back with the same groups, bounds, dimensions and grids,
    every stored logarithm x having become ToLog(FromLog(x)); in exact arithmetic and in binary64. *)
Theorem C53_photon :
  forall (T : Type) (O : Ops T) (val : T -> ER), values O val ->
  forall (h h' : H5) (fs : FileSystem T) (path : string) (scattering : bool) (m : MeanTable T),
  in_order val m -> no_failure h (PhotonMeans scattering) -> no_failure h' (PhotonMeans scattering) ->
  snd (photon_save scattering h fs path m) = Ok tt /\
  photon_load scattering h' (fst (photon_save scattering h fs path m)) path = Ok (remap (fun x => ToLog (FromLog x)) m).
Proof. exact C53_photon_proof. Qed.
Print Assumptions C53_photon.

(** Any HDF5 call may fail, on saving and on loading. Either nothing was written and the save
    did not report success, or loading the file as any other kind is an error, and loading it as
    its own kind is an error or gives the object the failure-free round trip gives: never a
    mixture, never undefined behaviour of its own. *)
Theorem C53_failures :
  forall (T : Type) (O : Ops T) (h : H5) (fs : FileSystem T) (path : string) (x : thing T),
  let saved := save_thing h fs path x in
  (fst saved = fs /\ snd saved <> Ok tt) \/
  (forall k h', k <> kind_of x -> load_as k h' (fst saved) path = Error) /\
  (forall h', load_as (kind_of x) h' (fst saved) path = Error \/ load_as (kind_of x) h' (fst saved) path = kept x).
Proof. exact C53_failures_proof. Qed.
Print Assumptions C53_failures.

(** A save reports success exactly when no call failed and the object could be exported; a load
    succeeds only if no call failed and every dataset of the class is in the file. *)
Theorem C53_reported :
  forall (T : Type) (O : Ops T) (h : H5) (fs : FileSystem T) (path : string),
  (forall x, (exists y, kept x = Ok y) ->
    (snd (save_thing h fs path x) = Ok tt <-> no_failure h (kind_of x))) /\
  (forall k y, load_as k h fs path = Ok y -> no_failure h k /\ kind_of y = k /\ exists f, fs path = Some f) /\
  (forall k, ~ no_failure h k \/ fs path = None -> load_as k h fs path = Error).
Proof. exact C53_reported_proof. Qed.
Print Assumptions C53_reported.

(** A load looks at the datasets of its class only: two files with the same datasets under those
    names, in any order and among any others, load alike. *)
Theorem C53_only_own_datasets :
  forall (T : Type) (O : Ops T) (k : kind) (h : H5) (fs fs' : FileSystem T) (path path' : string) (f f' : H5File T),
  fs path = Some f -> fs' path' = Some f' ->
  (forall n, In n ["absorption coefficient"; "emissivity per nu"; "total emissivity"; "number emissivity";
                   "Planck mean opacity"; "Rosseland mean opacity"; "Planck mean scattering opacity";
                   "Rosseland mean scattering opacity"; "Planck group opacity"; "Rosseland group opacity"; "group bounds";
                   "Planck group scattering opacity"; "Rosseland group scattering opacity"]%string ->
    dataset f n = dataset f' n) ->
  load_as k h fs path = load_as k h fs' path'.
Proof. exact C53_only_own_datasets_proof. Qed.
Print Assumptions C53_only_own_datasets.

(** Save truncates first: when a write then fails, the file that was there is lost, and so is
    the object that was in it. *)
Theorem C53_failed_save_loses :
  forall (T : Type) (O : Ops T) (h h' : H5) (fs : FileSystem T) (path : string) (x : thing T) (k : kind),
  (exists y, kept x = Ok y) -> h5_open h = true -> h5_data h 0 = false ->
  snd (save_thing h fs path x) = Error /\ load_as k h' (fst (save_thing h fs path x)) path = Error.
Proof. exact C53_failed_save_loses_proof. Qed.
Print Assumptions C53_failed_save_loses.

Example C53_round_trip_example_holds :
  let fs1 := fst (table_save all_well nothing "a" small_tables) in
  let fs2 := fst (neutrino_save true all_well fs1 "a" small_nu) in
  let fs3 := fst (neutrino_save false second_fails fs2 "a" small_nu) in
  no_failure all_well NeutrinoTables /\ table_load all_well fs1 "a" = Ok small_tables /\
  neutrino_load true all_well fs1 "a" = Error /\ neutrino_load true all_well fs2 "a" = Ok small_nu /\
  neutrino_load false all_well fs2 "a" = Error /\ table_load all_well fs2 "a" = Error /\
  snd (neutrino_save false second_fails fs2 "a" small_nu) = Error /\ neutrino_load false all_well fs3 "a" = Error /\
  neutrino_load true all_well fs3 "a" = Error.
Proof. exact C53_round_trip_example. Qed.

(** a photon table of two groups *)
Example C53_photon_example_holds :
  exists m : MeanTable ER, in_order (fun x => x) m /\ mt_ngroups m = 2 /\
  photon_load true all_well (fst (photon_save true all_well nothing "b" m)) "b" = Ok (remap (fun x => ToLog (FromLog x)) m) /\
  photon_load false all_well (fst (photon_save true all_well nothing "b" m)) "b" = Error.
Proof. exact C53_photon_example. Qed.
