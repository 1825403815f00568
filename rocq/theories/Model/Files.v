(** HDF5 files with named datasets: base/sp5.hpp, and the constructors from a file and Save of
    photons/mean_opacity_photons.hpp 72-122, photons/mean_s_opacity_photons.hpp 67-114,
    neutrinos/mean_opacity_neutrinos.hpp 67-92, neutrinos/mean_s_opacity_neutrinos.hpp 67-92 and
    neutrinos/spiner_opac_neutrinos.hpp 159-172, 380-392. This is the level below the records
    MeanFile and NuMeanFile of the other files, which have one field per dataset.

    Simplifications: a dataset is a whole DataBox under one name (Spiner writes a group). The HDF5
    library is an oracle [H5] that says which calls fail for reasons of their own; besides, a
    lookup of an absent name and a creation under a name in use fail. A failed saveHDF writes
    nothing. Failures are negative, successes zero. *)
From Coq Require Import ZArith List String Bool.
From Verif Require Import Base.Outcome Base.Ops Model.Spiner Model.MeanPhotons Model.MeanNeutrinos Model.SpinerNeutrinos.
Import ListNotations.

(** sp5.hpp 23-28, 32-33, 37-38, 42-44, 48-50 *)
Definition SP5_AbsorptionCoefficient := "absorption coefficient"%string.
Definition SP5_EmissivityPerNu := "emissivity per nu"%string.
Definition SP5_TotalEmissivity := "total emissivity"%string.
Definition SP5_NumberEmissivity := "number emissivity"%string.
Definition SP5_PlanckMeanOpacity := "Planck mean opacity"%string.
Definition SP5_RosselandMeanOpacity := "Rosseland mean opacity"%string.
Definition SP5_PlanckMeanSOpacity := "Planck mean scattering opacity"%string.
Definition SP5_RosselandMeanSOpacity := "Rosseland mean scattering opacity"%string.
Definition SP5_PlanckGroupOpacity := "Planck group opacity"%string.
Definition SP5_RosselandGroupOpacity := "Rosseland group opacity"%string.
Definition SP5_GroupBounds := "group bounds"%string.
Definition SP5_PlanckGroupSOpacity := "Planck group scattering opacity"%string.
Definition SP5_RosselandGroupSOpacity := "Rosseland group scattering opacity"%string.
Definition SP5_GroupBoundsS := "group bounds"%string.

(** which calls succeed: H5Fopen or H5Fcreate, H5Fclose, and the k-th loadHDF or saveHDF *)
Record H5 := { h5_open : bool; h5_close : bool; h5_data : nat -> bool }.

Section Files.
  Context {T : Type} {O : Ops T}.

  Definition H5File := list (string * DataBox T).
  Definition FileSystem := string -> option H5File.
  Definition empty_file : H5File := [].
  Definition put (fs : FileSystem) (path : string) (f : H5File) : FileSystem :=
    fun q => if String.eqb q path then Some f else fs q.
  Fixpoint dataset (f : H5File) (name : string) : option (DataBox T) :=
    match f with
    | [] => None
    | (n, b) :: f => if String.eqb n name then Some b else dataset f name
    end.

  (** hdf5.h: SUCCEED *)
  Definition H5_SUCCESS : Z := 0.
  Definition herr (ok : bool) : Z := if ok then H5_SUCCESS else -1.
  Definition is_open (file : option H5File) : bool := match file with Some _ => true | None => false end.

  (** DataBox::loadHDF *)
  Definition loadHDF (ok : bool) (file : option H5File) (name : string) : Z * option (DataBox T) :=
    match file with
    | None => (-1, None)%Z
    | Some f => match dataset f name with
                | Some b => if ok then (H5_SUCCESS, Some b) else (-1, None)%Z
                | None => (-1, None)%Z
                end
    end.
  (** DataBox::saveHDF *)
  Definition saveHDF (ok : bool) (file : option H5File) (name : string) (b : DataBox T) : Z * option H5File :=
    match file with
    | None => (-1, None)%Z
    | Some f => match dataset f name with
                | Some _ => (-1, Some f)%Z
                | None => if ok then (H5_SUCCESS, Some (f ++ [(name, b)])) else (-1, Some f)%Z
                end
    end.

  (** the loads in order, [k] calls having been made; the status is accumulated *)
  Fixpoint load_each (h : H5) (k : nat) (file : option H5File) (status : Z) (names : list string)
    : Z * list (option (DataBox T)) :=
    match names with
    | [] => (status, [])
    | n :: names =>
      let r := loadHDF (h5_data h k) file n in
      let rest := load_each h (S k) file (status + fst r) names in
      (fst rest, snd r :: snd rest)
    end.
  (** H5Fopen, the loads, H5Fclose *)
  Definition read_file (h : H5) (fs : FileSystem) (path : string) (names : list string)
    : Z * list (option (DataBox T)) :=
    let file := if h5_open h then fs path else None in
    let r := load_each h 0 file H5_SUCCESS names in
    ((fst r + herr (is_open file && h5_close h))%Z, snd r).

  Fixpoint save_each (h : H5) (k : nat) (file : option H5File) (status : Z) (boxes : list (string * DataBox T))
    : Z * option H5File :=
    match boxes with
    | [] => (status, file)
    | (n, b) :: boxes =>
      let r := saveHDF (h5_data h k) file n b in
      save_each h (S k) (snd r) (status + fst r) boxes
    end.
  (** H5Fcreate with H5F_ACC_TRUNC, the saves, H5Fclose *)
  Definition write_file (h : H5) (fs : FileSystem) (path : string) (boxes : list (string * DataBox T))
    : Z * FileSystem :=
    let file := if h5_open h then Some empty_file else None in
    let r := save_each h 0 file H5_SUCCESS boxes in
    ((fst r + herr (is_open file && h5_close h))%Z,
     match snd r with Some f => put fs path f | None => fs end).

  Definition reported (status : Z) : result unit := if (status =? H5_SUCCESS)%Z then Ok tt else Error.

  (** ** Photon means. [scattering] selects the class: mean_opacity_photons.hpp, mean_s_opacity_photons.hpp *)
  Definition photon_names (scattering : bool) : string * string * string :=
    if scattering then (SP5_PlanckGroupSOpacity, SP5_RosselandGroupSOpacity, SP5_GroupBoundsS)
    else (SP5_PlanckGroupOpacity, SP5_RosselandGroupOpacity, SP5_GroupBounds).
  (** constructors 72-96 / 67-88 *)
  Definition photon_load (scattering : bool) (h : H5) (fs : FileSystem) (path : string) : result (MeanTable T) :=
    let '(np, nr, ng) := photon_names scattering in
    let r := read_file h fs path [np; nr; ng] in
    _ <- reported (fst r) ;;
    match snd r with
    | [Some p; Some r; Some g] => LoadTables p r (db_data g)
    | _ => UB
    end.
  (** the box of group bounds, mean_photon_utils.hpp 100 *)
  Definition bounds_box (b : list T) : DataBox T :=
    {| db_dims := [Z.of_nat (List.length b)]; db_ranges := [None]; db_data := b |}.
  (** Save, 98-122 / 90-114 *)
  Definition photon_save (scattering : bool) (h : H5) (fs : FileSystem) (path : string) (m : MeanTable T)
    : FileSystem * result unit :=
    let '(np, nr, ng) := photon_names scattering in
    match ExportTables m with
    | Ok (p, r, b) =>
      let w := write_file h fs path [(np, p); (nr, r); (ng, bounds_box b)] in
      (snd w, reported (fst w))
    | Error => (fs, Error)
    | UB => (fs, UB)
    end.

  (** ** Neutrino means: mean_opacity_neutrinos.hpp / mean_s_opacity_neutrinos.hpp *)
  Definition neutrino_names (scattering : bool) : string * string :=
    if scattering then (SP5_PlanckMeanSOpacity, SP5_RosselandMeanSOpacity)
    else (SP5_PlanckMeanOpacity, SP5_RosselandMeanOpacity).
  (** 67-78 / 67-78 *)
  Definition neutrino_load (scattering : bool) (h : H5) (fs : FileSystem) (path : string) : result (NuMeanTable T) :=
    let '(np, nr) := neutrino_names scattering in
    let r := read_file h fs path [np; nr] in
    _ <- reported (fst r) ;;
    match snd r with
    | [Some p; Some r] => Ok {| nm_lPlanck := p; nm_lRosseland := r |}
    | _ => UB
    end.
  (** 80-92 / 80-92 *)
  Definition neutrino_save (scattering : bool) (h : H5) (fs : FileSystem) (path : string) (m : NuMeanTable T)
    : FileSystem * result unit :=
    let '(np, nr) := neutrino_names scattering in
    let w := write_file h fs path [(np, nm_lPlanck m); (nr, nm_lRosseland m)] in
    (snd w, reported (fst w)).

  (** ** Tabulated neutrino opacity: spiner_opac_neutrinos.hpp 380-392, 159-172 *)
  Definition table_load (h : H5) (fs : FileSystem) (path : string) : result (SpinerTables T) :=
    let r := read_file h fs path
      [SP5_AbsorptionCoefficient; SP5_EmissivityPerNu; SP5_TotalEmissivity; SP5_NumberEmissivity] in
    _ <- reported (fst r) ;;
    match snd r with
    | [Some a; Some j; Some J; Some JYe] => Ok {| sp_alpha := a; sp_jnu := j; sp_J := J; sp_JYe := JYe |}
    | _ => UB
    end.
  Definition table_save (h : H5) (fs : FileSystem) (path : string) (t : SpinerTables T) : FileSystem * result unit :=
    let w := write_file h fs path
      [(SP5_AbsorptionCoefficient, sp_alpha t); (SP5_EmissivityPerNu, sp_jnu t);
       (SP5_TotalEmissivity, sp_J t); (SP5_NumberEmissivity, sp_JYe t)] in
    (snd w, reported (fst w)).
End Files.
Arguments H5File : clear implicits.
Arguments FileSystem : clear implicits.
