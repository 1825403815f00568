(** Who owns the storage of the tables: construction, copies, GetOnDevice, Finalize and Save of
    photons/mean_opacity_photons.hpp, photons/mean_s_opacity_photons.hpp,
    neutrinos/mean_opacity_neutrinos.hpp, neutrinos/mean_s_opacity_neutrinos.hpp,
    neutrinos/spiner_opac_neutrinos.hpp, of the wrappers and variants around them, and of the
    indexers of base/indexers.hpp. The numbers are modelled elsewhere; here a table is one opaque
    value of type [D] (shape, ranges and data together), and what decides whether a constructor
    throws is an argument of the constructor.

    The assumptions about Spiner::DataBox and the C runtime are the functions of the first part:
    - copying a DataBox copies the pointer and the status, and destroying one frees nothing;
    - finalize frees the storage if the box is marked as allocated and marks it as empty; on any
      other box it does nothing, or fails an assertion when [strict];
    - getOnDeviceDataBox makes a copy with its own storage (an empty box gives an empty box);
    - a loadHDF that fails leaves the box empty;
    - reading or freeing storage that is not there, or reading an empty box, is undefined, which is [Invalid]; storage is
      never handed out twice, so a stale pointer stays stale;
    - H5Fclose closes the file whatever status it returns.
    Simplifications: resize or copyMetadata and the loop that fills the box are one step, [resize];
    storage on the device is not told apart from storage on the host, nor are the two Finalize of
    host and device. The exceptions are those of OPAC_ERROR under SINGULARITY_ENABLE_EXCEPTIONS
    (base/opac_error.hpp 22-24); without it the program ends there. *)
From Coq Require Import List Arith Bool.
Import ListNotations.

Inductive Status := Empty | Unmanaged | Allocated.
Record Box := { bx_status : Status; bx_block : nat }.
(** DataBox() *)
Definition empty_box : Box := {| bx_status := Empty; bx_block := 0 |}.

(** Every object of the library that may hold tables. [PhotonMean] stands for MeanOpacity and MeanSOpacity
    of photons (mean_opacity_photons.hpp 404-406, mean_s_opacity_photons.hpp 346-348), [NeutrinoMean] for
    those of neutrinos (mean_opacity_neutrinos.hpp 224-225, mean_s_opacity_neutrinos.hpp 214-215), [Tabulated] for SpinerOpacity
    (spiner_opac_neutrinos.hpp 557), [Single] for the indexers (indexers.hpp 82, 122) and for a DataBox
    of the caller, [Wrapper] for NonCGSUnits and the like and for the variants, [Analytic] for the opacities
    without storage. *)
Inductive Obj :=
| Analytic
| PhotonMean (lPlanck lRosseland bounds : Box)
| NeutrinoMean (lPlanck lRosseland : Box)
| Tabulated (lalphanu ljnu lJ lJYe : Box)
| Single (data : Box)
| Wrapper (o : Obj).

Section Lifetime.
  Context {D : Type}.

  (** storage: which blocks hold what, and how many HDF5 files are open *)
  Record Heap := { hp_next : nat; hp_data : nat -> option D; hp_files : nat }.
  Inductive Run (A : Type) :=
  | Done (a : A) (h : Heap)
  | Threw (h : Heap)
  | Invalid.
  Arguments Done {A} a h.
  Arguments Threw {A} h.
  Arguments Invalid {A}.
  Definition St (A : Type) := Heap -> Run A.
  Definition ret {A} (a : A) : St A := fun h => Done a h.
  Definition bind {A B} (m : St A) (k : A -> St B) : St B :=
    fun h => match m h with Done a h => k a h | Threw h => Threw h | Invalid => Invalid end.
  (** OPAC_ERROR *)
  Definition throw {A} : St A := fun h => Threw h.
  Definition invalid {A} : St A := fun _ => Invalid.
  Local Notation "x <-- m ;; k" := (bind m (fun x => k)) (at level 61, m at next level, right associativity).
  Local Notation "m ;;; k" := (bind m (fun _ => k)) (at level 61, right associativity).

  Definition update (f : nat -> option D) (k : nat) (v : option D) : nat -> option D :=
    fun i => if i =? k then v else f i.

  (** ** DataBox and HDF5 *)
  (** DataBox(AllocationTarget, sizes...), DataBox(sizes...) *)
  Definition allocate (d : D) : St Box :=
    fun h => Done {| bx_status := Allocated; bx_block := hp_next h |}
                  {| hp_next := S (hp_next h); hp_data := update (hp_data h) (hp_next h) (Some d);
                     hp_files := hp_files h |}.
  Definition free (k : nat) : St unit :=
    fun h => match hp_data h k with
             | Some _ => Done tt {| hp_next := hp_next h; hp_data := update (hp_data h) k None; hp_files := hp_files h |}
             | None => Invalid
             end.
  Definition finalize (strict : bool) (b : Box) : St Box :=
    match bx_status b with
    | Allocated => free (bx_block b) ;;; ret empty_box
    | _ => if strict then invalid else ret empty_box
    end.
  (** resize or copyMetadata, and filling *)
  Definition resize (b : Box) (d : D) : St Box :=
    match bx_status b with
    | Allocated => free (bx_block b) ;;; allocate d
    | _ => allocate d
    end.
  Definition read (b : Box) : St D :=
    match bx_status b with
    | Empty => invalid
    | _ => fun h => match hp_data h (bx_block b) with Some d => Done d h | None => Invalid end
    end.
  (** getOnDeviceDataBox *)
  Definition getOnDevice (b : Box) : St Box :=
    match bx_status b with
    | Empty => ret empty_box
    | _ => d <-- read b ;; allocate d
    end.
  (** loadHDF of a dataset holding [d], or failing; true = success *)
  Definition loadHDF (b : Box) (d : option D) : St (Box * bool) :=
    match d with
    | Some d => b <-- resize b d ;; ret (b, true)
    | None => ret (b, false)
    end.
  (** H5Fopen and H5Fcreate, which may fail; H5Fclose of what they returned *)
  Definition openFile (ok : bool) : St bool :=
    fun h => if ok then Done true {| hp_next := hp_next h; hp_data := hp_data h; hp_files := S (hp_files h) |}
             else Done false h.
  Definition closeFile (opened ok : bool) : St bool :=
    fun h => if opened then Done ok {| hp_next := hp_next h; hp_data := hp_data h; hp_files := pred (hp_files h) |}
             else Done false h.

  (** ** The classes *)
  (** how the constructors transform tables, and which tables they accept: LoadTables of Model/MeanPhotons.v *)
  Context (to_log from_log : D -> D) (acceptable : D -> D -> D -> bool) (strict : bool).

  (** mean_opacity_photons.hpp 310-401, mean_s_opacity_photons.hpp 252-343. [early]: NNuPerGroup or the bounds are refused
      (322-325 / 264-267); [nan]: the loops meet a NaN (395-398 / 337-340) *)
  Definition photon_average (early nan : bool) (p r g : D) : St Obj :=
    if early then throw
    else
      gb <-- resize empty_box g ;;
      pb <-- resize empty_box p ;;
      rb <-- resize empty_box r ;;
      if nan then throw else ret (PhotonMean pb rb gb).
  (** LoadOpacityTables_ 284-297, LoadScatteringTables_ mean_s_opacity_photons.hpp 226-239; also the constructors
      from tables 62-69 / 61-65 *)
  Definition photon_tables (p r g : Box) : St Obj :=
    dp <-- read p ;;
    dr <-- read r ;;
    dg <-- read g ;;
    if negb (acceptable dp dr dg) then throw
    else
      gb <-- resize empty_box dg ;;
      pb <-- resize empty_box (to_log dp) ;;
      rb <-- resize empty_box (to_log dr) ;;
      ret (PhotonMean pb rb gb).
  (** what a file holds: whether it opens and closes, and the datasets in the order they are read *)
  Record File := { fl_open : bool; fl_close : bool; fl_data : nat -> option D }.
  Definition stored (f : File) (opened : bool) (k : nat) : option D := if opened then fl_data f k else None.
  (** mean_opacity_photons.hpp 72-96, mean_s_opacity_photons.hpp 67-88 *)
  Definition photon_file (f : File) : St Obj :=
    o <-- openFile (fl_open f) ;;
    p <-- loadHDF empty_box (stored f o 0) ;;
    r <-- loadHDF empty_box (stored f o 1) ;;
    g <-- loadHDF empty_box (stored f o 2) ;;
    c <-- closeFile o (fl_close f) ;;
    if negb (snd p && snd r && snd g && c) then throw
    else
      m <-- photon_tables (fst p) (fst r) (fst g) ;;
      finalize strict (fst g) ;;;
      finalize strict (fst p) ;;;
      finalize strict (fst r) ;;;
      ret m.
  (** mean_opacity_photons.hpp 98-121, mean_s_opacity_photons.hpp 90-113; mean_photon_utils.hpp 97-104. [ok]: H5Fcreate
      and H5Fclose and the writes succeed. The result is what is written. *)
  Definition photon_save (created closed written : bool) (p r g : Box) : St (list D) :=
    dp <-- read p ;;
    dr <-- read r ;;
    tp <-- resize empty_box (from_log dp) ;;
    tr <-- resize empty_box (from_log dr) ;;
    dg <-- read g ;;
    tg <-- resize empty_box dg ;;
    o <-- openFile created ;;
    wp <-- read tp ;;
    wr <-- read tr ;;
    wg <-- read tg ;;
    c <-- closeFile o closed ;;
    finalize strict tp ;;;
    finalize strict tr ;;;
    finalize strict tg ;;;
    if o && written && c then ret [wp; wr; wg] else throw.

  (** mean_opacity_neutrinos.hpp 138-217, mean_s_opacity_neutrinos.hpp 133-207 *)
  Definition neutrino_average (nan : bool) (p r : D) : St Obj :=
    pb <-- resize empty_box p ;;
    rb <-- resize empty_box r ;;
    if nan then throw else ret (NeutrinoMean pb rb).
  (** mean_opacity_neutrinos.hpp 67-78, mean_s_opacity_neutrinos.hpp 67-78 *)
  Definition neutrino_file (f : File) : St Obj :=
    o <-- openFile (fl_open f) ;;
    p <-- loadHDF empty_box (stored f o 0) ;;
    r <-- loadHDF empty_box (stored f o 1) ;;
    c <-- closeFile o (fl_close f) ;;
    if negb (snd p && snd r && c) then throw else ret (NeutrinoMean (fst p) (fst r)).

  (** the tabulating constructor, spiner_opac_neutrinos.hpp 81-137 *)
  Definition tabulate (a j J JYe : D) : St Obj :=
    ab <-- resize empty_box a ;;
    jb <-- resize empty_box j ;;
    Jb <-- resize empty_box J ;;
    Yb <-- resize empty_box JYe ;;
    ret (Tabulated ab jb Jb Yb).
  (** LoadFromSP5_, 380-392 *)
  Definition spiner_file (f : File) : St Obj :=
    o <-- openFile (fl_open f) ;;
    a <-- loadHDF empty_box (stored f o 0) ;;
    j <-- loadHDF empty_box (stored f o 1) ;;
    J <-- loadHDF empty_box (stored f o 2) ;;
    Y <-- loadHDF empty_box (stored f o 3) ;;
    c <-- closeFile o (fl_close f) ;;
    if negb (snd a && snd j && snd J && snd Y && c) then throw
    else ret (Tabulated (fst a) (fst j) (fst J) (fst Y)).
  (** a NuLib file: whether it opens and closes, whether the sizes and bounds (398-408), the emissivities (418) and
      the opacities (423-424) can be read; the contents of the two buffers and of the four tables *)
  Record NuLib := { nl_open : bool; nl_close : bool; nl_header : bool; nl_emissivities : bool; nl_opacities : bool;
                    nl_jnu : D; nl_kappa : D; nl_tables : D * D * D * D }.
  (** LoadFromNuLib_, 394-470: the buffers jnu_file and kappa_file are not finalized *)
  Definition nulib_file (f : NuLib) : St Obj :=
    o <-- openFile (nl_open f) ;;
    if negb (o && nl_header f) then throw
    else
      jnu <-- allocate (nl_jnu f) ;;
      if negb (nl_emissivities f) then throw
      else
        kappa <-- allocate (nl_kappa f) ;;
        if negb (nl_opacities f) then throw
        else
          c <-- closeFile o (nl_close f) ;;
          if negb c then throw
          else
            let '(a, j, J, Y) := nl_tables f in
            ab <-- resize empty_box a ;;
            jb <-- resize empty_box j ;;
            Jb <-- resize empty_box J ;;
            Yb <-- resize empty_box Y ;;
            read jnu ;;;
            read kappa ;;;
            ret (Tabulated ab jb Jb Yb).

  (** Save of the neutrino means (mean_opacity_neutrinos.hpp 80-92, mean_s_opacity_neutrinos.hpp 80-92) and of
      SpinerOpacity (159-172): the boxes are written as they are *)
  Fixpoint read_all (bs : list Box) : St (list D) :=
    match bs with
    | [] => ret []
    | b :: bs => d <-- read b ;; ds <-- read_all bs ;; ret (d :: ds)
    end.
  Definition plain_save (created closed written : bool) (bs : list Box) : St (list D) :=
    o <-- openFile created ;;
    ds <-- read_all bs ;;
    c <-- closeFile o closed ;;
    if o && written && c then ret ds else throw.
  (** The wrappers and variants of the means forward Save (photons/non_cgs_photons.hpp 275-277,
      neutrinos/non_cgs_neutrinos.hpp 277-279, photons/mean_photon_variant.hpp 180-183,
      neutrinos/mean_neutrino_variant.hpp 102-105); the other wrappers and the objects without tables have none, which is
      [invalid]. (Those of the scattering means have none either, which is not told apart.) *)
  Fixpoint Save (created closed written : bool) (o : Obj) : St (list D) :=
    match o with
    | PhotonMean p r g => photon_save created closed written p r g
    | NeutrinoMean p r => plain_save created closed written [p; r]
    | Tabulated a j J Y => plain_save created closed written [a; j; J; Y]
    | Wrapper (Tabulated _ _ _ _) => invalid
    | Wrapper o => Save created closed written o
    | Analytic | Single _ => invalid
    end.

  (** mean_opacity_photons.hpp 130-137, mean_s_opacity_photons.hpp 122-129, mean_opacity_neutrinos.hpp 99-104,
      mean_s_opacity_neutrinos.hpp 99-104, spiner_opac_neutrinos.hpp 181-189; non_cgs_photons.hpp 50-53, 255-258 and the
      like; photon_variant.hpp 67-71 and the like; gray_opacity_photons.hpp 39 and the like. For [Single]:
      getOnDeviceDataBox called by the caller. *)
  Fixpoint GetOnDevice (o : Obj) : St Obj :=
    match o with
    | Analytic => ret Analytic
    | PhotonMean p r g =>
      p <-- getOnDevice p ;; r <-- getOnDevice r ;; g <-- getOnDevice g ;; ret (PhotonMean p r g)
    | NeutrinoMean p r => p <-- getOnDevice p ;; r <-- getOnDevice r ;; ret (NeutrinoMean p r)
    | Tabulated a j J Y =>
      a <-- getOnDevice a ;; j <-- getOnDevice j ;; J <-- getOnDevice J ;; Y <-- getOnDevice Y ;; ret (Tabulated a j J Y)
    | Single b => b <-- getOnDevice b ;; ret (Single b)
    | Wrapper o => o <-- GetOnDevice o ;; ret (Wrapper o)
    end.
  (** mean_opacity_photons.hpp 139-143, mean_s_opacity_photons.hpp 131-135, mean_opacity_neutrinos.hpp 106-109,
      mean_s_opacity_neutrinos.hpp 106-109, spiner_opac_neutrinos.hpp 191-196, indexers.hpp 67, 105; non_cgs_photons.hpp
      54, 259 and the like; photon_variant.hpp 284-287 and the like; gray_opacity_photons.hpp 46 and the like *)
  Fixpoint Finalize (o : Obj) : St Obj :=
    match o with
    | Analytic => ret Analytic
    | PhotonMean p r g =>
      p <-- finalize strict p ;; r <-- finalize strict r ;; g <-- finalize strict g ;; ret (PhotonMean p r g)
    | NeutrinoMean p r => p <-- finalize strict p ;; r <-- finalize strict r ;; ret (NeutrinoMean p r)
    | Tabulated a j J Y =>
      a <-- finalize strict a ;; j <-- finalize strict j ;; J <-- finalize strict J ;; Y <-- finalize strict Y ;;
      ret (Tabulated a j J Y)
    | Single b => b <-- finalize strict b ;; ret (Single b)
    | Wrapper o => o <-- Finalize o ;; ret (Wrapper o)
    end.
  (** the methods that look into the tables; all of them are read, so this may be taken for any of the methods *)
  Fixpoint Observe (o : Obj) : St (list D) :=
    match o with
    | Analytic => ret []
    | PhotonMean p r g => read_all [p; r; g]
    | NeutrinoMean p r => read_all [p; r]
    | Tabulated a j J Y => read_all [a; j; J; Y]
    | Single b => read_all [b]
    | Wrapper o => Observe o
    end.

  (** ** Programs that use the library *)
  (** constructors that take no tables of the caller *)
  Inductive Ctor :=
  | CAnalytic
  | CPhotonAverage (early nan : bool) (p r g : D)
  | CPhotonFile (f : File)
  | CNeutrinoAverage (nan : bool) (p r : D)
  | CNeutrinoFile (f : File)
  | CTabulate (a j J JYe : D)
  | CSpinerFile (f : File)
  | CNuLib (f : NuLib)
  | CSized (d : D).
  Definition construct (c : Ctor) : St Obj :=
    match c with
    | CAnalytic => ret Analytic
    | CPhotonAverage early nan p r g => photon_average early nan p r g
    | CPhotonFile f => photon_file f
    | CNeutrinoAverage nan p r => neutrino_average nan p r
    | CNeutrinoFile f => neutrino_file f
    | CTabulate a j J Y => tabulate a j J Y
    | CSpinerFile f => spiner_file f
    | CNuLib f => nulib_file f
    | CSized d => b <-- allocate d ;; ret (Single b)        (* indexers.hpp 56-59, 95-98; DataBox(sizes...) *)
    end.

  Definition Name := nat.
  Inductive Command :=
  | Make (x : Name) (c : Ctor)                   (* x = constructor(...), a throw being caught *)
  | Borrow (x : Name) (k : nat)                  (* x = Linear(pointer, ...), indexers.hpp 51-54, 90-93 *)
  | FromTables (x y1 y2 y3 : Name)               (* x = MeanOpacity(y1, y2, y3), a throw being caught *)
  | FromBoxes (x y1 y2 y3 y4 : Name)             (* x = SpinerOpacity(y1, y2, y3, y4), 139-144 *)
  | Copy (x y : Name)                            (* x = y; Linear(y, ...), indexers.hpp 61-65, 100-103 *)
  | Wrap (x y : Name)                            (* x = NonCGSUnits(y), x = Variant(y) *)
  | Device (x y : Name)                          (* x = y.GetOnDevice() *)
  | Final (x : Name)                             (* x.Finalize() *)
  | Use (x : Name)                               (* a method of x *)
  | Store (x : Name) (created closed written : bool).   (* x.Save(filename), a throw being caught *)

  Definition Env := Name -> option Obj.
  Definition bind_name (e : Env) (x : Name) (o : option Obj) : Env := fun y => if y =? x then o else e y.
  Definition lookup (e : Env) (x : Name) : St Obj :=
    match e x with Some o => ret o | None => invalid end.
  Definition box_of (o : Obj) : St Box := match o with Single b => ret b | _ => invalid end.
  Definition lookup_box (e : Env) (x : Name) : St Box := o <-- lookup e x ;; box_of o.

  (** what the program sees of a command *)
  Inductive Event := Nothing_seen | Exception | Values (ds : list D).
  (** [try] binds the new object, or on a throw leaves the name unbound *)
  Definition try_make (e : Env) (x : Name) (m : St Obj) : St (Env * Event) :=
    fun h => match m h with
             | Done o h => Done (bind_name e x (Some o), Nothing_seen) h
             | Threw h => Done (bind_name e x None, Exception) h
             | Invalid => Invalid
             end.
  Definition try_values (e : Env) (m : St (list D)) : St (Env * Event) :=
    fun h => match m h with
             | Done ds h => Done (e, Values ds) h
             | Threw h => Done (e, Exception) h
             | Invalid => Invalid
             end.

  (** [caller]: the blocks that exist before the program, which it may point to *)
  Definition exec (caller : nat) (e : Env) (c : Command) : St (Env * Event) :=
    match c with
    | Make x c => try_make e x (construct c)
    | Borrow x k =>
      if k <? caller then ret (bind_name e x (Some (Single {| bx_status := Unmanaged; bx_block := k |})), Nothing_seen)
      else invalid
    | FromTables x y1 y2 y3 =>
      b1 <-- lookup_box e y1 ;; b2 <-- lookup_box e y2 ;; b3 <-- lookup_box e y3 ;;
      try_make e x (photon_tables b1 b2 b3)
    | FromBoxes x y1 y2 y3 y4 =>
      b1 <-- lookup_box e y1 ;; b2 <-- lookup_box e y2 ;; b3 <-- lookup_box e y3 ;; b4 <-- lookup_box e y4 ;;
      ret (bind_name e x (Some (Tabulated b1 b2 b3 b4)), Nothing_seen)
    | Copy x y => o <-- lookup e y ;; ret (bind_name e x (Some o), Nothing_seen)
    | Wrap x y => o <-- lookup e y ;; ret (bind_name e x (Some (Wrapper o)), Nothing_seen)
    | Device x y => o <-- lookup e y ;; try_make e x (GetOnDevice o)
    | Final x => o <-- lookup e x ;; o <-- Finalize o ;; ret (bind_name e x (Some o), Nothing_seen)
    | Use x => o <-- lookup e x ;; try_values e (Observe o)
    | Store x created closed written => o <-- lookup e x ;; try_values e (Save created closed written o)
    end.
  Fixpoint execs (caller : nat) (e : Env) (cs : list Command) : St (Env * list Event) :=
    match cs with
    | [] => ret (e, [])
    | c :: cs =>
      r <-- exec caller e c ;;
      rs <-- execs caller (fst r) cs ;;
      ret (fst rs, snd r :: snd rs)
    end.

  (** a program starts with no names bound *)
  Definition no_names : Env := fun _ => None.
  Definition run (cs : list Command) (h : Heap) : Run (Env * list Event) := execs (hp_next h) no_names cs h.

  (** how many blocks are in use *)
  Definition in_use (h : Heap) : nat :=
    length (filter (fun k => match hp_data h k with Some _ => true | None => false end) (seq 0 (hp_next h))).
End Lifetime.

Arguments Heap D : clear implicits.
Arguments Run D A : clear implicits.
Arguments St D A : clear implicits.
Arguments Done {D A} a h.
Arguments Threw {D A} h.
Arguments Invalid {D A}.
Arguments File D : clear implicits.
Arguments NuLib D : clear implicits.
Arguments Ctor D : clear implicits.
Arguments Command D : clear implicits.
Arguments Event D : clear implicits.
