(** Model of base/indexers.hpp: the frequency-bin containers that also interpolate. A raw
    pointer is the list of cells from it on; members sharing storage are copied. *)
From Coq Require Import ZArith List Bool.
From Verif Require Import Base.Outcome Base.Ops Model.Spiner Model.Chebyshev.
Import ListNotations.
Open Scope ops_scope.

Section Indexers.
  Context {T : Type} {O : Ops T}.

  (** Identity<T>, 33-44: operator[] of the held container *)
  Definition Identity_at (data : list T) (i : Z) : result T := at_flat data i.
  Definition Identity_set (data : list T) (i : Z) (v : T) : result (list T) :=
    set_flat data i v.

  (** DataBox(Real *data, int N): one dimension, no range yet *)
  Definition box1 (data : list T) (N : Z) : DataBox T :=
    {| db_dims := [N]; db_ranges := [None]; db_data := data |}.
  (** setRange(0, lo, hi, N) *)
  Definition setRange0 (b : DataBox T) (lo hi : T) (N : Z) : result (DataBox T) :=
    g <- mk_grid lo hi N ;;
    Ok {| db_dims := db_dims b; db_ranges := upd (db_ranges b) 0 (Some g);
          db_data := db_data b |}.

  (** Linear, 46-83: constructor from a pointer 51-54 and from a DataBox 61-65, SetRange_ 78-81 *)
  Definition Linear_box (b : DataBox T) (numin numax : T) (N : Z) : result (DataBox T) :=
    setRange0 b numin numax N.
  Definition Linear_ptr (data : list T) (numin numax : T) (N : Z) : result (DataBox T) :=
    Linear_box (box1 data N) numin numax N.
  (** operator[], 69-72 *)
  Definition Linear_at (b : DataBox T) (i : Z) : result T := at_flat (db_data b) i.
  Definition Linear_set (b : DataBox T) (i : Z) (v : T) : result (DataBox T) :=
    d <- set_flat (db_data b) i v ;;
    Ok {| db_dims := db_dims b; db_ranges := db_ranges b; db_data := d |}.
  (** operator()(nu), 74-75 *)
  Definition Linear_call (b : DataBox T) (nu : T) : result T := interpToReal b [Along nu].

  (** LogLinear, 85-123: SetRange_ 118-121 *)
  Definition LogLinear_box (b : DataBox T) (numin numax : T) (N : Z) : result (DataBox T) :=
    setRange0 b (Olog10f numin) (Olog10f numax) N.
  Definition LogLinear_ptr (data : list T) (numin numax : T) (N : Z) : result (DataBox T) :=
    LogLinear_box (box1 data N) numin numax N.
  Definition LogLinear_at (b : DataBox T) (i : Z) : result T := at_flat (db_data b) i.
  Definition LogLinear_set (b : DataBox T) (i : Z) (v : T) : result (DataBox T) :=
    Linear_set b i v.
  (** operator()(nu), 112-115 *)
  Definition LogLinear_call (b : DataBox T) (nu : T) : result T :=
    interpToReal b [Along (Olog10f nu)].

  (** LogCheb<N, Data_t>, 125-159; [numin], [numax] are stored but never read *)
  Record LogCheb := { lc_data : list T; lc_logdata : list T; lc_coeffs : list T;
                      lc_lnumin : T; lc_lnumax : T }.
  (** constructor, 129-133 *)
  Definition mk_LogCheb (data logdata coeffs : list T) (numin numax : T) : LogCheb :=
    {| lc_data := data; lc_logdata := logdata; lc_coeffs := coeffs;
       lc_lnumin := Olog10f numin; lc_lnumax := Olog10f numax |}.
  (** operator[], 135-138: reads and writes the data only *)
  Definition LogCheb_at (c : LogCheb) (i : Z) : result T := at_flat (lc_data c) i.
  Definition LogCheb_set (c : LogCheb) (i : Z) (v : T) : result LogCheb :=
    d <- set_flat (lc_data c) i v ;;
    Ok {| lc_data := d; lc_logdata := lc_logdata c; lc_coeffs := lc_coeffs c;
          lc_lnumin := lc_lnumin c; lc_lnumax := lc_lnumax c |}.
  (** SetInterpCoeffs, 140-146 *)
  Definition SetInterpCoeffs (N : Z) (v : nat -> nat -> result T) (c : LogCheb)
    : result LogCheb :=
    ld <- for_int N (fun i ld =>
            d <- load (lc_data c) i ;;
            store ld i (Olog10f (Oabs d + Odec 1 (-20)))) (lc_logdata c) ;;
    cf <- MatMultiply v ld (lc_coeffs c) N ;;
    Ok {| lc_data := lc_data c; lc_logdata := ld; lc_coeffs := cf;
          lc_lnumin := lc_lnumin c; lc_lnumax := lc_lnumax c |}.
  (** operator()(nu), 148-153 *)
  Definition LogCheb_call (dbg : bool) (N : Z) (c : LogCheb) (nu : T) : result T :=
    let lnu := Olog10f nu in
    y <- InterpFromCoeffs dbg lnu (lc_lnumin c) (lc_lnumax c) (lc_coeffs c) N ;;
    Ok (Opow #10 y).
End Indexers.
Arguments LogCheb : clear implicits.
