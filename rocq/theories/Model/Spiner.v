(** Spiner's regular grids and data boxes (spiner/databox.hpp,
    spiner/regular_grid_1d.hpp): an external dependency that is not in /repo. This
    file is the assumed behaviour of the parts the code calls; it belongs to the
    trusted base. Bounds of the flat storage are checked by the model: an access
    outside is [UB]. Storage is row-major with dimension 1 the fastest. *)
From Coq Require Import ZArith List Bool.
From Verif Require Import Base.Outcome Base.Ops.
Import ListNotations.
Open Scope ops_scope.

Section Spiner.
  Context {T : Type} {O : Ops T}.

  (** RegularGrid1D: min_, max_, dx_, inv_dx_, N_ *)
  Record Grid := { g_min : T; g_max : T; g_dx : T; g_idx : T; g_N : Z }.

  (** RegularGrid1D(min, max, N): requires min < max and N > 0 *)
  Definition mk_grid (lo hi : T) (N : Z) : result Grid :=
    if (lo <? hi) && (0 <? N)%Z then
      let dx := (hi - lo) / #(N - 1) in
      Ok {| g_min := lo; g_max := hi; g_dx := dx; g_idx := #1 / dx; g_N := N |}
    else Error.

  (** x(i) *)
  Definition g_x (g : Grid) (i : Z) : T := #i * g_dx g + g_min g.

  (** bound(i): first and last cell *)
  Definition g_bound (g : Grid) (i : Z) : Z :=
    let i := if (i <? 0)%Z then 0%Z else i in
    if (g_N g - 1 <=? i)%Z then (g_N g - 2)%Z else i.

  (** index(x): the conversion of a double to int is undefined outside int *)
  Definition g_index (g : Grid) (x : T) : result Z :=
    match Otrunc (g_idx g * (x - g_min g)) with
    | Some i => Ok (g_bound g i)
    | None => UB
    end.

  (** weights(x, ix, w) *)
  Definition g_weights (g : Grid) (x : T) : result (Z * (T * T)) :=
    i <- g_index g x ;;
    let fl := #i * g_dx g + g_min g in
    let w1 := g_idx g * (x - fl) in
    Ok (i, (#1 - w1, w1)).

  (** operator== compares the four numbers and the count *)
  Definition grid_eqb (a b : Grid) : bool :=
    Oeqb (g_min a) (g_min b) && Oeqb (g_max a) (g_max b) && Oeqb (g_dx a) (g_dx b) &&
    Oeqb (g_idx a) (g_idx b) && (g_N a =? g_N b)%Z.
  (** operator!= on ranges; [None]: never set (all members NaN, so never equal) *)
  Definition range_neqb (a b : option Grid) : bool :=
    match a, b with Some x, Some y => negb (grid_eqb x y) | _, _ => true end.

  (** DataBox: dimensions and ranges, fastest first (dim(1), dim(2), ...; range(0),
      range(1), ...), and the data. *)
  Record DataBox := { db_dims : list Z; db_ranges : list (option Grid); db_data : list T }.

  Definition db_rank (b : DataBox) : Z := Z.of_nat (length (db_dims b)).
  (** dim(i), 1 <= i <= rank *)
  Definition db_dim (b : DataBox) (i : nat) : Z := nth (i - 1) (db_dims b) 0%Z.
  Definition db_range (b : DataBox) (i : nat) : option Grid := nth i (db_ranges b) None.
  Definition db_size (b : DataBox) : Z := Z.of_nat (length (db_data b)).

  (** element access by flat index *)
  Definition at_flat (d : list T) (i : Z) : result T :=
    if (i <? 0)%Z then UB else load d (Z.to_nat i).
  Definition set_flat (d : list T) (i : Z) (v : T) : result (list T) :=
    if (i <? 0)%Z then UB else store d (Z.to_nat i) v.

  (** flat index of (i_n, ..., i_1), slowest first, given the dimensions slowest first;
      [acc] is the flat index of the part already read *)
  Fixpoint flat (dims idx : list Z) (acc : Z) : Z :=
    match dims, idx with
    | n :: ds, i :: is => flat ds is (acc * n + i)
    | _, _ => acc
    end.

  (** interpToReal: coordinates slowest first, each interpolated ([Along x]) or a
      plain index ([At i]); multilinear, the slowest dimension outermost. *)
  Inductive coord := Along (x : T) | At (i : Z).

  Fixpoint interp (cs : list coord) (dims : list (Z * option Grid)) (d : list T) (acc : Z)
    : result T :=
    match cs, dims with
    | [], [] => at_flat d acc
    | At i :: cs, (n, _) :: ds => interp cs ds d (acc * n + i)%Z
    | Along x :: cs, (n, Some g) :: ds =>
      iw <- g_weights g x ;;
      let '(i, (w0, w1)) := iw in
      a <- interp cs ds d (acc * n + i)%Z ;;
      b <- interp cs ds d (acc * n + (i + 1))%Z ;;
      Ok (w0 * a + w1 * b)
    | _, _ => UB
    end.

  Definition interpToReal (b : DataBox) (cs : list coord) : result T :=
    interp cs (rev (combine (db_dims b) (db_ranges b))) (db_data b) 0.
End Spiner.

Arguments Grid : clear implicits.
Arguments DataBox : clear implicits.
Arguments coord : clear implicits.
