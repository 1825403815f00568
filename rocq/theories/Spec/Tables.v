(** Tables on regular grids, over the reals and independently of the code. *)
From Coq Require Import Reals ZArith List Lia Lra Bool.
From Verif Require Import Base.Ops Base.Outcome Inst.ER Model.Spiner.
Import ListNotations.
Open Scope R_scope.

Definition log10 (r : R) : R := ln r / ln 10.
Definition pow10 (x : R) : R := Rpower 10 x.
(** the guard under the logarithms: 10 * numeric_limits<double>::min() *)
Definition tiny : R := 10 * R_num_min.

(** n equally spaced nodes from lo to hi *)
Record rgrid := { rg_lo : R; rg_hi : R; rg_n : Z }.
Definition rg_ok (g : rgrid) : Prop := rg_lo g < rg_hi g /\ (2 <= rg_n g < 2 ^ 31)%Z.
Definition rg_dx (g : rgrid) : R := (rg_hi g - rg_lo g) / IZR (rg_n g - 1).
Definition rg_node (g : rgrid) (i : Z) : R := IZR i * rg_dx g + rg_lo g.
(** x is so many cells away from the first node that the number is an int *)
Definition rg_fits (g : rgrid) (x : R) : Prop :=
  - 2147483649 < (x - rg_lo g) / rg_dx g < 2147483648.
Definition rg_inside (g : rgrid) (x : R) : Prop := rg_lo g <= x <= rg_hi g.

(** the grid object the library builds for it *)
Definition grid_of (g : rgrid) : Grid ER := {|
  g_min := Fin (rg_lo g); g_max := Fin (rg_hi g); g_dx := Fin (rg_dx g);
  g_idx := Fin (1 / rg_dx g); g_N := rg_n g |}.

(** A dimension of a table: interpolated on a grid, or plainly indexed. *)
Inductive rdim := Axis (g : rgrid) | Index (n : Z).
Definition rd_size (d : rdim) : Z := match d with Axis g => rg_n g | Index n => n end.
Definition rd_ok (d : rdim) : Prop := match d with Axis g => rg_ok g | Index _ => True end.
Definition dim_of (d : rdim) : Z * option (Grid ER) :=
  match d with Axis g => (rg_n g, Some (grid_of g)) | Index n => (n, None) end.

(** [stores dims d acc f]: the flat storage d, read row-major with the slowest dimension
    first from row number [acc], holds the real numbers f [i_n; ...; i_1] *)
Fixpoint stores (dims : list rdim) (d : list ER) (acc : Z) (f : list Z -> R) : Prop :=
  match dims with
  | [] => at_flat d acc = Ok (Fin (f []))
  | D :: ds => forall i, (0 <= i < rd_size D)%Z ->
      stores ds d (acc * rd_size D + i) (fun is => f (i :: is))
  end.

(** a query: one coordinate per dimension *)
Inductive rcoord := Pos (x : R) | Num (i : Z).
Definition coord_of (c : rcoord) : coord ER :=
  match c with Pos x => Along (Fin x) | Num i => At i end.
Fixpoint query_ok (cs : list rcoord) (dims : list rdim) : Prop :=
  match cs, dims with
  | [], [] => True
  | Pos x :: cs, Axis g :: ds => rg_fits g x /\ query_ok cs ds
  | Num i :: cs, Index n :: ds => (0 <= i < n)%Z /\ query_ok cs ds
  | _, _ => False
  end.

(** [at_node cs dims is]: the query is exactly the node number [is] *)
Fixpoint at_node (cs : list rcoord) (dims : list rdim) (is : list Z) : Prop :=
  match cs, dims, is with
  | [], [], [] => True
  | Pos x :: cs, Axis g :: ds, i :: is =>
      (0 <= i < rg_n g)%Z /\ x = rg_node g i /\ at_node cs ds is
  | Num j :: cs, Index n :: ds, i :: is => (0 <= i < n)%Z /\ j = i /\ at_node cs ds is
  | _, _, _ => False
  end.

(** [near cs dims is]: node [is] is a corner of the cell containing the query *)
Fixpoint near (cs : list rcoord) (dims : list rdim) (is : list Z) : Prop :=
  match cs, dims, is with
  | [], [], [] => True
  | Pos x :: cs, Axis g :: ds, i :: is =>
      (0 <= i < rg_n g)%Z /\ Rabs (x - rg_node g i) <= rg_dx g /\ near cs ds is
  | Num j :: cs, Index n :: ds, i :: is => (0 <= i < n)%Z /\ j = i /\ near cs ds is
  | _, _, _ => False
  end.
Fixpoint inside (cs : list rcoord) (dims : list rdim) : Prop :=
  match cs, dims with
  | [], [] => True
  | Pos x :: cs, Axis g :: ds => rg_inside g x /\ inside cs ds
  | Num i :: cs, Index n :: ds => (0 <= i < n)%Z /\ inside cs ds
  | _, _ => False
  end.

(** affine functions of the interpolated coordinates, with slopes [a] and a constant that
    may depend on the plain indices *)
Fixpoint affine_at (dims : list rdim) (a : list R) (is : list Z) (k : list Z -> R) : R :=
  match dims, a, is with
  | Axis g :: ds, s :: a, i :: is => s * rg_node g i + affine_at ds a is k
  | Index _ :: ds, _ :: a, i :: is => affine_at ds a is (fun l => k (i :: l))
  | _, _, _ => k []
  end.
Fixpoint affine_query (cs : list rcoord) (a : list R) (k : list Z -> R) : R :=
  match cs, a with
  | Pos x :: cs, s :: a => s * x + affine_query cs a k
  | Num i :: cs, _ :: a => affine_query cs a (fun l => k (i :: l))
  | _, _ => k []
  end.

(** [holds b dims f]: the box [b] is a table over the dimensions [dims] (slowest first)
    holding the numbers [f] *)
Definition holds (b : DataBox ER) (dims : list rdim) (f : list Z -> R) : Prop :=
  rev (combine (db_dims b) (db_ranges b)) = map dim_of dims /\ stores dims (db_data b) 0 f.
