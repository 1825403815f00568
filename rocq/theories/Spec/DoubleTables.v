(** Tables of doubles on regular grids, and what interpolating in them means. *)
From Coq Require Import Reals ZArith List.
From Flocq Require Import Core IEEE754.BinarySingleNaN.
From Verif Require Import Base.Outcome Base.Ops Inst.B64 Model.Spiner Spec.Tables Spec.DoublePrecision.
Import ListNotations.
Open Scope R_scope.

(** [interpolates cs dims f r]: [r] is what linear interpolation of the numbers [f], one axis
    after the other, gives at the query [cs]; the query is inside the table *)
Fixpoint interpolates (cs : list rcoord) (dims : list rdim) (f : list Z -> R) (r : R) : Prop :=
  match cs, dims with
  | [], [] => r = f []
  | Pos x :: cs, Axis g :: ds =>
      exists i a b, (0 <= i < rg_n g - 1)%Z /\ rg_node g i <= x <= rg_node g (i + 1) /\
        interpolates cs ds (fun is => f (i :: is)) a /\ interpolates cs ds (fun is => f ((i + 1)%Z :: is)) b /\
        r * rg_dx g = (rg_node g (i + 1) - x) * a + (x - rg_node g i) * b
  | Num i :: cs, Index n :: ds => (0 <= i < n)%Z /\ interpolates cs ds (fun is => f (i :: is)) r
  | _, _ => False
  end.

(** the grid of real numbers with [N] nodes between two doubles *)
Definition real_grid (lo hi : b64) (N : Z) : rgrid := {| rg_lo := B2R lo; rg_hi := B2R hi; rg_n := N |}.

(** the size of the coordinates along an axis, and how many cells that is: the condition
    number of finding a coordinate in the grid *)
Definition extent (g : rgrid) : R := Rmax 1 (Rmax (Rabs (rg_lo g)) (Rabs (rg_hi g))).
Definition cells (g : rgrid) : R := extent g / rg_dx g.

(** a grid with finite ends of ordinary size, at least two nodes, and not too fine *)
Definition ordinary (lo hi : b64) (N : Z) : Prop :=
  is_finite lo = true /\ is_finite hi = true /\ B2R lo < B2R hi /\ (2 <= N)%Z /\
  extent (real_grid lo hi N) <= 1000 /\ cells (real_grid lo hi N) <= 1000000.

(** [y] is a coordinate of the grid, and [x] the same to [k] units of 2^-53 of its extent *)
Definition coordinate (k : R) (g : rgrid) (x y : R) : Prop :=
  rg_inside g y /\ Rabs (x - y) <= k * / 2 ^ 53 * extent g.

(** [stores64 F dims d acc f]: as [stores], for doubles of magnitude at most [F] *)
Fixpoint stores64 (F : R) (dims : list rdim) (d : list b64) (acc : Z) (f : list Z -> R) : Prop :=
  match dims with
  | [] => exists x, at_flat d acc = Ok x /\ is_finite x = true /\ B2R x = f [] /\ Rabs (f []) <= F
  | D :: ds => forall i, (0 <= i < rd_size D)%Z ->
      stores64 F ds d (acc * rd_size D + i) (fun is => f (i :: is))
  end.

(** log10 within one unit in the last place *)
Definition accurate_log10 (L : Libm) : Prop :=
  forall x, is_finite x = true -> 0 < B2R x -> within 2 (lm_log10 L x) (log10 (B2R x)).

(** a dimension of a box of doubles is that of a table *)
Definition dim64 (L : Libm) (p : Z * option (Grid b64)) (D : rdim) : Prop :=
  match D with
  | Axis g => exists lo hi G, g = real_grid lo hi (rg_n g) /\ ordinary lo hi (rg_n g) /\
      mk_grid (O := B64_ops L) lo hi (rg_n g) = Ok G /\ p = (rg_n g, Some G)
  | Index n => fst p = n
  end.
(** [holds64 L F b dims f]: the box [b] is a table over the dimensions [dims], slowest first,
    of the numbers [f], of magnitude at most [F] *)
Definition holds64 (L : Libm) (F : R) (b : DataBox b64) (dims : list rdim) (f : list Z -> R) : Prop :=
  Forall2 (dim64 L) (rev (combine (db_dims b) (db_ranges b))) dims /\ stores64 F dims (db_data b) 0 f.

(** the query in doubles is the real one, up to 20 units of 2^-53 of the extent of the axis *)
Fixpoint query64 (cs : list (coord b64)) (rs : list rcoord) (dims : list rdim) : Prop :=
  match cs, rs, dims with
  | [], [], [] => True
  | Along x :: cs, Pos y :: rs, Axis g :: ds => is_finite x = true /\ coordinate 20 g (B2R x) y /\ query64 cs rs ds
  | At i :: cs, Num j :: rs, Index n :: ds => i = j /\ (0 <= i < n)%Z /\ query64 cs rs ds
  | _, _, _ => False
  end.
(** the cells of all the axes *)
Fixpoint all_cells (dims : list rdim) : R :=
  match dims with
  | [] => 0
  | Axis g :: ds => cells g + all_cells ds
  | Index _ :: ds => all_cells ds
  end.
