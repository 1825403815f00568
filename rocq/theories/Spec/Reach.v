(** When a lookup in a table on regular grids can be carried out: the shape of the storage
    and the int conversions, in any arithmetic and independently of the lookup code. *)
From Coq Require Import ZArith List.
From Verif Require Import Base.Ops Base.Outcome Model.Constants Model.RadTypes Model.NeutrinoApi Model.Spiner
  Model.SpinerNeutrinos.
Import ListNotations.
Open Scope Z_scope.

Section Reach.
  Context {T : Type} {O : Ops T}.

  (** number of entries of dimensions *)
  Fixpoint entries (dims : list (Z * option (Grid T))) : Z :=
    match dims with [] => 1 | (n, _) :: ds => n * entries ds end.

  (** the number of cells between the first node and x, as an int *)
  Definition convertible (g : Grid T) (x : T) : Prop :=
    Otrunc (Omul (g_idx g) (Osub x (g_min g))) <> None.

  (** the box holds exactly its entries; dimensions are listed slowest first *)
  Definition shaped (b : DataBox T) (dims : list (Z * option (Grid T))) : Prop :=
    rev (combine (db_dims b) (db_ranges b)) = dims /\ Z.of_nat (length (db_data b)) = entries dims.

  (** a grid of the size of its dimension, with two nodes at least *)
  Definition proper_axis (n : Z) (g : Grid T) : Prop := g_N g = n /\ 2 <= n.

  (** a value exactly if C holds, and a read outside the storage otherwise; no error *)
  Definition answers (r : result T) (C : Prop) : Prop := (C -> exists v, r = Ok v) /\ (~ C -> r = UB).

  (** at the last node of the grid or beyond *)
  Definition beyond (g : Grid T) (x : T) : Prop :=
    exists z, Otrunc (Omul (g_idx g) (Osub x (g_min g))) = Some z /\ g_N g - 1 <= z.
  (** The lookups of a tabulated neutrino opacity. Density and temperature are taken to the
      guarded logarithms of the table first, the latter in MeV; the frequency too. *)
  Definition reach4 (gR gT gY : Grid T) (rho temp Ye : T) : Prop :=
    convertible gR (sp_toLog rho) /\ convertible gT (sp_toLog (Omul temp sp_K2MeV)) /\ convertible gY Ye.
  Definition all_answer (pc : PhysConst T) (n : Z) (t : SpinerTables T) (gR gT gY ge : Grid T) (rho temp Ye : T) (type : RadiationType) : Prop :=
    let o := SpinerOpacity n pc t in
    answers (nu_Emissivity o rho temp Ye type) (reach4 gR gT gY rho temp Ye) /\
    answers (nu_NumberEmissivity o rho temp Ye type) (reach4 gR gT gY rho temp Ye) /\
    forall nu, let C := reach4 gR gT gY rho temp Ye /\ convertible ge (sp_toLog (Omul (sp_Hz2MeV pc) nu)) in
    answers (nu_Absorption o rho temp Ye type nu) C /\ answers (nu_EmissivityPerNuOmega o rho temp Ye type nu) C /\
    answers (nu_EmissivityPerNu o rho temp Ye type nu) C.
End Reach.
