(** Unit conversion of doubles, up to roundings. *)
From Coq Require Import Reals ZArith List.
From Flocq Require Import Core IEEE754.BinarySingleNaN.
From Verif Require Import Base.Outcome Inst.B64 Model.PhotonApi Spec.Units Spec.DoublePrecision.
Open Scope R_scope.

(** zero, or of a size that leaves room for the units *)
Definition sized (v : b64) : Prop :=
  is_finite v = true /\ (B2R v = 0 \/ / 2 ^ 300 <= B2R v <= 2 ^ 300).

(** the unit system of four doubles *)
Definition units_of (time mass len tmp : b64) : unit_system :=
  {| us_time := B2R time; us_mass := B2R mass; us_length := B2R len; us_temp := B2R tmp |}.

(** the double [y] is the quantity [x] of dimension [d], converted to cgs to [k] roundings *)
Definition to_cgs (s : unit_system) (k : R) (d : Dim) (x y : b64) : Prop :=
  within k y (B2R x * unit_of s d).

(** the call [outer] returns what [inner] returns, a quantity of dimension [d], converted
    back to [k] roundings; it fails when [inner] does *)
Definition from_cgs (s : unit_system) (k : R) (d : Dim) (inner outer : result b64) : Prop :=
  (forall v, inner = Ok v -> sized v -> returns outer k (B2R v / unit_of s d)) /\
  (inner = Error -> outer = Error) /\ (inner = UB -> outer = UB).

(** an energy density that leaves room for the units *)
Definition energy (e : b64) : Prop := is_finite e = true /\ / 2 ^ 300 <= B2R e <= 2 ^ 300.

(** A wrapped array call on disjoint buffers: every output is the scalar result at the
    caller's bin, every physical bin comes back to [k] roundings, nothing else is touched. *)
Definition converted_within (k : R) (F : b64 -> result b64) (V : array_call b64) : Prop :=
  forall nu_bins coeffs n m,
  (0 <= n)%Z ->
  (nu_bins + Z.to_nat n <= length m)%nat -> (coeffs + Z.to_nat n <= length m)%nat ->
  (coeffs + Z.to_nat n <= nu_bins \/ nu_bins + Z.to_nat n <= coeffs)%nat ->
  exists m', V nu_bins coeffs n m = Ok m' /\ length m' = length m /\
    (forall i nu, (i < Z.to_nat n)%nat -> nth_error m (nu_bins + i) = Some nu ->
       (exists v, F nu = Ok v /\ nth_error m' (coeffs + i) = Some v) /\
       (physical nu -> exists nu', nth_error m' (nu_bins + i) = Some nu' /\ within k nu' (B2R nu))) /\
    (forall a, ~ (nu_bins <= a < nu_bins + Z.to_nat n)%nat ->
       ~ (coeffs <= a < coeffs + Z.to_nat n)%nat -> nth_error m' a = nth_error m a).

(** The same buffers used for any number of calls in a row, each one of [calls]. *)
Inductive call_run (calls : array_call b64 -> Prop) (nu_bins coeffs : nat) (n : Z)
  : nat -> mem b64 -> mem b64 -> Prop :=
| run_none m : call_run calls nu_bins coeffs n 0 m m
| run_more k c m m1 m2 : call_run calls nu_bins coeffs n k m m1 -> calls c ->
    c nu_bins coeffs n m1 = Ok m2 -> call_run calls nu_bins coeffs n (S k) m m2.
