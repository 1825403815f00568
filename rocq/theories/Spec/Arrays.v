(** What an array overload should do, relative to the scalar call it repeats. *)
From Coq Require Import List ZArith Lia.
From Verif Require Import Base.Outcome Inst.ER Model.PhotonApi.

(** [V nu_bins coeffs n m] writes F(bin i) to coeffs[i] for 0 <= i < n and touches
    nothing else, for all buffers at least [n] long such that no output cell is
    overwritten before it is read as an input; in particular for disjoint buffers
    and for output = input. With n <= 0 nothing happens, whatever the pointers. *)
Definition bin_by_bin {T} (F : T -> result T) (V : array_call T) : Prop :=
  forall nu_bins coeffs n m,
  ((n <= 0)%Z -> V nu_bins coeffs n m = Ok m) /\
  ((0 <= n)%Z ->
   (nu_bins + Z.to_nat n <= length m)%nat -> (coeffs + Z.to_nat n <= length m)%nat ->
   (coeffs <= nu_bins \/ nu_bins + Z.to_nat n <= coeffs)%nat ->
   exists m', V nu_bins coeffs n m = Ok m' /\
     length m' = length m /\
     (forall i nu, (i < Z.to_nat n)%nat -> nth_error m (nu_bins + i) = Some nu ->
        exists v, F nu = Ok v /\ nth_error m' (coeffs + i) = Some v) /\
     (forall a, ~ (coeffs <= a < coeffs + Z.to_nat n)%nat ->
        nth_error m' a = nth_error m a)).

(** The same for a scalar call that can fail: the array is filled when the call
    succeeds at every bin, and otherwise the call ends as at the first bad bin. *)
Definition bin_by_bin_or_fail {T} (F : T -> result T) (V : array_call T) : Prop :=
  forall nu_bins coeffs n m,
  ((n <= 0)%Z -> V nu_bins coeffs n m = Ok m) /\
  ((0 <= n)%Z ->
   (nu_bins + Z.to_nat n <= length m)%nat -> (coeffs + Z.to_nat n <= length m)%nat ->
   (coeffs <= nu_bins \/ nu_bins + Z.to_nat n <= coeffs)%nat ->
   let good k := forall i nu, (i < k)%nat -> nth_error m (nu_bins + i) = Some nu ->
                 exists v, F nu = Ok v in
   (good (Z.to_nat n) ->
    exists m', V nu_bins coeffs n m = Ok m' /\
     length m' = length m /\
     (forall i nu, (i < Z.to_nat n)%nat -> nth_error m (nu_bins + i) = Some nu ->
        exists v, F nu = Ok v /\ nth_error m' (coeffs + i) = Some v) /\
     (forall a, ~ (coeffs <= a < coeffs + Z.to_nat n)%nat ->
        nth_error m' a = nth_error m a)) /\
   (forall i nu, (i < Z.to_nat n)%nat -> nth_error m (nu_bins + i) = Some nu -> good i ->
      (F nu = Error -> V nu_bins coeffs n m = Error) /\
      (F nu = UB -> V nu_bins coeffs n m = UB))).

(** A buffer shorter than [n] makes the call undefined. *)
Definition short_buffer_is_UB {T} (V : array_call T) : Prop :=
  forall nu_bins coeffs n m,
  (length m < nu_bins + Z.to_nat n \/ length m < coeffs + Z.to_nat n)%nat ->
  (0 < n)%Z -> V nu_bins coeffs n m = UB.

(** [converted P F V]: on disjoint buffers at least n long, V writes to coeffs[i] the
    scalar result at bin i (when all bins satisfy [P]), leaves every bin as the caller passed it, touches
    nothing else, and does nothing for n <= 0. *)
Definition converted {T} (P : T -> Prop) (F : T -> result T) (V : array_call T) : Prop :=
  forall nu_bins coeffs n m,
  ((n <= 0)%Z -> V nu_bins coeffs n m = Ok m) /\
  ((0 <= n)%Z ->
   (nu_bins + Z.to_nat n <= length m)%nat -> (coeffs + Z.to_nat n <= length m)%nat ->
   (coeffs + Z.to_nat n <= nu_bins \/ nu_bins + Z.to_nat n <= coeffs)%nat ->
   (forall i nu, (i < Z.to_nat n)%nat -> nth_error m (nu_bins + i) = Some nu -> P nu) ->
   exists m', V nu_bins coeffs n m = Ok m' /\
     length m' = length m /\
     (forall i nu, (i < Z.to_nat n)%nat -> nth_error m (nu_bins + i) = Some nu ->
        exists v, F nu = Ok v /\ nth_error m' (coeffs + i) = Some v) /\
     (forall a, ~ (coeffs <= a < coeffs + Z.to_nat n)%nat ->
        nth_error m' a = nth_error m a)).

Definition is_fin (x : ER) : Prop := exists r, x = Fin r.
