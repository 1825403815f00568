(** C67: log-spaced frequency bins in double precision. *)
From Coq Require Import Reals ZArith List Lra Lia Bool.
From Flocq Require Import Core IEEE754.BinarySingleNaN Relative.
From Verif Require Import Proofs.C67 Base.Outcome Base.Ops Inst.B64 Model.Spiner Model.Chebyshev Model.Indexers Spec.Tables Spec.SinglePrecision Spec.DoublePrecision Spec.DoubleTables
  Proofs.B64Facts Proofs.FloatFacts Proofs.Near Proofs.NarrowGroup Proofs.DoubleTables Proofs.DoubleLookup Proofs.C51 Proofs.DoubleBins.
Import ListNotations.
Open Scope R_scope.

(** A LogLinear indexer over [numin, numax] in double precision, asked at a frequency in that
    range, answers with the straight line in log10 of frequency through the data of the two
    neighbouring bins, up to the roundings of the lookup and to an error of 6 * 2^-22 of the step
    between neighbouring data, times the number of cells in the extent of the logarithms: the
    logarithm is a float. For every logf that is monotone and accurate to a unit in the last
    place, up to 10000 bins per decade. *)
Theorem C67_loglinear :
  forall (L : Libm) (numin numax nu : b64) (N : Z) (data : list b64) (F step r : R),
  let g := {| rg_lo := log10 (B2R numin); rg_hi := log10 (B2R numax); rg_n := N |} in
  let d := fun i => B2R (nth (Z.to_nat i) data (b64_of_Z 0)) in
  accurate_logf (lm_logf L) -> monotone_logf (lm_logf L) ->
  is_finite numin = true -> is_finite numax = true -> is_finite nu = true ->
  float_range (B2R numin) -> float_range (B2R numax) -> B2R numin <= B2R nu <= B2R numax ->
  (2 <= N)%Z -> IZR (N - 1) <= 10000 * (log10 (B2R numax) - log10 (B2R numin)) ->
  (N <= Z.of_nat (length data))%Z -> (forall x, In x data -> is_finite x = true /\ Rabs (B2R x) <= F) -> / 2 ^ 800 <= F <= 2 ^ 800 ->
  (forall i, (0 <= i < N - 1)%Z -> Rabs (d (i + 1)%Z - d i) <= step) ->
  interpolates [Pos (log10 (B2R nu))] [Axis g] (fun is => d (nth 0 is 0%Z)) r ->
  exists b v, @LogLinear_ptr b64 (B64_ops L) data numin numax N = Ok b /\ @LogLinear_call b64 (B64_ops L) b nu = Ok v /\ is_finite v = true /\
    Rabs (B2R v - r) <= (6 * step / 2 ^ 22 + 290 * F / 2 ^ 53) * cells g.
Proof. exact C67_loglinear_proof. Qed.
Print Assumptions C67_loglinear.

(** The double precision of the numbers is not reached: for every library and every logf there is
    a frequency between 1 and 10 at which the indexer of two bins there, holding 0 and 1, is not
    within 2^-30 of the logarithm of the frequency. *)
Theorem C67_precision_refuted :
  forall L : Libm, exists (numin numax nu : b64) (data : list b64) (r : R),
  let g := {| rg_lo := log10 (B2R numin); rg_hi := log10 (B2R numax); rg_n := 2 |} in
  let d := fun i => B2R (nth (Z.to_nat i) data (b64_of_Z 0)) in
  B2R numin = 1 /\ B2R numax = 10 /\ is_finite nu = true /\ B2R numin <= B2R nu <= B2R numax /\ d 0%Z = 0 /\ d 1%Z = 1 /\
  interpolates [Pos (log10 (B2R nu))] [Axis g] (fun is => d (nth 0 is 0%Z)) r /\
  ~ exists b v, @LogLinear_ptr b64 (B64_ops L) data numin numax 2 = Ok b /\ @LogLinear_call b64 (B64_ops L) b nu = Ok v /\ Rabs (B2R v - r) <= / 2 ^ 30.
Proof. exact C67_precision_refuted_proof. Qed.
Print Assumptions C67_precision_refuted.

(** Three bins from 1 to 100 holding 1, 2 and 4, asked at 20. *)
Example C67_loglinear_example_holds :
  exists (L : Libm) (numin numax nu : b64) (N : Z) (data : list b64) (F step r : R),
  let g := {| rg_lo := log10 (B2R numin); rg_hi := log10 (B2R numax); rg_n := N |} in
  let d := fun i => B2R (nth (Z.to_nat i) data (b64_of_Z 0)) in
  accurate_logf (lm_logf L) /\ monotone_logf (lm_logf L) /\
  is_finite numin = true /\ is_finite numax = true /\ is_finite nu = true /\
  float_range (B2R numin) /\ float_range (B2R numax) /\ B2R numin < B2R nu < B2R numax /\
  (2 <= N)%Z /\ IZR (N - 1) <= 10000 * (log10 (B2R numax) - log10 (B2R numin)) /\
  (N <= Z.of_nat (length data))%Z /\ (forall x, In x data -> is_finite x = true /\ Rabs (B2R x) <= F) /\ / 2 ^ 800 <= F <= 2 ^ 800 /\
  (forall i, (0 <= i < N - 1)%Z -> Rabs (d (i + 1)%Z - d i) <= step) /\
  interpolates [Pos (log10 (B2R nu))] [Axis g] (fun is => d (nth 0 is 0%Z)) r /\ r = 2 * log10 20.
Proof. exact C67_loglinear_example. Qed.
