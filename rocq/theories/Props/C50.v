(** C50: the frequency-bin interpolators of base/indexers.hpp. *)
From Coq Require Import Reals ZArith List Lia Lra Arith Bool.
From Verif Require Import Proofs.C50 Base.Outcome Base.Ops Inst.ER Inst.ERTac Model.Spiner Model.Chebyshev Model.Indexers.
From Verif Require Import Spec.Means Spec.Tables Spec.Chebyshev Proofs.ArrayFacts Proofs.MeanExact.
From Verif Require Import Proofs.InterpFacts Proofs.ChebFacts Proofs.ChebModel.
Import ListNotations.
Open Scope R_scope.

(** Exact arithmetic: for every range, number of bins from 2 on and data, the Linear indexer
    built on an array holding them reads the stored datum at every bin frequency, and between
    two bins the straight line through them, so a value between the two data. *)
Theorem C50_linear :
  forall (a b : R) (N : nat) (data : list ER) (d : nat -> R),
    a < b -> (2 <= N)%nat -> (Z.of_nat N < 2 ^ 31)%Z -> reals data N d ->
    exists L, Linear_ptr data (Fin a) (Fin b) (Z.of_nat N) = Ok L /\
      (forall i, (i < N)%nat ->
         Linear_at L (Z.of_nat i) = Ok (Fin (d i)) /\
         Linear_call L (Fin (lin_bin a b N i)) = Ok (Fin (d i))) /\
      (forall nu, a <= nu <= b -> exists i v, (S i < N)%nat /\
         lin_bin a b N i <= nu <= lin_bin a b N (S i) /\
         Linear_call L (Fin nu) = Ok (Fin v) /\
         v = line (lin_bin a b N i) (d i) (lin_bin a b N (S i)) (d (S i)) nu /\
         Rmin (d i) (d (S i)) <= v <= Rmax (d i) (d (S i))).
Proof. exact C50_linear_proof. Qed.
Print Assumptions C50_linear.

(** three bins at 1, 2, 3 *)
Example C50_linear_example_holds :
  exists L, Linear_ptr [Fin 5; Fin 7; Fin 1] (Fin 1) (Fin 3) 3 = Ok L /\
    Linear_call L (Fin 2) = Ok (Fin 7).
Proof. exact C50_linear_example. Qed.

(** Exact arithmetic (BDMath::log10 as the exact logarithm): the same for LogLinear, with the
    bins equally spaced in the logarithm of frequency and straight lines in that logarithm. *)
Theorem C50_loglinear :
  forall (a b : R) (N : nat) (data : list ER) (d : nat -> R),
    0 < a -> a < b -> (2 <= N)%nat -> (Z.of_nat N < 2 ^ 31)%Z -> reals data N d ->
    exists L, LogLinear_ptr data (Fin a) (Fin b) (Z.of_nat N) = Ok L /\
      (forall i, (i < N)%nat ->
         LogLinear_at L (Z.of_nat i) = Ok (Fin (d i)) /\
         LogLinear_call L (Fin (log_bin a b N i)) = Ok (Fin (d i))) /\
      (forall nu, a <= nu <= b -> exists i v, (S i < N)%nat /\
         log_bin a b N i <= nu <= log_bin a b N (S i) /\
         LogLinear_call L (Fin nu) = Ok (Fin v) /\
         v = line (log10 (log_bin a b N i)) (d i) (log10 (log_bin a b N (S i))) (d (S i)) (log10 nu) /\
         Rmin (d i) (d (S i)) <= v <= Rmax (d i) (d (S i))).
Proof. exact C50_loglinear_proof. Qed.
Print Assumptions C50_loglinear.

(** three bins at 1, 10, 100 *)
Example C50_loglinear_example_holds :
  exists L, LogLinear_ptr [Fin 5; Fin 7; Fin 1] (Fin 1) (Fin 100) 3 = Ok L /\
    LogLinear_call L (Fin 10) = Ok (Fin 7).
Proof. exact C50_loglinear_example. Qed.

(** Exact arithmetic: after SetInterpCoeffs with the matrix of discrete orthogonality, LogCheb
    keeps its data and returns, at every Chebyshev node of the logarithmic interval, the
    magnitude of the datum plus the guard 1e-20; and everywhere it returns a positive number. *)
Theorem C50_logcheb :
  forall (dbg : bool) (a b : R) (n : nat) (m : nat -> nat -> result ER)
         (data logdata coeffs : list ER) (d : nat -> R),
    0 < a -> a < b -> reals data n d -> (n <= length logdata)%nat -> (n <= length coeffs)%nat ->
    (forall i j, (i < n)%nat -> (j < n)%nat -> m i j = Ok (Fin (dct n i j))) ->
    exists c, SetInterpCoeffs (Z.of_nat n) m (mk_LogCheb data logdata coeffs (Fin a) (Fin b)) = Ok c /\
      (forall i, (i < n)%nat -> LogCheb_at c (Z.of_nat i) = Ok (Fin (d i))) /\
      (forall k, (k < n)%nat ->
         LogCheb_call dbg (Z.of_nat n) c (Fin (pow10 (point (log10 a) (log10 b) n k)))
         = Ok (Fin (Rabs (d k) + / 10 ^ 20))) /\
      (forall nu, 0 < nu -> exists v, LogCheb_call dbg (Z.of_nat n) c (Fin nu) = Ok (Fin v) /\ 0 < v).
Proof. exact C50_logcheb_proof. Qed.
Print Assumptions C50_logcheb.

(** one bin: its node is the middle of the logarithmic interval *)
Example C50_logcheb_example_holds :
  exists c, SetInterpCoeffs 1 (fun i j => Ok (Fin (dct 1 i j)))
      (mk_LogCheb [Fin 4] [NaN] [NaN] (Fin 1) (Fin 100)) = Ok c /\
    LogCheb_call true 1 c (Fin 10) = Ok (Fin (4 + / 10 ^ 20)).
Proof. exact C50_logcheb_example. Qed.

(** The magnitude and the guard are lost for good: LogCheb holding -1 returns more than 1 at its
    node, and holding 0 it returns 1e-20, so "the datum at the node" is false without them. *)
Theorem C50_logcheb_refuted :
  exists (m : nat -> nat -> result ER) (nu : R),
    (forall i j, m i j = Ok (Fin (dct 1 i j))) /\ 0 < nu /\
    (exists c, SetInterpCoeffs 1 m (mk_LogCheb [Fin (-1)] [NaN] [NaN] (Fin 1) (Fin 100)) = Ok c /\
       LogCheb_call false 1 c (Fin nu) = Ok (Fin (1 + / 10 ^ 20))) /\
    (exists c, SetInterpCoeffs 1 m (mk_LogCheb [Fin 0] [NaN] [NaN] (Fin 1) (Fin 100)) = Ok c /\
       LogCheb_call false 1 c (Fin nu) = Ok (Fin (/ 10 ^ 20))).
Proof. exact C50_logcheb_refuted_proof. Qed.
Print Assumptions C50_logcheb_refuted.

(** Every arithmetic: writing a bin through Linear, LogLinear or Identity is read back, and
    changes no other bin; an index outside the storage is out of bounds. *)
Theorem C50_bins :
  forall (T : Type) (O : Ops T) (L : DataBox T) (data : list T) (i j : Z) (v : T),
    ((0 <= i < Z.of_nat (length (db_data L)))%Z ->
       (exists L', Linear_set L i v = Ok L' /\ Linear_at L' i = Ok v /\
         (j <> i -> Linear_at L' j = Linear_at L j)) /\
       (exists L', LogLinear_set L i v = Ok L' /\ LogLinear_at L' i = Ok v /\
         (j <> i -> LogLinear_at L' j = LogLinear_at L j))) /\
    (~ (0 <= i < Z.of_nat (length (db_data L)))%Z ->
       Linear_set L i v = UB /\ Linear_at L i = UB /\ LogLinear_set L i v = UB /\ LogLinear_at L i = UB) /\
    ((0 <= i < Z.of_nat (length data))%Z ->
       exists d, Identity_set data i v = Ok d /\ Identity_at d i = Ok v /\ (j <> i -> Identity_at d j = Identity_at data j)) /\
    (~ (0 <= i < Z.of_nat (length data))%Z -> Identity_set data i v = UB /\ Identity_at data i = UB).
Proof. exact C50_bins_proof. Qed.
Print Assumptions C50_bins.
