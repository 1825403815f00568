(** C68: an indexer interpolates the data written last, whatever it held before. *)
From Coq Require Import Reals ZArith List Lia Lra Arith Bool.
From Verif Require Import Proofs.C68 Base.Outcome Base.Ops Inst.ER Inst.ERTac Model.Spiner Model.Chebyshev Model.Indexers.
From Verif Require Import Spec.Means Spec.Chebyshev Spec.Writes Proofs.ArrayFacts Proofs.MeanExact Proofs.ChebModel Proofs.ChebFacts Proofs.C50.
Import ListNotations.
Open Scope R_scope.

(** Every arithmetic: after any sequence of writes through operator[], a Linear or LogLinear
    indexer is the one that would be built over an array holding the values written last, so it
    gives the same answers. *)
Theorem C68_linear :
  forall (T : Type) (O : Ops T) (data data' : list T) (numin numax : T) (N : Z) (h : list (step T)) (b : DataBox T),
    within (length data) h -> after h data data' ->
    (Linear_ptr data numin numax N = Ok b ->
     exists b', use Linear_set (fun b => Ok b) h b = Ok b' /\ Linear_ptr data' numin numax N = Ok b' /\
       forall fresh nu, Linear_ptr data' numin numax N = Ok fresh -> Linear_call b' nu = Linear_call fresh nu) /\
    (LogLinear_ptr data numin numax N = Ok b ->
     exists b', use LogLinear_set (fun b => Ok b) h b = Ok b' /\ LogLinear_ptr data' numin numax N = Ok b' /\
       forall fresh nu, LogLinear_ptr data' numin numax N = Ok fresh -> LogLinear_call b' nu = LogLinear_call fresh nu).
Proof. exact C68_linear_proof. Qed.
Print Assumptions C68_linear.

Example C68_linear_example_holds :
  let h := [Write 1 7; Write 0 3; Write 1 9] in
  within 3 h /\ after h [1; 2; 4] [3; 9; 4].
Proof. exact C68_linear_example. Qed.

(** Every arithmetic and every matrix: after any history of writes and SetInterpCoeffs that ends
    with a SetInterpCoeffs and further writes, a LogCheb indexer answers as one newly built, over
    any scratch arrays, from the data as they stood at that SetInterpCoeffs. *)
Theorem C68_logcheb :
  forall (T : Type) (O : Ops T) (n : nat) (v : nat -> nat -> result T) (A : nat -> nat -> T)
         (data mid last logs1 logs2 coeffs1 coeffs2 : list T) (numin numax : T) (h ws : list (step T)),
    (forall i j, (i < n)%nat -> (j < n)%nat -> v i j = Ok (A i j)) ->
    (n <= length data)%nat -> (n <= length logs1)%nat -> (n <= length coeffs1)%nat ->
    (n <= length logs2)%nat -> (n <= length coeffs2)%nat ->
    within (length data) h -> after h data mid ->
    within (length data) ws -> (forall s, In s ws -> s <> Prepare) -> after ws mid last ->
    exists c fresh,
      use LogCheb_set (SetInterpCoeffs (Z.of_nat n) v) (h ++ Prepare :: ws)
        (mk_LogCheb data logs1 coeffs1 numin numax) = Ok c /\
      SetInterpCoeffs (Z.of_nat n) v (mk_LogCheb mid logs2 coeffs2 numin numax) = Ok fresh /\
      lc_data c = last /\
      forall dbg nu, LogCheb_call dbg (Z.of_nat n) c nu = LogCheb_call dbg (Z.of_nat n) fresh nu.
Proof. exact C68_logcheb_proof. Qed.
Print Assumptions C68_logcheb.

(** one bin that held 9, is given 4, prepared, then given 100: the answer is that for 4 *)
Example C68_logcheb_example_holds :
  exists c, use LogCheb_set (SetInterpCoeffs 1 (fun i j => Ok (Fin (dct 1 i j))))
      ([Write 0 (Fin 4)] ++ Prepare :: [Write 0 (Fin 100)])
      (mk_LogCheb [Fin 9] [NaN] [NaN] (Fin 1) (Fin 100)) = Ok c /\
    LogCheb_at c 0 = Ok (Fin 100) /\ LogCheb_call true 1 c (Fin 10) = Ok (Fin (4 + / 10 ^ 20)).
Proof. exact C68_logcheb_example. Qed.
