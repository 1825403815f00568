(** C26. Equality of runtime constants. *)
From Coq Require Import Reals ZArith Lra Lia Bool List.
From Flocq Require Import Core IEEE754.BinarySingleNaN.
From Verif Require Import Proofs.C26 Base.Outcome Base.Ops Inst.ER Inst.ERTac Inst.RConsts Inst.B64 Model.Constants
  Spec.RuntimeConstants Proofs.B64Facts.
Import ListNotations.
Open Scope R_scope.

(** Exact arithmetic: the equality test accepts two sets of constants exactly when
    all 23 members are finite and agree pairwise within the tolerance. *)
Theorem C26_tolerance :
  forall x y : RuntimePC ER,
  RuntimePC_eqb x y = true <->
  Forall2 (fun a b => exists u v, a = Fin u /\ b = Fin v /\ agree u v)
          (rpc_fields x) (rpc_fields y).
Proof. exact C26_tolerance_proof. Qed.
Print Assumptions C26_tolerance.

(** Reflexive on finite constants and symmetric on all constants. *)
Theorem C26_reflexive_symmetric :
  (forall x : RuntimePC ER, Forall (fun a => exists u, a = Fin u) (rpc_fields x) ->
     RuntimePC_eqb x x = true) /\
  (forall x y : RuntimePC ER, RuntimePC_eqb x y = RuntimePC_eqb y x).
Proof. exact C26_reflexive_symmetric_proof. Qed.
Print Assumptions C26_reflexive_symmetric.

(** binary64, any mathematical library: on constants below 2^1000 in magnitude
    the tolerance is below one unit in the last place, and the test is exact
    equality of the 23 members as real numbers. *)
Theorem C26_exact_equality :
  forall (L : Libm) (x y : RuntimePC b64), moderate x -> moderate y ->
  @RuntimePC_eqb _ (B64_ops L) x y = true <->
  Forall2 (fun a b => B2R a = B2R b) (rpc_fields x) (rpc_fields y).
Proof. exact C26_exact_equality_proof. Qed.
Print Assumptions C26_exact_equality.

(** Hence an equivalence relation on such constants. *)
Theorem C26_equivalence :
  forall L : Libm,
  (forall x, moderate x -> @RuntimePC_eqb _ (B64_ops L) x x = true) /\
  (forall x y, moderate x -> moderate y -> @RuntimePC_eqb _ (B64_ops L) x y = true ->
     @RuntimePC_eqb _ (B64_ops L) y x = true) /\
  (forall x y z, moderate x -> moderate y -> moderate z ->
     @RuntimePC_eqb _ (B64_ops L) x y = true -> @RuntimePC_eqb _ (B64_ops L) y z = true ->
     @RuntimePC_eqb _ (B64_ops L) x z = true).
Proof. exact C26_equivalence_proof. Qed.
Print Assumptions C26_equivalence.

(** Constants containing an infinity or a NaN compare unequal to everything,
    themselves included (the doubles as the ideal numbers of [ER]). *)
Theorem C26_infinity_nan :
  forall (L : Libm) (x y : RuntimePC b64),
  Exists (fun a => is_finite a = false) (rpc_fields x) \/
  Exists (fun a => is_finite a = false) (rpc_fields y) ->
  @RuntimePC_eqb _ (B64_ops L) x y = false.
Proof. exact C26_infinity_nan_proof. Qed.
Print Assumptions C26_infinity_nan.

(** Without the bound the test is not equality: when |a| + |b| overflows, numbers
    one and a half times apart compare equal. *)
Theorem C26_overflow_refuted :
  forall L : Libm,
  ~ (forall x y : RuntimePC b64,
       Forall (fun a => is_finite a = true) (rpc_fields x) ->
       Forall (fun a => is_finite a = true) (rpc_fields y) ->
       @RuntimePC_eqb _ (B64_ops L) x y = true ->
       Forall2 (fun a b => B2R a = B2R b) (rpc_fields x) (rpc_fields y)).
Proof. exact C26_overflow_refuted_proof. Qed.
Print Assumptions C26_overflow_refuted.

(** The smallest change of one constant is noticed: 1 and its successor. *)
Example C26_exact_equality_example_holds :
  forall L : Libm,
  moderate (const_rpc (b64_of_Z 1)) /\
  moderate (const_rpc (b64_ldexp 4503599627370497 (-52))) /\
  @RuntimePC_eqb _ (B64_ops L) (const_rpc (b64_of_Z 1)) (const_rpc (b64_of_Z 1)) = true /\
  @RuntimePC_eqb _ (B64_ops L) (const_rpc (b64_of_Z 1))
     (const_rpc (b64_ldexp 4503599627370497 (-52))) = false.
Proof. exact C26_exact_equality_example. Qed.
