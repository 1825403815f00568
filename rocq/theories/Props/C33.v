(** C33. Group averages and the bounds of the group they sample. *)
From Coq Require Import Reals ZArith List Lia Lra Bool.
From Verif Require Import Proofs.C33 Base.Outcome Base.Ops Inst.ER Inst.ERTac Inst.RConsts Model.Constants Model.MeanUtils
  Spec.Physics Spec.Opacities Spec.Tables Spec.Means Proofs.ArrayFacts Proofs.InterpFacts Proofs.TableFacts Proofs.MeanExact.
Import ListNotations.
Open Scope R_scope.

(** Every visited frequency is a positive real number. *)
Theorem C33_positive :
  forall pc : PhysConst R, positive_hkc pc ->
  forall (T lo : R) (hi : ER) (N : Z), 0 < T -> a_group lo hi -> (0 < N)%Z ->
  exists l, visited (finpc pc) (Fin T) (Fin lo) hi N = Ok l /\ length l = Z.to_nat N /\
    forall v, In v l -> exists nu, v = Fin nu /\ 0 < nu.
Proof. exact C33_positive_proof. Qed.
Print Assumptions C33_positive.

(** The three cases in which the samples stay in the group: it overlaps the thermal window
    [kT/1000h, 1000kT/h]; or neither edge is more than a decade outside the window; or it
    spans an octave. Then every sample is above the lower edge and, up to the guard of the
    logarithm, below the upper edge. *)
Theorem C33_inside :
  forall pc : PhysConst R, positive_hkc pc ->
  forall (T lo : R) (hi : ER) (N : Z), 0 < T -> a_group lo hi -> (0 < N)%Z ->
  let tmin := pc_kb pc * T / (1000 * pc_h pc) in
  let tmax := 1000 * pc_kb pc * T / pc_h pc in
  (lo < tmax /\ (forall x, hi = Fin x -> tmin < x)) \/
  (tmin / 10 <= lo /\ exists x, hi = Fin x /\ x <= 10 * tmax) \/
  (exists x, hi = Fin x /\ 2 * lo <= x) ->
  exists l, visited (finpc pc) (Fin T) (Fin lo) hi N = Ok l /\ length l = Z.to_nat N /\
    forall v, In v l -> exists nu, v = Fin nu /\ lo < nu /\ (forall x, hi = Fin x -> nu < x + tiny).
Proof. exact C33_inside_proof. Qed.
Print Assumptions C33_inside.

(** In CGS units, about 48000 K: the groups [0, 10^13] and [10^13, infinity). *)
Example C33_inside_example_holds :
  let T := ex_T cgsR in
  let tmin := pc_kb cgsR * T / (1000 * pc_h cgsR) in
  let tmax := 1000 * pc_kb cgsR * T / pc_h cgsR in
  0 < T /\ a_group 0 (Fin (10 ^ 13)) /\ a_group (10 ^ 13) PInf /\
  (0 < tmax /\ (forall x, Fin (10 ^ 13) = Fin x -> tmin < x)) /\
  (10 ^ 13 < tmax /\ (forall x, PInf = Fin x -> tmin < x)).
Proof. exact C33_inside_example. Qed.

(** An unbounded group above the thermal window: every sampled frequency lies below the
    group, at all such temperatures and for all sample counts. *)
Theorem C33_unbounded_refuted :
  forall pc : PhysConst R, positive_hkc pc ->
  forall (T lo : R) (N : Z), 0 < T -> (0 < N)%Z ->
  1000 * pc_kb pc * T / pc_h pc + tiny <= lo ->
  exists l, visited (finpc pc) (Fin T) (Fin lo) PInf N = Ok l /\ length l = Z.to_nat N /\
    forall v, In v l -> exists nu, v = Fin nu /\ nu < lo.
Proof. exact C33_unbounded_refuted_proof. Qed.
Print Assumptions C33_unbounded_refuted.

(** The group [10^20, infinity) at about 48000 K. *)
Example C33_unbounded_refuted_example_holds :
  0 < ex_T cgsR /\ 1000 * pc_kb cgsR * ex_T cgsR / pc_h cgsR + tiny <= 10 ^ 20.
Proof. exact C33_unbounded_refuted_example. Qed.

(** A narrow bounded group far below, or reaching far above, the thermal window: the first
    sample lies below the group. *)
Theorem C33_narrow_refuted :
  forall pc : PhysConst R, positive_hkc pc ->
  forall (T lo hi : R) (N : Z), 0 < T -> (2 <= N)%Z ->
  let tmin := pc_kb pc * T / (1000 * pc_h pc) in
  let tmax := 1000 * pc_kb pc * T / pc_h pc in
  (hi <= tmin /\ lo < tmin / 10) \/ (tmax <= lo /\ 10 * tmax < hi) ->
  0 < lo -> 6 / 10 * hi + 2 * tiny <= lo < hi ->
  exists l nu, visited (finpc pc) (Fin T) (Fin lo) (Fin hi) N = Ok (Fin nu :: l) /\ nu < lo.
Proof. exact C33_narrow_refuted_proof. Qed.
Print Assumptions C33_narrow_refuted.

(** At about 48000 K: the groups [8 10^9, 10^10] and [8 10^19, 10^20]. *)
Example C33_narrow_refuted_example_holds :
  let T := ex_T cgsR in
  let tmin := pc_kb cgsR * T / (1000 * pc_h cgsR) in
  let tmax := 1000 * pc_kb cgsR * T / pc_h cgsR in
  0 < T /\
  (10 ^ 10 <= tmin /\ 8 * 10 ^ 9 < tmin / 10) /\ 6 / 10 * 10 ^ 10 + 2 * tiny <= 8 * 10 ^ 9 < 10 ^ 10 /\
  (tmax <= 8 * 10 ^ 19 /\ 10 * tmax < 10 ^ 20) /\ 6 / 10 * 10 ^ 20 + 2 * tiny <= 8 * 10 ^ 19 < 10 ^ 20.
Proof. exact C33_narrow_refuted_example. Qed.
