(** C69: filling an indexer from an opacity and interpolating gives the opacity back. *)
From Coquelicot Require Import Coquelicot.
From Coq Require Import Reals ZArith List Lia Lra Arith Bool.
From Verif Require Import Base.Outcome Base.Ops Inst.ER Inst.ERTac Model.Spiner Model.Chebyshev Model.Indexers.
From Verif Require Import Model.Constants Model.RadTypes Model.PhotonApi Model.GrayPhotons Model.NeutrinoApi Model.SpinerNeutrinos.
From Verif Require Import Model.NonCGSPhotons Model.NonCGSNeutrinos Spec.Opacities Spec.Arrays Spec.Means Spec.Tables.
From Verif Require Import Spec.Chebyshev Proofs.ArrayFacts Proofs.MeanExact Proofs.InterpFacts Proofs.C17 Proofs.C18 Proofs.C50.
From Verif Require Import Inst.RConsts Spec.Physics Spec.Integral Proofs.C08.
Import ListNotations.
Open Scope R_scope.

(** memory m holds the n frequencies x 0 ... x (n - 1) from p on; the n output cells from q on
    lie apart from them *)
Definition prepared_buffers (m : mem ER) (p q n : nat) (x : nat -> R) : Prop :=
  (p + n <= length m)%nat /\ (q + n <= length m)%nat /\ (q + n <= p \/ p + n <= q)%nat /\
  forall i, (i < n)%nat -> nth_error m (p + i) = Some (Fin (x i)).
(** g changes by at most K per unit of s between a and b *)
Definition lipschitz (K : R) (s g : R -> R) (a b : R) : Prop :=
  forall x y, a <= x <= b -> a <= y <= b -> Rabs (g x - g y) <= K * Rabs (s x - s y).

(** [fills F V]: let the scalar call F return g. When the array call V has filled the cells of an
    indexer, a Linear or LogLinear indexer on these cells returns g at its bins, and between them
    g up to half of the change of g allowed over one bin; a LogCheb indexer with the matrix of
    discrete orthogonality returns |g| + 1e-20 at its nodes. *)
Definition fills (F : ER -> result ER) (V : array_call ER) : Prop :=
  forall (a b : R) (n : nat) (g : R -> R) (K : R) (m : mem ER) (p q : nat),
  a < b ->
  ((2 <= n)%nat -> (Z.of_nat n < 2 ^ 31)%Z -> prepared_buffers m p q n (lin_bin a b n) ->
   (forall nu, a <= nu <= b -> F (Fin nu) = Ok (Fin (g nu))) -> lipschitz K (fun x => x) g a b ->
   exists m' L, V p q (Z.of_nat n) m = Ok m' /\
     Linear_ptr (skipn q m') (Fin a) (Fin b) (Z.of_nat n) = Ok L /\
     (forall i, (i < n)%nat -> Linear_call L (Fin (lin_bin a b n i)) = F (Fin (lin_bin a b n i))) /\
     forall nu, a <= nu <= b -> exists v, Linear_call L (Fin nu) = Ok (Fin v) /\
       Rabs (v - g nu) <= K * ((b - a) / (INR n - 1)) / 2) /\
  ((2 <= n)%nat -> (Z.of_nat n < 2 ^ 31)%Z -> 0 < a -> prepared_buffers m p q n (log_bin a b n) ->
   (forall nu, a <= nu <= b -> F (Fin nu) = Ok (Fin (g nu))) -> lipschitz K log10 g a b ->
   exists m' L, V p q (Z.of_nat n) m = Ok m' /\
     LogLinear_ptr (skipn q m') (Fin a) (Fin b) (Z.of_nat n) = Ok L /\
     (forall i, (i < n)%nat -> LogLinear_call L (Fin (log_bin a b n i)) = F (Fin (log_bin a b n i))) /\
     forall nu, a <= nu <= b -> exists v, LogLinear_call L (Fin nu) = Ok (Fin v) /\
       Rabs (v - g nu) <= K * ((log10 b - log10 a) / (INR n - 1)) / 2) /\
  (0 < a -> let node k := pow10 (point (log10 a) (log10 b) n k) in
   prepared_buffers m p q n node ->
   (forall k, (k < n)%nat -> F (Fin (node k)) = Ok (Fin (g (node k)))) ->
   forall (dbg : bool) (v : nat -> nat -> result ER) (logs coeffs : list ER),
   (forall i j, (i < n)%nat -> (j < n)%nat -> v i j = Ok (Fin (dct n i j))) ->
   (n <= length logs)%nat -> (n <= length coeffs)%nat ->
   exists m' c, V p q (Z.of_nat n) m = Ok m' /\
     SetInterpCoeffs (Z.of_nat n) v (mk_LogCheb (skipn q m') logs coeffs (Fin a) (Fin b)) = Ok c /\
     forall k, (k < n)%nat ->
       LogCheb_call dbg (Z.of_nat n) c (Fin (node k)) = Ok (Fin (Rabs (g (node k)) + / 10 ^ 20))).

(** a line between two values of a Lipschitz function *)
Lemma line_error (s g : R -> R) K a b x0 x1 x : lipschitz K s g a b -> 0 <= K ->
  a <= x0 <= b -> a <= x1 <= b -> a <= x <= b -> s x0 <= s x <= s x1 -> s x0 < s x1 ->
  Rabs (line (s x0) (g x0) (s x1) (g x1) (s x) - g x) <= K * (s x1 - s x0) / 2.
Proof.
  intros HL HK H0 H1 Hx Hs Hlt.
  pose proof (HL x0 x H0 Hx) as A. pose proof (HL x1 x H1 Hx) as B.
  rewrite (Rabs_left1 (s x0 - s x)) in A by lra. rewrite (Rabs_pos_eq (s x1 - s x)) in B by lra.
  unfold line. set (h := s x1 - s x0) in *. set (t := (s x - s x0) / h).
  assert (Hh : 0 < h) by (unfold h; lra).
  assert (Ht : s x - s x0 = t * h) by (unfold t; field; lra).
  assert (Ht2 : s x1 - s x = (1 - t) * h) by (rewrite Rmult_minus_distr_r, <- Ht; unfold h; ring).
  assert (T0 : 0 <= t) by (unfold t; apply Rmult_le_pos; [lra|left; apply Rinv_0_lt_compat; exact Hh]).
  assert (T1 : 0 <= 1 - t).
  { apply (Rmult_le_reg_r h); [exact Hh|]. rewrite <- Ht2. lra. }
  rewrite Ht2 in B. replace (- (s x0 - s x)) with (t * h) in A by lra.
  replace (g x0 + t * (g x1 - g x0) - g x) with ((1 - t) * (g x0 - g x) + t * (g x1 - g x)) by ring.
  eapply Rle_trans; [apply Rabs_triang|]. rewrite !Rabs_mult, (Rabs_pos_eq (1 - t)), (Rabs_pos_eq t) by assumption.
  assert (E : (1 - t) * Rabs (g x0 - g x) + t * Rabs (g x1 - g x) <= 2 * (t * (1 - t)) * (K * h)).
  { apply Rle_trans with ((1 - t) * (K * (t * h)) + t * (K * ((1 - t) * h))).
    - apply Rplus_le_compat; apply Rmult_le_compat_l; assumption.
    - right. ring. }
  assert (Q : t * (1 - t) <= 1 / 4) by (pose proof (pow2_ge_0 (t - 1 / 2)); lra).
  assert (KH : 0 <= K * h) by (apply Rmult_le_pos; lra).
  assert (t * (1 - t) * (K * h) <= 1 / 4 * (K * h)) by (apply Rmult_le_compat_r; assumption). lra.
Qed.
Lemma lipschitz_pos K s g a b : lipschitz K s g a b -> a < b -> s a < s b -> 0 <= K.
Proof.
  intros HL Hab Hs. pose proof (HL a b ltac:(lra) ltac:(lra)) as A. pose proof (Rabs_pos (g a - g b)).
  rewrite (Rabs_left (s a - s b)) in A by lra. nra.
Qed.

(** the bins an array call has to cope with *)
Definition good_bin (F : ER -> result ER) (nu : ER) : Prop := is_fin nu /\ exists v, F nu = Ok v.
Lemma filled_reals (F : ER -> result ER) V m p q n x g : prepared_buffers m p q n x ->
  (forall i, (i < n)%nat -> F (Fin (x i)) = Ok (Fin (g (x i)))) -> converted (good_bin F) F V ->
  exists m', V p q (Z.of_nat n) m = Ok m' /\ reals (skipn q m') n (fun i => g (x i)).
Proof.
  intros (Hp & Hq & Hd & Hm) HF HV. destruct (HV p q (Z.of_nat n) m) as [_ H].
  rewrite Nat2Z.id in H. destruct (H ltac:(lia) Hp Hq Hd) as (m' & E & L & R & _).
  - intros i nu Hi Hn. rewrite (Hm i Hi) in Hn. injection Hn as <-. split; eexists; [reflexivity|apply HF; exact Hi].
  - exists m'. split; [exact E|]. intros j Hj.
    destruct (R j (Fin (x j)) Hj (Hm j Hj)) as (v & Ev & Hv). rewrite (HF j Hj) in Ev. injection Ev as <-.
    rewrite <- Hv. clear. revert j. generalize m' as l. induction q as [|q IH]; intros [|y l] j; cbn; try reflexivity.
    + destruct j; reflexivity.
    + apply IH.
Qed.

Lemma lin_bin_in a b n i : a < b -> (2 <= n)%nat -> (i < n)%nat -> a <= lin_bin a b n i <= b.
Proof.
  intros Hab Hn Hi. unfold lin_bin.
  assert (N1 : 0 < INR n - 1).
  { apply le_INR in Hn. replace (INR 2) with 2 in Hn by (cbn; ring). lra. }
  assert (I0 : 0 <= INR i) by apply pos_INR.
  assert (I1 : INR i <= INR n - 1).
  { assert (H : INR (S i) <= INR n) by (apply le_INR; lia). rewrite S_INR in H. lra. }
  assert (H0 : 0 < (b - a) / (INR n - 1)) by (apply Rdiv_lt_0_compat; lra).
  assert (H1 : (INR n - 1) * ((b - a) / (INR n - 1)) = b - a) by (field; lra).
  set (w := (b - a) / (INR n - 1)) in *.
  assert (H2 : INR i * w <= (INR n - 1) * w) by (apply Rmult_le_compat_r; lra).
  assert (H3 : 0 <= INR i * w) by (apply Rmult_le_pos; lra). lra.
Qed.
Lemma lin_bin_step a b n i : lin_bin a b n (S i) - lin_bin a b n i = (b - a) / (INR n - 1).
Proof. unfold lin_bin. rewrite S_INR. ring. Qed.
Lemma step_pos a b n : a < b -> (2 <= n)%nat -> 0 < (b - a) / (INR n - 1).
Proof.
  intros Hab Hn. apply le_INR in Hn. replace (INR 2) with 2 in Hn by (cbn; ring). apply Rdiv_lt_0_compat; lra.
Qed.
Lemma log10_lt x y : 0 < x -> x < y -> log10 x < log10 y.
Proof.
  intros Hx Hxy. unfold log10. apply Rmult_lt_compat_r; [apply Rinv_0_lt_compat; apply ln10_pos|apply ln_increasing; assumption].
Qed.
Lemma log10_le x y : 0 < x -> x <= y -> log10 x <= log10 y.
Proof. intros Hx [H| ->]; [left; apply log10_lt; assumption|right; reflexivity]. Qed.
Lemma log_bin_in a b n i : 0 < a -> a < b -> (2 <= n)%nat -> (i < n)%nat -> a <= log_bin a b n i <= b.
Proof.
  intros Ha Hab Hn Hi. pose proof (log_bin_pos a b n i Ha).
  pose proof (lin_bin_in (log10 a) (log10 b) n i (log10_lt a b Ha Hab) Hn Hi) as B.
  rewrite <- log_bin_log in B by assumption. split; apply log10_le_inv; lra.
Qed.

Lemma good_fills F V : converted (good_bin F) F V -> fills F V.
Proof.
  intros HV a b n g K m p q Hab. split; [|split].
  - intros Hn Hn2 Hb HF HL.
    destruct (filled_reals F V m p q n (lin_bin a b n) g Hb) as (m' & E & R); [|exact HV|].
    { intros i Hi. apply HF. apply lin_bin_in; assumption. }
    destruct (C50_linear_proof a b n _ _ Hab Hn Hn2 R) as (L & EL & H1 & H2).
    exists m', L. split; [exact E|]. split; [exact EL|]. split.
    + intros i Hi. rewrite HF by (apply lin_bin_in; assumption). apply H1. exact Hi.
    + intros nu Hnu. destruct (H2 nu Hnu) as (i & v & Hi & Hc & Ev & -> & _).
      eexists. split; [exact Ev|]. rewrite <- (lin_bin_step a b n i).
      pose proof (lin_bin_step a b n i). pose proof (step_pos a b n Hab Hn).
      apply (line_error (fun x => x) g K a b); try assumption; try lra.
      * apply (lipschitz_pos K (fun x => x) g a b); assumption.
      * apply lin_bin_in; try assumption. lia.
      * apply lin_bin_in; assumption.
  - intros Hn Hn2 Ha Hb HF HL.
    destruct (filled_reals F V m p q n (log_bin a b n) g Hb) as (m' & E & R); [|exact HV|].
    { intros i Hi. apply HF. apply log_bin_in; assumption. }
    destruct (C50_loglinear_proof a b n _ _ Ha Hab Hn Hn2 R) as (L & EL & H1 & H2).
    exists m', L. split; [exact E|]. split; [exact EL|]. split.
    + intros i Hi. rewrite HF by (apply log_bin_in; assumption). apply H1. exact Hi.
    + intros nu Hnu. destruct (H2 nu Hnu) as (i & v & Hi & Hc & Ev & -> & _).
      eexists. split; [exact Ev|]. rewrite <- (lin_bin_step (log10 a) (log10 b) n i).
      rewrite <- !log_bin_log by assumption.
      pose proof (lin_bin_step (log10 a) (log10 b) n i) as St. rewrite <- !log_bin_log in St by assumption.
      pose proof (step_pos (log10 a) (log10 b) n (log10_lt a b Ha Hab) Hn).
      pose proof (log_bin_pos a b n i Ha). pose proof (log_bin_pos a b n (S i) Ha).
      apply (line_error log10 g K a b); try assumption; try lra.
      * apply (lipschitz_pos K log10 g a b); try assumption. apply log10_lt; assumption.
      * apply log_bin_in; try assumption. lia.
      * apply log_bin_in; assumption.
      * split; apply log10_le; lra.
  - intros Ha node Hb HF dbg v logs coeffs Hv Hl Hc.
    destruct (filled_reals F V m p q n node g Hb HF HV) as (m' & E & R).
    destruct (C50_logcheb_proof dbg a b n v (skipn q m') logs coeffs _ Ha Hab R Hl Hc Hv) as (c & Ec & _ & H & _).
    exists m', c. split; [exact E|]. split; [exact Ec|]. exact H.
Qed.
Lemma converted_fills F V : converted is_fin F V -> fills F V.
Proof.
  intros H. apply good_fills. intros p q n m. destruct (H p q n m) as [H0 H1]. split; [exact H0|].
  intros Hn Hp Hq Hd Hg. apply H1; try assumption. intros i nu Hi E. apply (Hg i nu Hi E).
Qed.
Lemma or_fail_fills F V : bin_by_bin_or_fail F V -> fills F V.
Proof.
  intros H. apply good_fills. intros p q n m. destruct (H p q n m) as [H0 H1]. split; [exact H0|].
  intros Hn Hp Hq Hd Hg. apply H1; try assumption.
  - destruct Hd as [Hd|Hd]; [left; lia|right; exact Hd].
  - intros i nu Hi E. apply (Hg i nu Hi E).
Qed.
Lemma bins_converted (P : ER -> Prop) F V : bin_by_bin F V -> converted P F V.
Proof.
  intros H p q n m. destruct (H p q n m) as [H0 H1]. split; [exact H0|].
  intros Hn Hp Hq Hd _. apply H1; try assumption. destruct Hd as [Hd|Hd]; [left; lia|right; exact Hd].
Qed.

(** Exact arithmetic: the photon opacities, the parameters and the state arbitrary. *)
Lemma C69_photons_proof :
  forall (pc : PhysConst ER) (o : PhotonOpac ER), photon_opacity pc o -> forall rho T,
    fills (ph_Absorption o rho T) (ph_Absorption_v o rho T) /\
    fills (ph_AngleAvgAbsorption o rho T) (ph_AngleAvgAbsorption_v o rho T) /\
    fills (ph_EmissivityPerNuOmega o rho T) (ph_EmissivityPerNuOmega_v o rho T) /\
    fills (ph_EmissivityPerNu o rho T) (ph_EmissivityPerNu_v o rho T).
Proof.
  intros pc o Ho rho T. destruct (C17_photon_arrays_proof ER ER_ops pc o Ho rho T) as (A & B & C & D).
  split; [|split; [|split]]; apply converted_fills; apply bins_converted; assumption.
Qed.

(** The same for the neutrino opacities. *)
Lemma C69_neutrinos_proof :
  forall (ns : Z) (pc : PhysConst ER) (o : NuOpac ER), neutrino_opacity ns pc o -> forall rho T Ye type,
    fills (nu_Absorption o rho T Ye type) (nu_Absorption_v o rho T Ye type) /\
    fills (nu_AngleAvgAbsorption o rho T Ye type) (nu_AngleAvgAbsorption_v o rho T Ye type) /\
    fills (nu_EmissivityPerNuOmega o rho T Ye type) (nu_EmissivityPerNuOmega_v o rho T Ye type) /\
    fills (nu_EmissivityPerNu o rho T Ye type) (nu_EmissivityPerNu_v o rho T Ye type).
Proof.
  intros ns pc o Ho rho T Ye type.
  destruct (C17_neutrino_arrays_proof ER ER_ops ns pc o Ho rho T Ye type) as (A & B & C & D).
  split; [|split; [|split]]; apply converted_fills; apply bins_converted; assumption.
Qed.

(** The same for the tabulated neutrino opacity, whatever the tables. *)
Lemma C69_tabulated_proof :
  forall (ns : Z) (pc : PhysConst ER) (t : SpinerTables ER) rho T Ye type, let o := SpinerOpacity ns pc t in
    fills (nu_Absorption o rho T Ye type) (nu_Absorption_v o rho T Ye type) /\
    fills (nu_AngleAvgAbsorption o rho T Ye type) (nu_AngleAvgAbsorption_v o rho T Ye type) /\
    fills (nu_EmissivityPerNuOmega o rho T Ye type) (nu_EmissivityPerNuOmega_v o rho T Ye type) /\
    fills (nu_EmissivityPerNu o rho T Ye type) (nu_EmissivityPerNu_v o rho T Ye type).
Proof.
  intros ns pc t rho T Ye type o.
  destruct (C17_tabulated_proof ER ER_ops ns pc t rho T Ye type) as (A & B & C & D).
  split; [|split; [|split]]; apply or_fail_fills; assumption.
Qed.

(** The same in units of the caller's choice: bins, range and answers are all in those units. *)
Lemma C69_units_proof :
  forall t mass len temp, t <> 0 ->
  (forall (pc : PhysConst ER) (o : PhotonOpac ER), photon_opacity pc o ->
    let w := NonCGSUnits pc o (mk_units (Fin t) mass len temp) in forall rho T,
    fills (ph_Absorption w rho T) (ph_Absorption_v w rho T) /\
    fills (ph_AngleAvgAbsorption w rho T) (ph_AngleAvgAbsorption_v w rho T) /\
    fills (ph_EmissivityPerNuOmega w rho T) (ph_EmissivityPerNuOmega_v w rho T) /\
    fills (ph_EmissivityPerNu w rho T) (ph_EmissivityPerNu_v w rho T)) /\
  (forall (ns : Z) (pc : PhysConst ER) (o : NuOpac ER), neutrino_opacity ns pc o ->
    let w := NuNonCGSUnits pc o (mk_units (Fin t) mass len temp) in forall rho T Ye type,
    fills (nu_Absorption w rho T Ye type) (nu_Absorption_v w rho T Ye type) /\
    fills (nu_AngleAvgAbsorption w rho T Ye type) (nu_AngleAvgAbsorption_v w rho T Ye type) /\
    fills (nu_EmissivityPerNuOmega w rho T Ye type) (nu_EmissivityPerNuOmega_v w rho T Ye type) /\
    fills (nu_EmissivityPerNu w rho T Ye type) (nu_EmissivityPerNu_v w rho T Ye type)).
Proof.
  intros t mass len temp Ht. split.
  - intros pc o Ho w rho T. destruct (C18_disjoint_exact_proof pc o Ho t mass len temp Ht rho T) as (A & B & C & D).
    split; [|split; [|split]]; apply converted_fills; assumption.
  - intros ns pc o Ho w rho T Ye type.
    destruct (C18_disjoint_exact_neutrinos_proof ns pc o Ho t mass len temp Ht rho T Ye type) as (A & B & C & D).
    split; [|split; [|split]]; apply converted_fills; assumption.
Qed.

(** bins at 1, 2 and 3 Hz in cells 0-2, their values in cells 3-5: a gray opacity with 5 cm^2/g at
    2 g/cm^3, interpolated at 5/2 Hz; the absorption coefficient does not depend on frequency *)
Lemma C69_photons_example :
  forall pc : PhysConst ER, exists m' L,
    ph_Absorption_v (GrayOpacity pc (Fin 5)) (Fin 2) (Fin 300) 0%nat 3%nat 3%Z
      [Fin 1; Fin 2; Fin 3; NaN; NaN; NaN] = Ok m' /\
    Linear_ptr (skipn 3 m') (Fin 1) (Fin 3) 3 = Ok L /\ Linear_call L (Fin (5 / 2)) = Ok (Fin 10).
Proof.
  intros pc.
  destruct (C69_photons_proof pc (GrayOpacity pc (Fin 5)) (or_introl (ex_intro _ (Fin 5) eq_refl)) (Fin 2) (Fin 300)) as [H _].
  destruct (H 1 3 3%nat (fun _ => 10) 0 [Fin 1; Fin 2; Fin 3; NaN; NaN; NaN] 0%nat 3%nat ltac:(lra)) as [A _].
  destruct A as (m' & L & E & EL & _ & B).
  - lia.
  - lia.
  - split; [cbn; lia|]. split; [cbn; lia|]. split; [right; cbn; lia|].
    intros [|[|[|i]]] Hi; try lia; cbn; do 2 f_equal; unfold lin_bin; cbn [INR]; field.
  - intros nu Hnu. transitivity (Ok (Omul (Fin 2) (Fin 5))); [reflexivity|].
    rewrite fin_mul. replace (2 * 5) with 10 by ring. reflexivity.
  - intros x y _ _. rewrite Rminus_eq_0, Rabs_R0. lra.
  - exists m', L. split; [exact E|]. split; [exact EL|].
    destruct (B (5 / 2) ltac:(lra)) as (v & Ev & Hv). rewrite Ev. do 2 f_equal.
    replace (0 * ((3 - 1) / (INR 3 - 1)) / 2) with 0 in Hv by (unfold Rdiv; ring).
    pose proof (Rabs_pos (v - 10)). assert (Z : Rabs (v - 10) = 0) by lra.
    destruct (Req_dec (v - 10) 0) as [Q|Q]; [lra|]. apply Rabs_no_R0 in Q. contradiction.
Qed.

(** a function with a continuous derivative is Lipschitz on an interval *)
Lemma c1_lipschitz (g D : R -> R) a b : a < b -> (forall x, a <= x <= b -> is_derive g x (D x)) ->
  (forall x, a <= x <= b -> continuity_pt D x) ->
  exists K, 0 <= K /\ forall x y, a <= x <= b -> a <= y <= b -> Rabs (g x - g y) <= K * Rabs (x - y).
Proof.
  intros Hab HD HC.
  destruct (continuity_ab_maj (fun x => Rabs (D x)) a b ltac:(lra)) as [mx [Hm Hin]].
  { intros x Hx. apply (continuity_pt_comp D Rabs); [apply HC; exact Hx|apply Rcontinuity_abs]. }
  exists (Rabs (D mx)). split; [apply Rabs_pos|].
  assert (G : forall x y, a <= x <= b -> a <= y <= b -> x < y -> Rabs (g x - g y) <= Rabs (D mx) * Rabs (x - y)).
  { intros x y Hx Hy Hlt.
    destruct (MVT_gen g x y D) as [c [Hc E]].
    - intros z Hz. rewrite Rmin_left, Rmax_right in Hz by lra. apply HD. lra.
    - intros z Hz. rewrite Rmin_left, Rmax_right in Hz by lra.
      apply continuity_pt_filterlim. apply (@ex_derive_continuous R_AbsRing R_NormedModule). exists (D z). apply HD. lra.
    - rewrite Rmin_left, Rmax_right in Hc by lra.
      rewrite <- (Rabs_Ropp (g x - g y)), <- (Rabs_Ropp (x - y)).
      replace (- (g x - g y)) with (g y - g x) by ring. replace (- (x - y)) with (y - x) by ring.
      rewrite E, Rabs_mult. apply Rmult_le_compat_r; [apply Rabs_pos|]. apply Hm. lra. }
  intros x y Hx Hy. destruct (Rtotal_order x y) as [H|[-> |H]].
  - apply G; assumption.
  - rewrite !Rminus_eq_0, !Rabs_R0. lra.
  - rewrite <- (Rabs_Ropp (g x - g y)), <- (Rabs_Ropp (x - y)).
    replace (- (g x - g y)) with (g y - g x) by ring. replace (- (x - y)) with (y - x) by ring. apply G; assumption.
Qed.
Lemma shape_pos u x : 0 < u -> 0 < x -> exp (u * x) - 1 <> 0.
Proof. intros Hu Hx. assert (1 < exp (u * x)) by (rewrite <- exp_0; apply exp_increasing; nra). lra. Qed.
Definition shape_slope u x := (3 * x ^ 2 * (exp (u * x) - 1) - x ^ 3 * (u * exp (u * x))) / (exp (u * x) - 1) ^ 2.
Lemma shape_derive u x : 0 < u -> 0 < x -> is_derive (fun x => x ^ 3 / (exp (u * x) - 1)) x (shape_slope u x).
Proof.
  intros Hu Hx. pose proof (shape_pos u x Hu Hx). unfold shape_slope. auto_derive; [assumption|]. simpl. field. assumption.
Qed.
Lemma shape_slope_cont u x : 0 < u -> 0 < x -> continuity_pt (shape_slope u) x.
Proof.
  intros Hu Hx. pose proof (shape_pos u x Hu Hx). apply continuity_pt_filterlim.
  apply (@ex_derive_continuous R_AbsRing R_NormedModule). unfold shape_slope. auto_derive. 
  simpl. intros Q. apply H. nra.
Qed.

Lemma planck_lipschitz h k c T a b : 0 < h -> 0 < k -> 0 < c -> 0 < T -> 0 < a -> a < b ->
  exists K, 0 <= K /\ lipschitz K (fun x => x) (Planck_B h k c T) a b.
Proof.
  intros Hh Hk Hc HT Ha Hab. set (u := h / (k * T)).
  assert (KT : 0 < k * T) by (apply Rmult_lt_0_compat; assumption).
  assert (Hu : 0 < u) by (apply Rdiv_lt_0_compat; assumption).
  destruct (c1_lipschitz (fun x => x ^ 3 / (exp (u * x) - 1)) (shape_slope u) a b Hab) as (K & HK & H).
  - intros x Hx. apply shape_derive; lra.
  - intros x Hx. apply shape_slope_cont; lra.
  - assert (C2 : 0 < 2 * h / c ^ 2) by (apply Rdiv_lt_0_compat; [lra|apply pow_lt; exact Hc]).
    exists (2 * h / c ^ 2 * K). split; [apply Rmult_le_pos; lra|].
    assert (E : forall x, a <= x <= b -> Planck_B h k c T x = 2 * h / c ^ 2 * (x ^ 3 / (exp (u * x) - 1))).
    { intros x Hx. unfold Planck_B. replace (h * x / (k * T)) with (u * x) by (unfold u; field; lra).
      pose proof (shape_pos u x Hu ltac:(lra)). field. split; [assumption|lra]. }
    intros x y Hx Hy. rewrite (E x Hx), (E y Hy), <- Rmult_minus_distr_l, Rabs_mult, (Rabs_pos_eq (2 * h / c ^ 2)) by lra.
    rewrite Rmult_assoc. apply Rmult_le_compat_l; [lra|]. apply H; assumption.
Qed.
Lemma lipschitz_scale r K s g a b : lipschitz K s g a b -> lipschitz (Rabs r * K) s (fun x => r * g x) a b.
Proof.
  intros H x y Hx Hy. rewrite <- Rmult_minus_distr_l, Rabs_mult, Rmult_assoc.
  apply Rmult_le_compat_l; [apply Rabs_pos|]. apply H; assumption.
Qed.
Lemma ln_gap x y b : 0 < x -> x <= y -> y <= b -> y - x <= b * (ln y - ln x).
Proof.
  intros Hx Hxy Hyb. pose proof (exp_ineq1_le (- (ln y - ln x))) as E.
  replace (- (ln y - ln x)) with (ln x + - ln y) in E by ring.
  rewrite exp_plus, exp_Ropp, !exp_ln in E by lra.
  assert (L : 0 <= ln y - ln x).
  { destruct Hxy as [Hxy| <-]; [|lra]. pose proof (ln_increasing x y Hx Hxy). lra. }
  assert (M : y * (1 + (ln x + - ln y)) <= y * (x * / y)) by (apply Rmult_le_compat_l; lra).
  replace (y * (x * / y)) with x in M by (field; lra). nra.
Qed.
Lemma lipschitz_log K g a b : 0 < a -> 0 <= K ->
  lipschitz K (fun x => x) g a b -> lipschitz (K * (b * ln 10)) log10 g a b.
Proof.
  intros Ha HK H x y Hx Hy. eapply Rle_trans; [apply H; assumption|].
  rewrite Rmult_assoc. apply Rmult_le_compat_l; [exact HK|].
  pose proof ln10_pos as L10.
  assert (G : forall x y, a <= x <= b -> a <= y <= b -> x <= y -> Rabs (x - y) <= b * ln 10 * Rabs (log10 x - log10 y)).
  { clear x y Hx Hy. intros x y Hx Hy Hle.
    pose proof (log10_le x y ltac:(lra) Hle). rewrite !Rabs_left1 by lra.
    pose proof (ln_gap x y b ltac:(lra) Hle ltac:(lra)).
    replace (b * ln 10 * - (log10 x - log10 y)) with (b * (ln y - ln x)) by (unfold log10; field; lra). lra. }
  destruct (Rle_dec x y) as [Hl|Hl]; [apply G; assumption|].
  rewrite (Rabs_minus_sym x y), (Rabs_minus_sym (log10 x)). apply G; try assumption. lra.
Qed.

(** Exact arithmetic: for the emissivity of a gray photon opacity, with Linear or LogLinear bins,
    the error over the whole range falls in proportion to the number of bins. *)
Lemma C69_refinement_proof :
  forall (pc : PhysConst R) (kappa rho T a b : R), positive_hkc pc -> 0 < T -> 0 < a -> a < b ->
  let o := GrayOpacity (finpc pc) (Fin kappa) in
  let j nu := rho * kappa * Planck_B (pc_h pc) (pc_kb pc) (pc_c pc) T nu in
  exists K, 0 <= K /\ forall (n : nat) (m : mem ER) (p q : nat), (2 <= n)%nat -> (Z.of_nat n < 2 ^ 31)%Z ->
    (prepared_buffers m p q n (lin_bin a b n) ->
     exists m' L, ph_EmissivityPerNuOmega_v o (Fin rho) (Fin T) p q (Z.of_nat n) m = Ok m' /\
       Linear_ptr (skipn q m') (Fin a) (Fin b) (Z.of_nat n) = Ok L /\
       forall nu, a <= nu <= b -> exists v, Linear_call L (Fin nu) = Ok (Fin v) /\ Rabs (v - j nu) <= K / (INR n - 1)) /\
    (prepared_buffers m p q n (log_bin a b n) ->
     exists m' L, ph_EmissivityPerNuOmega_v o (Fin rho) (Fin T) p q (Z.of_nat n) m = Ok m' /\
       LogLinear_ptr (skipn q m') (Fin a) (Fin b) (Z.of_nat n) = Ok L /\
       forall nu, a <= nu <= b -> exists v, LogLinear_call L (Fin nu) = Ok (Fin v) /\ Rabs (v - j nu) <= K / (INR n - 1)).
Proof.
  intros pc kappa rho T a b Hpc HT Ha Hab o j.
  assert (Hpc' := Hpc). destruct Hpc' as (Hh & Hk & Hc).
  destruct (planck_lipschitz (pc_h pc) (pc_kb pc) (pc_c pc) T a b) as (K0 & HK0 & HL0); try assumption.
  apply (lipschitz_scale (rho * kappa)) in HL0. change (fun x => rho * kappa * Planck_B (pc_h pc) (pc_kb pc) (pc_c pc) T x) with j in HL0.
  set (K1 := Rabs (rho * kappa) * K0) in *.
  assert (HK1 : 0 <= K1) by (apply Rmult_le_pos; [apply Rabs_pos|exact HK0]).
  pose proof (lipschitz_log K1 j a b Ha HK1 HL0) as HL1. pose proof ln10_pos as L10.
  set (K2 := K1 * (b * ln 10)) in *.
  assert (HK2 : 0 <= K2) by (apply Rmult_le_pos; [exact HK1|apply Rmult_le_pos; lra]).
  pose proof (log10_lt a b Ha Hab) as Hlog.
  assert (P1 : 0 <= K1 * (b - a)) by (apply Rmult_le_pos; lra).
  assert (P2 : 0 <= K2 * (log10 b - log10 a)) by (apply Rmult_le_pos; lra).
  exists (K1 * (b - a) + K2 * (log10 b - log10 a)). split; [lra|].
  intros n m p q Hn Hn2.
  assert (N1 : 0 < / (INR n - 1)).
  { apply Rinv_0_lt_compat. apply le_INR in Hn. replace (INR 2) with 2 in Hn by (cbn; ring). lra. }
  destruct (C69_photons_proof (finpc pc) o (or_introl (ex_intro _ (Fin kappa) eq_refl)) (Fin rho) (Fin T)) as (_ & _ & H & _).
  assert (HF : forall nu, a <= nu <= b -> ph_EmissivityPerNuOmega o (Fin rho) (Fin T) (Fin nu) = Ok (Fin (j nu))).
  { intros nu Hnu. apply C08_gray_values_proof; try assumption. lra. }
  split; intros Hb.
  - destruct (H a b n j K1 m p q Hab) as [A _]. destruct (A Hn Hn2 Hb HF HL0) as (m' & L & E & EL & _ & B).
    exists m', L. split; [exact E|]. split; [exact EL|]. intros nu Hnu. destruct (B nu Hnu) as (v & Ev & Hv).
    exists v. split; [exact Ev|]. eapply Rle_trans; [exact Hv|]. unfold Rdiv.
    assert (0 <= K1 * (b - a) * / (INR n - 1)) by (apply Rmult_le_pos; lra).
    assert (0 <= K2 * (log10 b - log10 a) * / (INR n - 1)) by (apply Rmult_le_pos; lra). nra.
  - destruct (H a b n j K2 m p q Hab) as [_ [A _]]. destruct (A Hn Hn2 Ha Hb HF HL1) as (m' & L & E & EL & _ & B).
    exists m', L. split; [exact E|]. split; [exact EL|]. intros nu Hnu. destruct (B nu Hnu) as (v & Ev & Hv).
    exists v. split; [exact Ev|]. eapply Rle_trans; [exact Hv|]. unfold Rdiv.
    assert (0 <= K1 * (b - a) * / (INR n - 1)) by (apply Rmult_le_pos; lra).
    assert (0 <= K2 * (log10 b - log10 a) * / (INR n - 1)) by (apply Rmult_le_pos; lra). nra.
Qed.
