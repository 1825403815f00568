(** C48. Frequency resolution of the neutrino mean tables. *)
From Coq Require Import Reals ZArith List Lia Lra Bool.
From Verif Require Import Base.Outcome Base.Ops Inst.ER Inst.ERTac Model.Constants Model.Robust Model.RadTypes
  Model.ThermalNeutrinos Model.Spiner Model.MeanNeutrinos Spec.Physics Spec.Opacities Spec.Tables Spec.Means Inst.RConsts
  Proofs.InterpFacts Proofs.TableFacts Proofs.MeanExact Proofs.MeanTotal Proofs.MeanNodes.
Import ListNotations.
Open Scope R_scope.

(** MeanOpacity on an explicit range: at every node both means are those of exactly the
    caller's number N of samples, equally spaced in log frequency over the caller's range. *)
Lemma C48_absorption_proof :
  forall (pc : PhysConst R) (coef : ER -> ER -> ER -> RadiationType -> ER -> result ER)
    (dist ddist : ER -> RadiationType -> ER -> result ER)
    (a : R -> R -> R -> RadiationType -> R -> R) (B dB : R -> RadiationType -> R -> R),
  positive_hkc pc -> nu_real_coefficient coef a -> real_spectrum dist ddist B dB ->
  forall (gR gT gY : rgrid) (r : R * R) (N : Z), rg_ok gR -> rg_ok gT -> rg_ok gY -> fst r < snd r -> (0 < N)%Z ->
  forall (dbg : bool) (opc : RuntimePC ER),
  (dbg = true -> RuntimePC_eqb (RuntimePC_of (finpc pc)) opc = true) ->
  exists m,
    NuMeanOpacity (finpc pc) coef dist ddist dbg opc (Fin (rg_lo gR)) (Fin (rg_hi gR)) (rg_n gR)
      (Fin (rg_lo gT)) (Fin (rg_hi gT)) (rg_n gT) (Fin (rg_lo gY)) (Fin (rg_hi gY)) (rg_n gY)
      (Some (Fin (fst r), Fin (snd r), N)) = Ok m /\
    nu_means_at_nodes a B dB r N gR gT gY m.
Proof.
  intros pc coef dist ddist a B dB Hp HC HB gR gT gY r N HR HT HY Hr HN dbg opc Hd.
  exact (nu_nodes true pc dbg opc coef dist ddist a B dB gR gT gY (Some (r, N)) Hp HC HB HR HT HY
    ltac:(intros r' n' E; injection E as <- <-; auto) Hd).
Qed.

(** MeanSOpacity on an explicit range: the number N is not used, in any arithmetic: ... *)
Lemma C48_ignored_proof :
  forall (T : Type) (O : Ops T) (pc : PhysConst T) (coef : T -> T -> T -> RadiationType -> T -> result T)
    (dist ddist : T -> RadiationType -> T -> result T)
    (lRhoMin lRhoMax : T) (NRho : Z) (lTMin lTMax : T) (NT : Z) (YeMin YeMax : T) (NYe : Z) (r : T * T) (N N' : Z),
  NuMeanSOpacity pc coef dist ddist lRhoMin lRhoMax NRho lTMin lTMax NT YeMin YeMax NYe (Some (r, N)) =
  NuMeanSOpacity pc coef dist ddist lRhoMin lRhoMax NRho lTMin lTMax NT YeMin YeMax NYe (Some (r, N')).
Proof. reflexivity. Qed.

(** ... the means are those of 100 samples, even for N <= 0. *)
Lemma C48_scattering_proof :
  forall (pc : PhysConst R) (coef : ER -> ER -> ER -> RadiationType -> ER -> result ER)
    (dist ddist : ER -> RadiationType -> ER -> result ER)
    (a : R -> R -> R -> RadiationType -> R -> R) (B dB : R -> RadiationType -> R -> R),
  positive_hkc pc -> nu_real_coefficient coef a -> real_spectrum dist ddist B dB ->
  forall (gR gT gY : rgrid) (r : R * R) (N : Z), rg_ok gR -> rg_ok gT -> rg_ok gY -> fst r < snd r ->
  exists m,
    NuMeanSOpacity (finpc pc) coef dist ddist (Fin (rg_lo gR)) (Fin (rg_hi gR)) (rg_n gR)
      (Fin (rg_lo gT)) (Fin (rg_hi gT)) (rg_n gT) (Fin (rg_lo gY)) (Fin (rg_hi gY)) (rg_n gY)
      (Some (Fin (fst r), Fin (snd r), N)) = Ok m /\
    nu_means_at_nodes a B dB r 100 gR gT gY m.
Proof.
  intros pc coef dist ddist a B dB Hp HC HB gR gT gY r N HR HT HY Hr.
  exact (nu_nodes false pc false (RuntimePC_of (finpc pc)) coef dist ddist a B dB gR gT gY (Some (r, 100%Z)) Hp HC HB HR HT HY
    ltac:(intros r' n' E; injection E as <- <-; split; [exact Hr|lia]) ltac:(discriminate)).
Qed.

(** the coefficient rho below the middle of the range, 0 from there on *)
Definition half (r : R * R) (rho _ _ : R) (_ : RadiationType) (nu : R) : R := if Rlt_dec nu (frequency r 1 0) then rho else 0.

(** Refuted: a caller who asks for one sample of this coefficient asks for a Planck mean of 0;
    the table does not hold the one-sample means. Any range, grid and spectrum. *)
Lemma C48_refuted_proof :
  forall (pc : PhysConst R) (dist ddist : ER -> RadiationType -> ER -> result ER) (B dB : R -> RadiationType -> R -> R),
  positive_hkc pc -> real_spectrum dist ddist B dB ->
  forall (gR gT gY : rgrid) (r : R * R), rg_ok gR -> rg_ok gT -> rg_ok gY -> fst r < snd r ->
  tiny < pow10 (rg_lo gR) -> tiny <= pow10 (rg_lo gT) ->
  exists (coef : ER -> ER -> ER -> RadiationType -> ER -> result ER) (m : NuMeanTable ER),
    nu_real_coefficient coef (half r) /\
    NuMeanSOpacity (finpc pc) coef dist ddist (Fin (rg_lo gR)) (Fin (rg_hi gR)) (rg_n gR)
      (Fin (rg_lo gT)) (Fin (rg_hi gT)) (rg_n gT) (Fin (rg_lo gY)) (Fin (rg_hi gY)) (rg_n gY)
      (Some (Fin (fst r), Fin (snd r), 1%Z)) = Ok m /\
    ~ nu_means_at_nodes (half r) B dB r 1 gR gT gY m.
Proof.
  intros pc dist ddist B dB Hp HB gR gT gY r HR HT HY Hr PR' PT'. pose proof tiny_pos as Tp.
  assert (PR : 0 <= pow10 (rg_lo gR) - tiny) by lra. assert (PT : 0 <= pow10 (rg_lo gT) - tiny) by lra.
  set (coef := fun (rho _ _ : ER) (_ : RadiationType) (nu : ER) => if Oltb nu (Fin (frequency r 1 0)) then Ok rho else Ok (Fin 0)).
  assert (HC : nu_real_coefficient coef (half r)).
  { intros rho T Ye type nu _ _ _. unfold coef, half. rewrite fin_ltb. unfold Rltb. now destruct (Rlt_dec nu _). }
  destruct (C48_scattering_proof pc coef dist ddist (half r) B dB Hp HC HB gR gT gY r 1 HR HT HY Hr) as (m & E & H).
  exists coef, m. split; [exact HC|]. split; [exact E|]. intros H1.
  assert (N0 : forall g, rg_node g 0 = rg_lo g) by (intros; unfold rg_node; ring).
  assert (B0 : forall g, rg_ok g -> (0 <= 0 < rg_n g)%Z) by (intros g (_ & ?); lia).
  specialize (H 0%Z 0%Z 0%Z NU_ELECTRON (B0 gR HR) (B0 gT HT) (B0 gY HY) ltac:(unfold species; cbn; lia)).
  specialize (H1 0%Z 0%Z 0%Z NU_ELECTRON (B0 gR HR) (B0 gT HT) (B0 gY HY) ltac:(unfold species; cbn; lia)).
  cbv zeta in H, H1. rewrite !N0 in H, H1.
  set (rho := pow10 (rg_lo gR)) in *. set (T := pow10 (rg_lo gT)) in *.
  assert (HTp : 0 < T) by apply pow10_pos. assert (Hrho : 0 < rho) by apply pow10_pos.
  destruct (H (rho - tiny) (T - tiny) PR PT ltac:(ring) ltac:(ring)) as (A & _).
  destruct (H1 (rho - tiny) (T - tiny) PR PT ltac:(ring) ltac:(ring)) as (A1 & _).
  rewrite A in A1. injection A1 as A1.
  assert (K1 : nu_kappa_P (half r) B r 1 rho T (rg_lo gY) NU_ELECTRON = 0).
  { unfold nu_kappa_P, planck_mean_of. replace (average_sum _ r 1 (mass _ _)) with 0; [unfold Rdiv; ring|].
    unfold average_sum. change (Z.to_nat 1) with 1%nat. cbn [rsum]. unfold mass, half. destruct (Rlt_dec _ _); [lra|]. unfold Rdiv. ring. }
  assert (PB : forall nu, 0 < nu -> 0 < B T NU_ELECTRON nu) by (intros; now apply HB).
  pose proof (average_pos r 100 Hr ltac:(lia) _ PB) as W.
  assert (K2 : 0 < nu_kappa_P (half r) B r 100 rho T (rg_lo gY) NU_ELECTRON).
  { unfold nu_kappa_P, planck_mean_of. apply Rmult_lt_0_compat; [|apply Rinv_0_lt_compat; lra].
    assert (F : forall i, (i < 100)%nat -> 0 <= mass rho (half r rho T (rg_lo gY) NU_ELECTRON) (frequency r 100 i) * quad (B T NU_ELECTRON) r 100 i).
    { intros i Hi. apply Rmult_le_pos; [|apply Rlt_le, quad_pos; auto; lia]. unfold mass, half.
      destruct (Rlt_dec _ _); [apply Rlt_le; pos|unfold Rdiv; lra]. }
    apply Rlt_le_trans with (mass rho (half r rho T (rg_lo gY) NU_ELECTRON) (frequency r 100 0) * quad (B T NU_ELECTRON) r 100 0).
    - apply Rmult_lt_0_compat; [|apply quad_pos; auto; lia]. unfold mass, half.
      destruct (Rlt_dec _ _) as [|N]; [pos|]. exfalso. apply N. unfold frequency. apply pow10_incr. unfold cell_width. cbn [INR]. lra.
    - unfold average_sum. change (Z.to_nat 100) with 100%nat.
      exact (rsum_term 100 (fun i => mass rho (half r rho T (rg_lo gY) NU_ELECTRON) (frequency r 100 i) * quad (B T NU_ELECTRON) r 100 i) 0 ltac:(lia) F). }
  rewrite K1, Rabs_R0, Rabs_pos_eq in A1 by lra.
  assert (0 < rho - tiny) by lra. nra.
Qed.

(** Fermi-Dirac, three species, CGS: density 1 to 100, temperature 1 to 100, Ye 0 to 1, range
    10^12 to 10^20 Hz. *)
Lemma C48_refuted_example :
  let g := {| rg_lo := 0; rg_hi := 2; rg_n := 3 |} in let gY := {| rg_lo := 0; rg_hi := 1; rg_n := 2 |} in
  positive_hkc cgsR /\
  real_spectrum (fun T type nu => Ok (fd_nu 3 (finpc cgsR) T type nu)) (fun T type nu => Ok (fd_dT 3 (finpc cgsR) T type nu))
    (FD_spectrum cgsR 3) (FD_slope cgsR 3) /\
  rg_ok g /\ rg_ok gY /\ fst (12, 20) < snd (12, 20) /\ tiny < pow10 (rg_lo g).
Proof.
  cbv zeta. split; [apply cgs_hkc|]. split; [apply FD_real_spectrum; [apply cgs_hkc|lia]|].
  split; [split; cbn; [lra|lia]|]. split; [split; cbn; [lra|lia]|]. split; [cbn; lra|]. cbn.
  pose proof tiny_lt_1. assert (pow10 0 = 1) as ->; [|lra].
  unfold pow10. rewrite Rpower_O; lra.
Qed.
