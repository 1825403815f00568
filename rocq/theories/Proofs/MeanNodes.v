(** What the averaging constructors return at the nodes of their tables. *)
From Coq Require Import Reals ZArith List Lia Lra Bool.
From Coquelicot Require Import Coquelicot.
From Verif Require Import Base.Outcome Base.Ops Inst.ER Inst.ERTac Model.Constants Model.Robust Model.RadTypes
  Model.Spiner Model.MeanUtils Model.MeanPhotons Model.MeanNeutrinos Spec.Physics Spec.Opacities Spec.Tables Spec.Groups Spec.Means
  Model.ThermalNeutrinos Proofs.PlanckFacts Proofs.InterpFacts Proofs.TableFacts Proofs.ModelFacts Proofs.MeanExact Proofs.MeanTotal Proofs.C35.
Import ListNotations.
Open Scope R_scope.

(** [answers m rho T g f P R]: for group g, at a state whose guarded density and temperature
    are the node values rho and T, the table answers (density) (P + tiny) in Planck mode and
    (density) (R + tiny) in Rosseland mode. *)
Definition answers (m : MeanTable ER) (rho T : R) (g : Z) (P Q : R) : Prop :=
  forall rho' T', 0 <= rho' -> 0 <= T' -> rho' + tiny = rho -> T' + tiny = T ->
  mt_Coefficient m (Fin rho') (Fin T') g 1 = Ok (Fin (rho' * (P + tiny))) /\
  mt_Coefficient m (Fin rho') (Fin T') g 0 = Ok (Fin (rho' * (Q + tiny))).

(** [coef] returns the real number [a] for positive arguments *)
Definition real_coefficient (coef : ER -> ER -> ER -> result ER) (a : R -> R -> R -> R) : Prop :=
  forall rho T nu, 0 < rho -> 0 < T -> 0 < nu -> coef (Fin rho) (Fin T) (Fin nu) = Ok (Fin (a rho T nu)).

(** every node of a photon table: the stored means *)
Definition means_at_nodes (pc : PhysConst R) (a : R -> R -> R -> R) (gb : list ER) (ng N : Z) (gR gT : rgrid) (m : MeanTable ER) : Prop :=
  forall i j g, (0 <= i < rg_n gR)%Z -> (0 <= j < rg_n gT)%Z -> (0 <= g < ng)%Z ->
  let rho := pow10 (rg_node gR i) in let T := pow10 (rg_node gT j) in
  answers m rho T g (Rabs (kappa_P pc a gb N rho T (Z.to_nat g))) (Rabs (kappa_R pc a gb N rho T (Z.to_nat g))).

Lemma pow10_log10_pos x : 0 <= x -> pow10 (log10 (x + tiny)) = x + tiny.
Proof. intros H. apply pow10_log10. pose proof tiny_pos. lra. Qed.

Lemma photon_nodes pc coef a gR gT gb ng N dbg opc :
  positive_hkc pc -> real_coefficient coef a -> rg_ok gR -> rg_ok gT ->
  partition (edge (fun x => x) gb) (Z.to_nat ng) -> (ng < Z.of_nat (length gb))%Z -> (2 <= N)%Z ->
  (dbg = true -> RuntimePC_eqb (RuntimePC_of (finpc pc)) opc = true) ->
  exists m,
    MeanImpl (finpc pc) dbg opc coef (Fin (rg_lo gR)) (Fin (rg_hi gR)) (rg_n gR) (Fin (rg_lo gT)) (Fin (rg_hi gT)) (rg_n gT)
      gb ng N = Ok m /\ mt_ngroups m = ng /\ means_at_nodes pc a gb ng N gR gT m.
Proof.
  intros Hp HC HR HT HG HL HN Hd.
  destruct (MeanImpl_exact pc Hp coef a HC gR gT gb ng N HR HT HG HL HN dbg opc Hd) as (m & E & En & H1 & H2).
  exists m. split; [exact E|]. split; [exact En|]. intros i j g Hi Hj Hg rho T rho' T' P1 P2 E1 E2.
  pose proof (C35_node_proof m 1 gR gT ng _ HR HT H1 i j g rho' T' Hi Hj Hg P1 P2 E1 E2) as A1.
  pose proof (C35_node_proof m 0 gR gT ng _ HR HT H2 i j g rho' T' Hi Hj Hg P1 P2 E1 E2) as A2.
  cbn [nth] in A1, A2. rewrite pow10_log10_pos in A1, A2 by apply Rabs_pos. auto.
Qed.

(** ** Neutrinos *)
Definition nu_real_coefficient (coef : ER -> ER -> ER -> RadiationType -> ER -> result ER) (a : R -> R -> R -> RadiationType -> R -> R) : Prop :=
  forall rho T Ye type nu, 0 < rho -> 0 < T -> 0 < nu ->
  coef (Fin rho) (Fin T) (Fin Ye) type (Fin nu) = Ok (Fin (a rho T Ye type nu)).
(** a positive real spectrum and a real derivative *)
Definition real_spectrum (dist ddist : ER -> RadiationType -> ER -> result ER) (B dB : R -> RadiationType -> R -> R) : Prop :=
  forall T type nu, 0 < T -> 0 < nu ->
  dist (Fin T) type (Fin nu) = Ok (Fin (B T type nu)) /\ 0 < B T type nu /\
  ddist (Fin T) type (Fin nu) = Ok (Fin (dB T type nu)) /\ 0 < dB T type nu.
Definition species (type : RadiationType) : Prop := (0 <= RadType2Idx type < 3)%Z.

Definition nu_answers (m : NuMeanTable ER) (rho T Ye : R) (type : RadiationType) (P Q : R) : Prop :=
  forall rho' T', 0 <= rho' -> 0 <= T' -> rho' + tiny = rho -> T' + tiny = T ->
  nm_Planck m (Fin rho') (Fin T') (Fin Ye) type = Ok (Fin (rho' * (P + tiny))) /\
  nm_Rosseland m (Fin rho') (Fin T') (Fin Ye) type = Ok (Fin (rho' * (Q + tiny))).
Definition nu_means_at_nodes (a : R -> R -> R -> RadiationType -> R -> R) (B dB : R -> RadiationType -> R -> R)
  (l : R * R) (N : Z) (gR gT gY : rgrid) (m : NuMeanTable ER) : Prop :=
  forall i j y type, (0 <= i < rg_n gR)%Z -> (0 <= j < rg_n gT)%Z -> (0 <= y < rg_n gY)%Z -> species type ->
  let rho := pow10 (rg_node gR i) in let T := pow10 (rg_node gT j) in let Ye := rg_node gY y in
  nu_answers m rho T Ye type (Rabs (nu_kappa_P a B l N rho T Ye type)) (Rabs (nu_kappa_R a B dB l N rho T Ye type)).

Lemma type_of_idx type : species type -> type_of (RadType2Idx type) = type.
Proof. unfold species. destruct type; cbn; intros; try lia; reflexivity. Qed.

(** the frequency range the constructors sample, and the number of samples *)
Definition thermal_range (pc : PhysConst R) (gT : rgrid) : R * R :=
  logs (thermal_lo (pc_h pc) (pc_kb pc) (pow10 (rg_lo gT)), thermal_hi (pc_h pc) (pc_kb pc) (pow10 (rg_hi gT))).
Definition nu_range (pc : PhysConst R) (gT : rgrid) (range : option (R * R * Z)) : R * R :=
  match range with None => thermal_range pc gT | Some (r, _) => r end.
Definition nu_count (range : option (R * R * Z)) : Z := match range with None => 100 | Some (_, n) => n end.
Definition fin_range (range : option (R * R * Z)) : option (ER * ER * Z) :=
  match range with None => None | Some (r, n) => Some (Fin (fst r), Fin (snd r), n) end.

Lemma auto_range_fin pc gT : positive_hkc pc -> rg_ok gT ->
  auto_range (finpc pc) (Fin (rg_lo gT)) (Fin (rg_hi gT)) =
  (Fin (fst (thermal_range pc gT)), Fin (snd (thermal_range pc gT))) /\
  fst (thermal_range pc gT) < snd (thermal_range pc gT).
Proof.
  intros (Hh & Hk & Hc) (Hlt & _). pose proof tiny_pos as Tp.
  pose proof (pow10_pos (rg_lo gT)) as P1. pose proof (pow10_pos (rg_hi gT)) as P2.
  pose proof (pow10_incr _ _ Hlt) as P3.
  assert (L : 0 < thermal_lo (pc_h pc) (pc_kb pc) (pow10 (rg_lo gT)) < thermal_hi (pc_h pc) (pc_kb pc) (pow10 (rg_hi gT))).
  { split; [now apply thermal_lo_pos|].
    unfold thermal_lo, thermal_hi. apply (Rmult_lt_reg_r (1000 * pc_h pc)); [lra|]. field_simplify; try lra.
    assert (0 < pc_kb pc * pow10 (rg_lo gT)) by (now apply Rmult_lt_0_compat).
    assert (pc_kb pc * pow10 (rg_lo gT) < pc_kb pc * pow10 (rg_hi gT)) by (now apply Rmult_lt_compat_l). nra. }
  split.
  - unfold auto_range. rewrite !FromLog_fin.
    rewrite fin_dec. change (pc_kb (finpc pc)) with (Fin (pc_kb pc)). change (pc_h (finpc pc)) with (Fin (pc_h pc)).
    rewrite fin_ofZ, !fin_mul, !fin_div by lra. rewrite !ToLog_pos.
    + unfold thermal_range, logs. cbn [fst snd]. do 3 f_equal; unfold thermal_lo, thermal_hi. rewrite powerRZ_m3. field. lra.
    + pose proof (proj2 L). pose proof (proj1 L). unfold thermal_hi in *. lra.
    + rewrite powerRZ_m3. pose proof (proj1 L) as Q. unfold thermal_lo in Q.
      replace (_ * pc_kb pc * pow10 (rg_lo gT) / pc_h pc) with (pc_kb pc * pow10 (rg_lo gT) / (1000 * pc_h pc)) by (field; lra). lra.
  - unfold thermal_range, logs. cbn [fst snd]. apply log10_incr; lra.
Qed.

(** [absorption] selects the constructor: MeanOpacity or MeanSOpacity. The latter takes 100
    samples whatever the caller asked for (C48). *)
Definition nu_samples (absorption : bool) (range : option (R * R * Z)) : Z := if absorption then nu_count range else 100.
Definition nu_build (absorption : bool) (pc : PhysConst R) (dbg : bool) (opc : RuntimePC ER)
  (coef : ER -> ER -> ER -> RadiationType -> ER -> result ER) (dist ddist : ER -> RadiationType -> ER -> result ER)
  (gR gT gY : rgrid) (range : option (R * R * Z)) : result (NuMeanTable ER) :=
  (if absorption then NuMeanOpacity (finpc pc) coef dist ddist dbg opc else NuMeanSOpacity (finpc pc) coef dist ddist)
    (Fin (rg_lo gR)) (Fin (rg_hi gR)) (rg_n gR) (Fin (rg_lo gT)) (Fin (rg_hi gT)) (rg_n gT)
    (Fin (rg_lo gY)) (Fin (rg_hi gY)) (rg_n gY) (fin_range range).

Lemma nu_nodes absorption pc dbg opc coef dist ddist a B dB gR gT gY range :
  positive_hkc pc -> nu_real_coefficient coef a -> real_spectrum dist ddist B dB ->
  rg_ok gR -> rg_ok gT -> rg_ok gY ->
  (forall r n, range = Some (r, n) -> fst r < snd r /\ (0 < n)%Z) ->
  (dbg = true -> RuntimePC_eqb (RuntimePC_of (finpc pc)) opc = true) ->
  exists m, nu_build absorption pc dbg opc coef dist ddist gR gT gY range = Ok m /\
    nu_means_at_nodes a B dB (nu_range pc gT range) (nu_samples absorption range) gR gT gY m.
Proof.
  intros Hp HC HB HR HT HY Hrange Hd.
  set (l := nu_range pc gT range). set (N := nu_samples absorption range).
  destruct (auto_range_fin pc gT Hp HT) as (EA & LA).
  assert (Hl : fst l < snd l). { unfold l, nu_range. destruct range as [[r n]|]; [now apply (Hrange r n)|exact LA]. }
  assert (HN : (0 < N)%Z). { unfold N, nu_samples, nu_count. destruct absorption; [|lia]. destruct range as [[r n]|]; [now apply (Hrange r n)|lia]. }
  set (rr := match range with None => None | Some (r, _) => Some (Fin (fst r), Fin (snd r)) end : option (ER * ER)).
  assert (HA : auto_or (finpc pc) gT rr = (Fin (fst l), Fin (snd l))).
  { unfold rr, l, nu_range, auto_or. destruct range as [[r n]|]; [reflexivity|exact EA]. }
  destruct (nu_impl_exact (finpc pc) coef dist ddist a B dB HC (fun T t nu H1 H2 => conj (proj1 (HB T t nu H1 H2)) (proj1 (proj2 (HB T t nu H1 H2))))
    (fun T t nu H1 H2 => proj1 (proj2 (proj2 (HB T t nu H1 H2)))) gR gT gY HR HT HY l N Hl HN (negb absorption) rr HA) as (m & Em & H1 & H2).
  exists m. split.
  - rewrite <- Em. unfold nu_build, rr, N, nu_samples, nu_count.
    destruct absorption.
    + unfold NuMeanOpacity. replace (dbg && _)%bool with false by (destruct dbg; [now rewrite Hd|reflexivity]).
      destruct range as [[r n]|]; reflexivity.
    + unfold NuMeanSOpacity. destruct range as [[r n]|]; reflexivity.
  - intros i j y type Hi Hj Hy Ht rho T Ye rho' T' P1 P2 E1 E2.
    pose proof (C35_neutrino_node_proof m false gR gT gY _ HR HT HY H1 i j y type rho' T' Hi Hj Hy Ht P1 P2 E1 E2) as A1.
    pose proof (C35_neutrino_node_proof m true gR gT gY _ HR HT HY H2 i j y type rho' T' Hi Hj Hy Ht P1 P2 E1 E2) as A2.
    cbn [nth] in A1, A2. rewrite pow10_log10_pos, type_of_idx in A1, A2 by first [exact Ht|apply Rabs_pos]. auto.
Qed.

(** the Fermi-Dirac spectrum of n species and its temperature derivative *)
Definition FD_spectrum (pc : PhysConst R) (n : Z) (T : R) (_ : RadiationType) (nu : R) : R :=
  FermiDirac_B (IZR n) (pc_h pc) (pc_kb pc) (pc_c pc) T nu.
Definition FD_slope (pc : PhysConst R) (n : Z) (T : R) (_ : RadiationType) (nu : R) : R :=
  Derive (fun t => FermiDirac_B (IZR n) (pc_h pc) (pc_kb pc) (pc_c pc) t nu) T.

Lemma FD_real_spectrum pc n : positive_hkc pc -> (0 < n)%Z ->
  real_spectrum (fun T type nu => Ok (fd_nu n (finpc pc) T type nu)) (fun T type nu => Ok (fd_dT n (finpc pc) T type nu))
    (FD_spectrum pc n) (FD_slope pc n).
Proof.
  intros (Hh & Hk & Hc) Hn T type nu HT Hnu. apply IZR_lt in Hn.
  split; [now rewrite fd_nu_fin|]. split; [now apply FD_pos|].
  destruct (fd_dT_fin pc Hk Hc n type T nu HT) as (d & E & D).
  assert (FD_slope pc n T type nu = d) as -> by (unfold FD_slope; now apply is_derive_unique).
  split; [now rewrite E|].
  assert (Q : exists d', fd_dT n (finpc pc) (Fin T) type (Fin nu) = Fin d' /\ 0 < d').
  { unfold fd_dT. eexists. split; [er; reflexivity|]. pos. }
  destruct Q as (d' & E' & P). congruence.
Qed.
