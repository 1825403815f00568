(** C03. Neutrino thermal spectrum is Fermi-Dirac; its temperature derivative. *)
From Coq Require Import Reals ZArith Lra Lia.
From Coquelicot Require Import Coquelicot.
From Verif Require Import Base.Outcome Base.Ops Inst.ER Inst.ERTac Inst.RConsts
  Model.Constants Model.RadTypes Model.NeutrinoApi Model.OpacNeutrinos
  Spec.Physics Spec.Integral Spec.Opacities Proofs.PlanckFacts.
Open Scope R_scope.

(** Any species count, any species, any positive temperature and frequency. *)
Lemma C03_spectrum_is_fermi_dirac_proof :
  forall ns pc o, positive_hkc pc -> neutrino_opacity ns (finpc pc) o ->
  forall T nu type, 0 < T -> 0 < nu ->
    returns (nu_ThermalDistributionOfTNu o (Fin T) type (Fin nu))
      (IZR ns * (2 * pc_h pc * nu ^ 3 / pc_c pc ^ 2 /
                 (exp (pc_h pc * nu / (pc_kb pc * T)) + 1))) /\
    ((0 < ns)%Z ->
     0 < IZR ns * (2 * pc_h pc * nu ^ 3 / pc_c pc ^ 2 /
                   (exp (pc_h pc * nu / (pc_kb pc * T)) + 1))).
Proof.
  intros ns pc o (Hh & Hk & Hc) Ho T nu type HT Hn. split.
  - unfold returns.
    change (IZR ns * _) with (FermiDirac_B (IZR ns) (pc_h pc) (pc_kb pc) (pc_c pc) T nu).
    rewrite <- (fd_nu_fin pc Hk Hc ns type T nu HT).
    destruct Ho as [[kap ->]|[->|[C [n1 [n2 ->]]]]]; reflexivity.
  - intros Hs. apply (FD_pos pc Hh Hc (IZR ns) T nu); auto. apply (IZR_lt 0); lia.
Qed.

Lemma C03_spectrum_increasing_proof :
  forall ns pc o, (0 < ns)%Z -> positive_hkc pc -> neutrino_opacity ns (finpc pc) o ->
  forall T1 T2 nu type b1 b2, 0 < T1 -> T1 < T2 -> 0 < nu ->
    returns (nu_ThermalDistributionOfTNu o (Fin T1) type (Fin nu)) b1 ->
    returns (nu_ThermalDistributionOfTNu o (Fin T2) type (Fin nu)) b2 -> b1 < b2.
Proof.
  intros ns pc o Hns Hp Ho T1 T2 nu type b1 b2 H1 H12 Hn E1 E2.
  destruct (C03_spectrum_is_fermi_dirac_proof ns pc o Hp Ho T1 nu type H1 Hn) as [F1 _].
  destruct (C03_spectrum_is_fermi_dirac_proof ns pc o Hp Ho T2 nu type ltac:(lra) Hn) as [F2 _].
  unfold returns in *. rewrite E1 in F1. rewrite E2 in F2.
  injection F1 as ->. injection F2 as ->. destruct Hp as (Hh & Hk & Hc).
  apply (FD_incr pc Hh Hk Hc (IZR ns) T1 T2 nu); auto. apply (IZR_lt 0); lia.
Qed.

Lemma C03_dT_is_derivative_proof :
  forall ns pc o, positive_hkc pc -> neutrino_opacity ns (finpc pc) o ->
  forall nu type, 0 < nu ->
  forall B, (forall T, 0 < T ->
    returns (nu_ThermalDistributionOfTNu o (Fin T) type (Fin nu)) (B T)) ->
  forall T, 0 < T ->
    exists d, returns (nu_DThermalDistributionOfTNuDT o (Fin T) type (Fin nu)) d /\
              is_derive B T d.
Proof.
  intros ns pc o (Hh & Hk & Hc) Ho nu type Hn B HB T HT.
  destruct (fd_dT_fin pc Hk Hc ns type T nu HT) as [d [E Hd]].
  exists d. split.
  - unfold returns. rewrite <- E.
    destruct Ho as [[kap ->]|[->|[C [n1 [n2 ->]]]]]; reflexivity.
  - apply (is_derive_ext_loc (fun t => FermiDirac_B (IZR ns) (pc_h pc) (pc_kb pc) (pc_c pc) t nu));
      [|exact Hd].
    exists (mkposreal T HT). intros t Ht.
    assert (Ht0 : 0 < t).
    { change (Rabs (t - T) < T) in Ht. apply Rabs_def2 in Ht. lra. }
    specialize (HB t Ht0). pose proof (fd_nu_fin pc Hk Hc ns type t nu Ht0) as E'.
    assert (E2 : nu_ThermalDistributionOfTNu o (Fin t) type (Fin nu) =
                 Ok (Fin (FermiDirac_B (IZR ns) (pc_h pc) (pc_kb pc) (pc_c pc) t nu))).
    { rewrite <- E'. destruct Ho as [[kap ->]|[->|[C [n1 [n2 ->]]]]]; reflexivity. }
    unfold returns in HB. rewrite HB in E2. injection E2 as E2. symmetry. exact E2.
Qed.

(** the library's three-species CGS neutrino opacities meet the hypotheses *)
Lemma C03_example :
  positive_hkc cgsR /\ (0 < 3)%Z /\
  neutrino_opacity 3 (finpc cgsR) (BRTOpacity 3 PhysicalConstantsCGS).
Proof.
  split; [exact cgs_hkc|]. split; [lia|]. right; left. rewrite cgs_fin. reflexivity.
Qed.
