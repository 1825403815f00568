(** C06. Neutrino frequency-integrated energy and number emission are the
    integrals of the spectrum. *)
From Coq Require Import Reals ZArith Lra Lia.
From Coquelicot Require Import Coquelicot.
From Verif Require Import Base.Outcome Base.Ops Inst.ER Inst.ERTac Inst.RConsts
  Model.Constants Model.RadTypes Model.NeutrinoApi Model.OpacNeutrinos
  Spec.Physics Spec.Integral Spec.Opacities Proofs.PlanckFacts
  Proofs.ZetaNum Proofs.ThermalIntegrals Proofs.C03.
Open Scope R_scope.

Lemma C06_integral_of_spectrum_proof :
  forall ns pc o, positive_hkc pc -> neutrino_opacity ns (finpc pc) o ->
  forall T type, 0 < T ->
  exists B v,
    spectrum (nu_ThermalDistributionOfTNu o (Fin T) type) B /\
    returns (nu_ThermalDistributionOfT o (Fin T) type) v /\
    int_0_inf (fun nu => 4 * PI * B nu) v /\
    v = 7 / 8 * IZR ns *
        (4 * (2 * PI ^ 5 * pc_kb pc ^ 4 / (15 * pc_h pc ^ 3 * pc_c pc ^ 2)) * T ^ 4).
Proof.
  intros ns pc o Hp Ho T type HT. pose proof Hp as (Hh & Hk & Hc).
  exists (FermiDirac_B (IZR ns) (pc_h pc) (pc_kb pc) (pc_c pc) T),
    (7 / 8 * IZR ns * (4 * sigma_SB (pc_h pc) (pc_kb pc) (pc_c pc) * T ^ 4)).
  split; [|split; [|split]].
  - intros nu Hn. apply (C03_spectrum_is_fermi_dirac_proof ns pc o Hp Ho T nu type HT Hn).
  - unfold returns. rewrite <- (fd_T_fin pc Hh Hc ns type).
    destruct Ho as [[kap ->]|[->|[C [n1 [n2 ->]]]]]; reflexivity.
  - apply FD_integral; assumption.
  - reflexivity.
Qed.

Lemma C06_integral_of_number_spectrum_proof :
  forall ns pc o, (0 < ns)%Z -> positive_hkc pc -> neutrino_opacity ns (finpc pc) o ->
  forall T type, 0 < T ->
  exists B v w,
    spectrum (nu_ThermalDistributionOfTNu o (Fin T) type) B /\
    returns (nu_ThermalNumberDistributionOfT o (Fin T) type) v /\
    int_0_inf (fun nu => 4 * PI * B nu / (pc_h pc * nu)) w /\
    0 < w /\ Rabs (v - w) <= 3 / 10 ^ 6 * w.
Proof.
  intros ns pc o Hns Hp Ho T type HT. pose proof Hp as (Hh & Hk & Hc).
  assert (Hn : 0 < IZR ns) by (apply (IZR_lt 0); lia).
  destruct zeta3_bounds as [z [Hz [Hz1 Hz2]]].
  set (A := 12 * IZR ns * PI * pc_kb pc ^ 3 * T ^ 3 / (pc_c pc ^ 2 * pc_h pc ^ 3)).
  assert (HA : 0 < A) by (unfold A; pos).
  exists (FermiDirac_B (IZR ns) (pc_h pc) (pc_kb pc) (pc_c pc) T),
    (A * (120206 / 100000)), (A * z).
  split; [|split; [|split; [|split]]].
  - intros nu Hnu. apply (C03_spectrum_is_fermi_dirac_proof ns pc o Hp Ho T nu type HT Hnu).
  - unfold returns.
    replace (A * (120206 / 100000)) with
      (12 * IZR ns * PI * pc_kb pc ^ 3 * T ^ 3 * (120206 / 100000) / (pc_c pc ^ 2 * pc_h pc ^ 3))
      by (unfold A; field; split; nz).
    rewrite <- (fd_number_T_fin pc Hh Hc ns type).
    destruct Ho as [[kap ->]|[->|[C [n1 [n2 ->]]]]]; reflexivity.
  - replace (A * z) with
      (12 * IZR ns * PI * pc_kb pc ^ 3 * T ^ 3 * z / (pc_c pc ^ 2 * pc_h pc ^ 3))
      by (unfold A; field; split; nz).
    apply FD_number_integral; assumption.
  - apply Rmult_lt_0_compat; lra.
  - apply zeta3_rel; lra.
Qed.

Lemma C06_example :
  positive_hkc cgsR /\ (0 < 3)%Z /\
  neutrino_opacity 3 (finpc cgsR) (NuGrayOpacity 3 PhysicalConstantsCGS (Fin 1)).
Proof.
  split; [exact cgs_hkc|]. split; [lia|]. left. exists (Fin 1). rewrite cgs_fin. reflexivity.
Qed.
