(** C03. Neutrino thermal spectrum is Fermi-Dirac; its temperature derivative. *)
From Coq Require Import Reals ZArith Lra Lia.
From Coquelicot Require Import Coquelicot.
From Verif Require Import Proofs.C03 Base.Outcome Base.Ops Inst.ER Inst.ERTac Inst.RConsts
  Model.Constants Model.RadTypes Model.NeutrinoApi Model.OpacNeutrinos
  Spec.Physics Spec.Integral Spec.Opacities Proofs.PlanckFacts.
Open Scope R_scope.

(** Any species count, any species, any positive temperature and frequency. *)
Theorem C03_spectrum_is_fermi_dirac :
  forall ns pc o, positive_hkc pc -> neutrino_opacity ns (finpc pc) o ->
  forall T nu type, 0 < T -> 0 < nu ->
    returns (nu_ThermalDistributionOfTNu o (Fin T) type (Fin nu))
      (IZR ns * (2 * pc_h pc * nu ^ 3 / pc_c pc ^ 2 /
                 (exp (pc_h pc * nu / (pc_kb pc * T)) + 1))) /\
    ((0 < ns)%Z ->
     0 < IZR ns * (2 * pc_h pc * nu ^ 3 / pc_c pc ^ 2 /
                   (exp (pc_h pc * nu / (pc_kb pc * T)) + 1))).
Proof. exact C03_spectrum_is_fermi_dirac_proof. Qed.
Print Assumptions C03_spectrum_is_fermi_dirac.

Theorem C03_spectrum_increasing :
  forall ns pc o, (0 < ns)%Z -> positive_hkc pc -> neutrino_opacity ns (finpc pc) o ->
  forall T1 T2 nu type b1 b2, 0 < T1 -> T1 < T2 -> 0 < nu ->
    returns (nu_ThermalDistributionOfTNu o (Fin T1) type (Fin nu)) b1 ->
    returns (nu_ThermalDistributionOfTNu o (Fin T2) type (Fin nu)) b2 -> b1 < b2.
Proof. exact C03_spectrum_increasing_proof. Qed.
Print Assumptions C03_spectrum_increasing.

Theorem C03_dT_is_derivative :
  forall ns pc o, positive_hkc pc -> neutrino_opacity ns (finpc pc) o ->
  forall nu type, 0 < nu ->
  forall B, (forall T, 0 < T ->
    returns (nu_ThermalDistributionOfTNu o (Fin T) type (Fin nu)) (B T)) ->
  forall T, 0 < T ->
    exists d, returns (nu_DThermalDistributionOfTNuDT o (Fin T) type (Fin nu)) d /\
              is_derive B T d.
Proof. exact C03_dT_is_derivative_proof. Qed.
Print Assumptions C03_dT_is_derivative.

(** the library's three-species CGS neutrino opacities meet the hypotheses *)
Example C03_example_holds :
  positive_hkc cgsR /\ (0 < 3)%Z /\
  neutrino_opacity 3 (finpc cgsR) (BRTOpacity 3 PhysicalConstantsCGS).
Proof. exact C03_example. Qed.
