(** C06. Neutrino frequency-integrated energy and number emission are the
    integrals of the spectrum. *)
From Coq Require Import Reals ZArith Lra Lia.
From Coquelicot Require Import Coquelicot.
From Verif Require Import Proofs.C06 Base.Outcome Base.Ops Inst.ER Inst.ERTac Inst.RConsts
  Model.Constants Model.RadTypes Model.NeutrinoApi Model.OpacNeutrinos
  Spec.Physics Spec.Integral Spec.Opacities Proofs.PlanckFacts
  Proofs.ZetaNum Proofs.ThermalIntegrals Proofs.C03.
Open Scope R_scope.

Theorem C06_integral_of_spectrum :
  forall ns pc o, positive_hkc pc -> neutrino_opacity ns (finpc pc) o ->
  forall T type, 0 < T ->
  exists B v,
    spectrum (nu_ThermalDistributionOfTNu o (Fin T) type) B /\
    returns (nu_ThermalDistributionOfT o (Fin T) type) v /\
    int_0_inf (fun nu => 4 * PI * B nu) v /\
    v = 7 / 8 * IZR ns *
        (4 * (2 * PI ^ 5 * pc_kb pc ^ 4 / (15 * pc_h pc ^ 3 * pc_c pc ^ 2)) * T ^ 4).
Proof. exact C06_integral_of_spectrum_proof. Qed.
Print Assumptions C06_integral_of_spectrum.

Theorem C06_integral_of_number_spectrum :
  forall ns pc o, (0 < ns)%Z -> positive_hkc pc -> neutrino_opacity ns (finpc pc) o ->
  forall T type, 0 < T ->
  exists B v w,
    spectrum (nu_ThermalDistributionOfTNu o (Fin T) type) B /\
    returns (nu_ThermalNumberDistributionOfT o (Fin T) type) v /\
    int_0_inf (fun nu => 4 * PI * B nu / (pc_h pc * nu)) w /\
    0 < w /\ Rabs (v - w) <= 3 / 10 ^ 6 * w.
Proof. exact C06_integral_of_number_spectrum_proof. Qed.
Print Assumptions C06_integral_of_number_spectrum.

Example C06_example_holds :
  positive_hkc cgsR /\ (0 < 3)%Z /\
  neutrino_opacity 3 (finpc cgsR) (NuGrayOpacity 3 PhysicalConstantsCGS (Fin 1)).
Proof. exact C06_example. Qed.
