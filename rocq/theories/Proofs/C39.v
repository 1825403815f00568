(** C39. Scattering coefficients are number density times cross section, isotropically. *)
From Coq Require Import Reals ZArith Lra Lia.
From Coquelicot Require Import Coquelicot.
From Verif Require Import Base.Outcome Base.Ops Inst.ER Inst.ERTac Inst.RConsts Model.Constants Model.RadTypes
  Model.PowerLawPhotons Model.NonCGSPhotons Model.ScatteringPhotons Model.NonCGSNeutrinos Spec.Opacities Spec.Scattering.
Open Scope R_scope.

(** Gray: the given cross section, rho / (particle mass) scatterers. *)
Lemma C39_gray_proof :
  forall sigma apm : R, apm <> 0 ->
  scatters (GraySOpacity (Fin sigma) (Fin apm)) (fun _ _ _ => True)
    (fun rho => rho / apm) (fun _ _ _ => sigma).
Proof.
  intros sigma apm Ha rho temp nu _.
  exists (sigma / (4 * PI)). cbn [s_TotalCrossSection s_DifferentialCrossSection s_TotalScatteringCoefficient GraySOpacity].
  pose proof PI_RGT_0. repeat split.
  - intros mu. er. reflexivity.
  - apply iso_RInt.
  - er. reflexivity.
Qed.

(** Thomson: 8 pi / 3 times the squared classical electron radius alpha hbar / (m c);
    one electron per two particles of the given mass. *)
Lemma C39_thomson_proof :
  forall (pc : PhysConst R) (apm : R), positive_consts pc -> apm <> 0 ->
  scatters (ThomsonSOpacity (finpc pc) (Fin apm)) (fun _ _ _ => True)
    (fun rho => rho / apm / 2)
    (fun _ _ _ => 8 * PI / 3 * (pc_alpha pc * pc_hbar pc / (pc_me pc * pc_c pc)) ^ 2).
Proof.
  intros pc apm P Ha rho temp nu _. pose proof PI_RGT_0.
  set (sig := 8 * PI / 3 * (pc_alpha pc * pc_hbar pc / (pc_me pc * pc_c pc)) ^ 2).
  assert (Hm : 0 < pc_me pc * pc_c pc) by (unfold positive_consts in P; pos; tauto).
  assert (E : thomson_sigmaT (finpc pc) = Fin sig).
  { unfold thomson_sigmaT. cbn [pc_alpha pc_hbar pc_me pc_c finpc pc_map]. er. reflexivity. }
  exists (sig / (4 * PI)). cbn [s_TotalCrossSection s_DifferentialCrossSection s_TotalScatteringCoefficient ThomsonSOpacity].
  rewrite E. repeat split.
  - intros mu. er. reflexivity.
  - apply iso_RInt.
  - cbv zeta. er. reflexivity.
Qed.

(** Power law, wherever its power law is defined. *)
Lemma C39_powerlaw_proof :
  forall (kappa0 rho_exp temp_exp rho_ref rho_off temp_ref temp_off nu_exp nu_ref nu_off apm : R) (stim : bool),
  apm <> 0 -> 0 < rho_ref -> 0 < temp_ref -> 0 < nu_ref ->
  let p := {| pl_kappa0 := Fin kappa0; pl_rho_exp := Fin rho_exp; pl_temp_exp := Fin temp_exp;
              pl_rho_ref := Fin rho_ref; pl_rho_off := Fin rho_off; pl_temp_ref := Fin temp_ref;
              pl_temp_off := Fin temp_off; pl_nu_exp := Fin nu_exp; pl_nu_ref := Fin nu_ref;
              pl_nu_off := Fin nu_off; pl_do_stim_emit := stim |} in
  scatters (PowerLawSOpacity p (Fin apm))
    (fun rho temp nu => 0 < rho + rho_off /\ 0 < temp + temp_off /\ 0 < nu + nu_off)
    (fun rho => rho / apm)
    (fun rho temp nu => kappa0 * Rpower ((rho + rho_off) / rho_ref) rho_exp
       * Rpower ((temp + temp_off) / temp_ref) temp_exp * Rpower ((nu + nu_off) / nu_ref) nu_exp).
Proof.
  intros. intros rho temp nu (Hr & Ht & Hn). pose proof PI_RGT_0.
  set (sig := kappa0 * _ * _ * _).
  assert (E : powerlaw_s_scale p (Fin rho) (Fin temp) (Fin nu) = Fin sig).
  { unfold powerlaw_s_scale, powerlaw_prefactor, p. cbn [pl_kappa0 pl_rho_exp pl_temp_exp pl_rho_ref pl_rho_off
      pl_temp_ref pl_temp_off pl_nu_exp pl_nu_ref pl_nu_off]. rewrite !fin_add, !fin_div by lra.
    rewrite !fin_pow by pos. rewrite !fin_mul. reflexivity. }
  exists (sig / (4 * PI)). cbn [s_TotalCrossSection s_DifferentialCrossSection s_TotalScatteringCoefficient PowerLawSOpacity].
  rewrite E. repeat split.
  - intros mu. er. reflexivity.
  - apply iso_RInt.
  - er. reflexivity.
Qed.

(** Gray neutrino scattering, every species and electron fraction. *)
Lemma C39_gray_neutrinos_proof :
  forall (sigma apm Ye : R) (type : RadiationType), apm <> 0 ->
  scatters (at_species (NuGraySOpacity (Fin sigma) (Fin apm)) (Fin Ye) type) (fun _ _ _ => True)
    (fun rho => rho / apm) (fun _ _ _ => sigma).
Proof.
  intros sigma apm Ye type Ha. exact (C39_gray_proof sigma apm Ha).
Qed.

Lemma C39_powerlaw_example :
  (2:R) <> 0 /\ 0 < 1 /\ 0 < 3 + 0 /\ positive_consts cgsR.
Proof.
  repeat split; try lra; apply cgs_pos.
Qed.
