(** C39. Scattering coefficients are number density times cross section, isotropically. *)
From Coq Require Import Reals ZArith Lra Lia.
From Coquelicot Require Import Coquelicot.
From Verif Require Import Proofs.C39 Base.Outcome Base.Ops Inst.ER Inst.ERTac Inst.RConsts Model.Constants Model.RadTypes
  Model.PowerLawPhotons Model.NonCGSPhotons Model.ScatteringPhotons Model.NonCGSNeutrinos Spec.Opacities Spec.Scattering.
Open Scope R_scope.

(** Gray: the given cross section, rho / (particle mass) scatterers. *)
Theorem C39_gray :
  forall sigma apm : R, apm <> 0 ->
  scatters (GraySOpacity (Fin sigma) (Fin apm)) (fun _ _ _ => True)
    (fun rho => rho / apm) (fun _ _ _ => sigma).
Proof. exact C39_gray_proof. Qed.
Print Assumptions C39_gray.

(** Thomson: 8 pi / 3 times the squared classical electron radius alpha hbar / (m c);
    one electron per two particles of the given mass. *)
Theorem C39_thomson :
  forall (pc : PhysConst R) (apm : R), positive_consts pc -> apm <> 0 ->
  scatters (ThomsonSOpacity (finpc pc) (Fin apm)) (fun _ _ _ => True)
    (fun rho => rho / apm / 2)
    (fun _ _ _ => 8 * PI / 3 * (pc_alpha pc * pc_hbar pc / (pc_me pc * pc_c pc)) ^ 2).
Proof. exact C39_thomson_proof. Qed.
Print Assumptions C39_thomson.

(** Power law, wherever its power law is defined. *)
Theorem C39_powerlaw :
  forall (kappa0 rho_exp temp_exp rho_ref rho_off temp_ref temp_off nu_exp nu_ref nu_off apm : R) (stim : bool),
  apm <> 0 -> 0 < rho_ref -> 0 < temp_ref -> 0 < nu_ref ->
  let p := {| pl_kappa0 := Fin kappa0; pl_rho_exp := Fin rho_exp; pl_temp_exp := Fin temp_exp;
              pl_rho_ref := Fin rho_ref; pl_rho_off := Fin rho_off; pl_temp_ref := Fin temp_ref;
              pl_temp_off := Fin temp_off; pl_nu_exp := Fin nu_exp; pl_nu_ref := Fin nu_ref;
              pl_nu_off := Fin nu_off; pl_do_stim_emit := stim |} in
  scatters (PowerLawSOpacity p (Fin apm))
    (fun rho temp nu => 0 < rho + rho_off /\ 0 < temp + temp_off /\ 0 < nu + nu_off)
    (fun rho => rho / apm)
    (fun rho temp nu => kappa0 * Rpower ((rho + rho_off) / rho_ref) rho_exp
       * Rpower ((temp + temp_off) / temp_ref) temp_exp * Rpower ((nu + nu_off) / nu_ref) nu_exp).
Proof. exact C39_powerlaw_proof. Qed.
Print Assumptions C39_powerlaw.

(** Gray neutrino scattering, every species and electron fraction. *)
Theorem C39_gray_neutrinos :
  forall (sigma apm Ye : R) (type : RadiationType), apm <> 0 ->
  scatters (at_species (NuGraySOpacity (Fin sigma) (Fin apm)) (Fin Ye) type) (fun _ _ _ => True)
    (fun rho => rho / apm) (fun _ _ _ => sigma).
Proof. exact C39_gray_neutrinos_proof. Qed.
Print Assumptions C39_gray_neutrinos.

Example C39_powerlaw_example_holds :
  (2:R) <> 0 /\ 0 < 1 /\ 0 < 3 + 0 /\ positive_consts cgsR.
Proof. exact C39_powerlaw_example. Qed.
