(** The closed forms of the opacities, as real numbers. *)
From Coq Require Import Reals ZArith.
From Flocq Require Import Core IEEE754.BinarySingleNaN.
From Verif Require Import Inst.B64 Model.PowerLawPhotons Spec.DoublePrecision.
Open Scope R_scope.

(** the photon number carried per area and time by black-body radiation at temperature t,
    with the five-digit zeta(3) of the code *)
Definition number_cgs (t : R) : R :=
  16 * PI * (k_cgs * t) ^ 3 * (120206 / 100000) / (c_cgs ^ 2 * h_cgs ^ 3).

(** the power law in density, temperature and frequency *)
Definition powerlaw_R (p : PowerLawParams b64) (rho temp nu : R) : R :=
  B2R (pl_kappa0 p) * Rpower ((rho + B2R (pl_rho_off p)) / B2R (pl_rho_ref p)) (B2R (pl_rho_exp p)) *
  Rpower ((temp + B2R (pl_temp_off p)) / B2R (pl_temp_ref p)) (B2R (pl_temp_exp p)) *
  Rpower ((nu + B2R (pl_nu_off p)) / B2R (pl_nu_ref p)) (B2R (pl_nu_exp p)).

(** the correction for stimulated emission, where it is asked for *)
Definition stimulated (p : PowerLawParams b64) (temp nu : R) : R :=
  if pl_do_stim_emit p then 1 - exp (- (h_cgs * nu / (k_cgs * temp))) else 1.

(** parameters and states of any physical size, powers that leave room for the other factors *)
Definition powerlaw_ok (p : PowerLawParams b64) (rho temp nu : b64) : Prop :=
  physical (pl_kappa0 p) /\ physical rho /\ physical temp /\ physical nu /\
  physical (pl_rho_ref p) /\ physical (pl_temp_ref p) /\ physical (pl_nu_ref p) /\
  offset (pl_rho_off p) /\ offset (pl_temp_off p) /\ offset (pl_nu_off p) /\
  exponent (pl_rho_exp p) /\ exponent (pl_temp_exp p) /\ exponent (pl_nu_exp p) /\
  moderate (Rpower ((B2R rho + B2R (pl_rho_off p)) / B2R (pl_rho_ref p)) (B2R (pl_rho_exp p))) /\
  moderate (Rpower ((B2R temp + B2R (pl_temp_off p)) / B2R (pl_temp_ref p)) (B2R (pl_temp_exp p))) /\
  moderate (Rpower ((B2R nu + B2R (pl_nu_off p)) / B2R (pl_nu_ref p)) (B2R (pl_nu_exp p))).

(** the exponents, by size: a power x^e magnifies the error of x by |e| *)
Definition exps (p : PowerLawParams b64) : R :=
  Rabs (B2R (pl_rho_exp p)) + Rabs (B2R (pl_temp_exp p)) + Rabs (B2R (pl_nu_exp p)).

(** the Thomson cross section *)
Definition sigmaT_cgs : R := 8 * PI / 3 * (alpha_cgs * (h_cgs / (2 * PI)) / (me_cgs * c_cgs)) ^ 2.

(** electron-proton bremsstrahlung: the constant, k T / (m_e c^2), the electron density of
    ionised hydrogen, the emission per frequency and solid angle, and in total *)
Definition brems_c : R :=
  8 * qe_cgs ^ 6 / (3 * (me_cgs * c_cgs * c_cgs) ^ 2) * sqrt (2 * PI / 3).
Definition theta_e (t : R) : R := k_cgs * t / (me_cgs * c_cgs * c_cgs).
Definition n_e (rho : R) : R := rho / (mp_cgs + me_cgs).
Definition brems_R (rho t nu : R) : R :=
  brems_c / sqrt (theta_e t) * n_e rho * n_e rho * exp (- (h_cgs * nu / (k_cgs * t))) * (12 / 10).
Definition brems_total_R (rho t : R) : R :=
  4 * PI * (k_cgs * t / h_cgs) * brems_c / sqrt (theta_e t) * n_e rho * n_e rho * (12 / 10).

(** weak interaction: the Fermi coupling and the fiducial cross section as the constants
    file has them (see C25 for their units), 1 + 3 g_A^2, and the neutron-proton mass difference *)
Definition Fc_cgs : R := 4543791885043567014 / 10 ^ 32.
Definition sigma0_cgs : R :=
  4 * 100 ^ 2 * Fc_cgs ^ 2 * (c_cgs * (h_cgs / (2 * PI))) ^ 2 * (me_cgs * c_cgs ^ 2) ^ 2 / PI.
Definition gA2_cgs : R := 1 + 3 * (123 / 100) ^ 2.
Definition Delta_cgs : R := 2072126995 / 10 ^ 15.

(** absorption of electron neutrinos on nucleons, and the energy and number emitted *)
Definition brt_alpha_R (rho nu : R) : R :=
  rho / mp_cgs * (sigma0_cgs * (gA2_cgs / 4) * ((h_cgs * nu + Delta_cgs) / (me_cgs * c_cgs ^ 2)) ^ 2).
Definition brt_J_R (rho t : R) : R :=
  let kT := k_cgs * t in
  4 * PI * (gA2_cgs * kT ^ 4 * rho * sigma0_cgs *
    (310 * kT ^ 2 * PI ^ 6 + 147 * PI ^ 4 * Delta_cgs ^ 2 +
     113400 * kT * Delta_cgs * (10369277551433699263 / 10 ^ 19)) /
    (5040 * c_cgs ^ 6 * h_cgs ^ 3 * me_cgs ^ 2 * mp_cgs)).
Definition brt_JN_R (rho t : R) : R :=
  let kT := k_cgs * t in
  4 * PI * (gA2_cgs * kT ^ 3 * rho * sigma0_cgs *
    (7 * kT * PI ^ 4 * Delta_cgs + 90 * Delta_cgs ^ 2 * (12020569031595942853 / 10 ^ 19) +
     1350 * kT ^ 2 * (10369277551433699263 / 10 ^ 19)) /
    (120 * c_cgs ^ 6 * h_cgs ^ 3 * me_cgs ^ 2 * mp_cgs)).
