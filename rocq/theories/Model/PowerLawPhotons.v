(** Model of photons/powerlaw_opacity_photons.hpp (PowerLawOpacity<pc>). *)
From Coq Require Import ZArith Bool.
From Verif Require Import Base.Outcome Base.Ops Model.Constants
  Model.PhotonApi Model.ThermalPhotons.
Open Scope ops_scope.

(** Data members, 248-258 (dist_ carries no data). *)
Record PowerLawParams (T : Type) := {
  pl_kappa0 : T; pl_rho_exp : T; pl_temp_exp : T;
  pl_rho_ref : T; pl_rho_off : T; pl_temp_ref : T; pl_temp_off : T;
  pl_nu_exp : T; pl_nu_ref : T; pl_nu_off : T; pl_do_stim_emit : bool;
}.
Arguments pl_kappa0 {T}. Arguments pl_rho_exp {T}. Arguments pl_temp_exp {T}.
Arguments pl_rho_ref {T}. Arguments pl_rho_off {T}. Arguments pl_temp_ref {T}.
Arguments pl_temp_off {T}. Arguments pl_nu_exp {T}. Arguments pl_nu_ref {T}.
Arguments pl_nu_off {T}. Arguments pl_do_stim_emit {T}.

Section PowerLaw.
  Context {T : Type} {O : Ops T} (pc : PhysConst T).

  (** Constructor checks, 54-71: each failing check calls OPAC_ERROR. The
      constructor stores its arguments unchanged (50-53). *)
  Definition powerlaw_ctor (p : PowerLawParams T) : result (PowerLawParams T) :=
    if negb (Ogtb (pl_rho_ref p) #0) then Error else
    if negb (Ogtb (pl_temp_ref p) #0) then Error else
    if negb (Ogtb (pl_nu_ref p) #0) then Error else
    if pl_rho_off p <? #0 then Error else
    if pl_temp_off p <? #0 then Error else
    if pl_nu_off p <? #0 then Error else
    Ok p.

  Section Methods.
    Context (p : PowerLawParams T).

    (** OpacityPrefactor_, 241-246 *)
    Definition powerlaw_prefactor (rho temp : T) : T :=
      let rhom := (rho + pl_rho_off p) / pl_rho_ref p in
      let tempm := (temp + pl_temp_off p) / pl_temp_ref p in
      pl_kappa0 p * Opow rhom (pl_rho_exp p) * Opow tempm (pl_temp_exp p).

    (** OpacityScale_, 233-239 *)
    Definition powerlaw_scale (rho temp nu : T) : T :=
      let freq_plaw := Opow ((nu + pl_nu_off p) / pl_nu_ref p) (pl_nu_exp p) in
      let stim_fact :=
        if pl_do_stim_emit p
        then - Oexpm1 (- (pc_h pc * nu / (pc_kb pc * temp))) else #1 in
      powerlaw_prefactor rho temp * freq_plaw * stim_fact.

    (** AbsorptionCoefficient, 87-91 *)
    Definition powerlaw_alpha (rho temp nu : T) : T := rho * powerlaw_scale rho temp nu.
    (** AngleAveragedAbsorptionCoefficient, 103-108 *)
    Definition powerlaw_alpha_avg (rho temp nu : T) : T := powerlaw_alpha rho temp nu.
    (** EmissivityPerNuOmega, 120-125 *)
    Definition powerlaw_jnu (rho temp nu : T) : T :=
      let Bnu := planck_nu pc temp nu in rho * powerlaw_scale rho temp nu * Bnu.
    (** EmissivityPerNu, 137-141 *)
    Definition powerlaw_Jnu (rho temp nu : T) : T := #4 * Opi * powerlaw_jnu rho temp nu.
    (** Emissivity, 153-169 *)
    Definition powerlaw_J (rho temp : T) : result T :=
      if Oneqb (pl_nu_exp p) #0 then Error
      else Ok (rho * powerlaw_prefactor rho temp * planck_T pc temp).
    (** NumberEmissivity, 171-185 *)
    Definition powerlaw_JN (rho temp : T) : result T :=
      if Oneqb (pl_nu_exp p) #0 then Error
      else Ok (powerlaw_prefactor rho temp * planck_number_T pc temp).

    (** The class; array overloads 93-101, 110-118, 127-135, 143-151. *)
    Definition PowerLawOpacity : PhotonOpac T := {|
      ph_Absorption := fun rho temp nu => Ok (powerlaw_alpha rho temp nu);
      ph_Absorption_v := fun rho temp =>
        array_loop (fun nu => Ok (powerlaw_alpha rho temp nu));
      ph_AngleAvgAbsorption := fun rho temp nu => Ok (powerlaw_alpha_avg rho temp nu);
      ph_AngleAvgAbsorption_v := fun rho temp =>
        array_loop (fun nu => Ok (powerlaw_alpha_avg rho temp nu));
      ph_EmissivityPerNuOmega := fun rho temp nu => Ok (powerlaw_jnu rho temp nu);
      ph_EmissivityPerNuOmega_v := fun rho temp =>
        array_loop (fun nu => Ok (powerlaw_jnu rho temp nu));
      ph_EmissivityPerNu := fun rho temp nu => Ok (powerlaw_Jnu rho temp nu);
      ph_EmissivityPerNu_v := fun rho temp =>
        array_loop (fun nu => Ok (powerlaw_Jnu rho temp nu));
      ph_Emissivity := powerlaw_J;
      ph_NumberEmissivity := powerlaw_JN;
      ph_ThermalDistributionOfTNu := fun temp nu => Ok (planck_nu pc temp nu);
      ph_DThermalDistributionOfTNuDT := fun temp nu => Ok (planck_dT pc temp nu);
      ph_ThermalDistributionOfT := fun temp => Ok (planck_T pc temp);
      ph_ThermalNumberDistributionOfT := fun temp => Ok (planck_number_T pc temp);
      ph_EnergyDensityFromTemperature := fun temp => Ok (planck_energy_density pc temp);
      ph_TemperatureFromEnergyDensity := fun er => Ok (planck_temperature pc er);
      ph_NumberDensityFromTemperature := fun temp => Ok (planck_number_density pc temp);
      ph_RuntimePC := RuntimePC_of pc;
      ph_nlambda := 0%Z |}.
  End Methods.
End PowerLaw.
