(** Models of neutrinos/gray_opacity_neutrinos.hpp, brt_neutrinos.hpp and
    tophat_emissivity_neutrinos.hpp, for ThermalDistribution =
    FermiDiracDistributionNoMu<NSPECIES, pc> (the only distribution in the
    library; opac_neutrinos.hpp uses it with NSPECIES = 3). *)
From Coq Require Import ZArith Bool.
From Verif Require Import Base.Outcome Base.Ops Model.Constants Model.RadTypes
  Model.PhotonApi Model.NeutrinoApi Model.ThermalNeutrinos.
Open Scope ops_scope.

Section Neutrinos.
  Context {T : Type} {O : Ops T} (NSPECIES : Z) (pc : PhysConst T).

  (** Shared part of the three classes: array overloads are loops over the
      scalar functions and the thermal functions forward to dist_. *)
  Definition nu_opacity
      (alpha alpha_avg jnu Jnu : T -> T -> T -> RadiationType -> T -> T)
      (J JN : T -> T -> T -> RadiationType -> T) : NuOpac T := {|
    nu_Absorption := fun rho temp Ye type nu => Ok (alpha rho temp Ye type nu);
    nu_Absorption_v := fun rho temp Ye type =>
      array_loop (fun nu => Ok (alpha rho temp Ye type nu));
    nu_AngleAvgAbsorption := fun rho temp Ye type nu =>
      Ok (alpha_avg rho temp Ye type nu);
    nu_AngleAvgAbsorption_v := fun rho temp Ye type =>
      array_loop (fun nu => Ok (alpha_avg rho temp Ye type nu));
    nu_EmissivityPerNuOmega := fun rho temp Ye type nu => Ok (jnu rho temp Ye type nu);
    nu_EmissivityPerNuOmega_v := fun rho temp Ye type =>
      array_loop (fun nu => Ok (jnu rho temp Ye type nu));
    nu_EmissivityPerNu := fun rho temp Ye type nu => Ok (Jnu rho temp Ye type nu);
    nu_EmissivityPerNu_v := fun rho temp Ye type =>
      array_loop (fun nu => Ok (Jnu rho temp Ye type nu));
    nu_Emissivity := fun rho temp Ye type => Ok (J rho temp Ye type);
    nu_NumberEmissivity := fun rho temp Ye type => Ok (JN rho temp Ye type);
    nu_ThermalDistributionOfTNu := fun temp type nu => Ok (fd_nu NSPECIES pc temp type nu);
    nu_DThermalDistributionOfTNuDT := fun temp type nu =>
      Ok (fd_dT NSPECIES pc temp type nu);
    nu_ThermalDistributionOfT := fun temp type => Ok (fd_T NSPECIES pc temp type);
    nu_ThermalNumberDistributionOfT := fun temp type =>
      Ok (fd_number_T NSPECIES pc temp type);
    nu_EnergyDensityFromTemperature := fun temp type =>
      Ok (fd_energy_density NSPECIES pc temp type);
    nu_TemperatureFromEnergyDensity := fun er type =>
      Ok (fd_temperature NSPECIES pc er type);
    nu_NumberDensityFromTemperature := fun temp type =>
      Ok (fd_number_density NSPECIES pc temp type);
    nu_RuntimePC := RuntimePC_of pc;
    nu_nlambda := 0%Z |}.

  (** ** GrayOpacity *)
  Section Gray.
    Context (kappa : T).
    (** AbsorptionCoefficient, gray_opacity_neutrinos.hpp 48-53 (array 55-64) *)
    Definition nugray_alpha (rho temp Ye : T) (type : RadiationType) (nu : T) : T :=
      rho * kappa.
    (** AngleAveragedAbsorptionCoefficient, 66-73 (array 75-83) *)
    Definition nugray_alpha_avg (rho temp Ye : T) (type : RadiationType) (nu : T) : T :=
      rho * kappa.
    (** EmissivityPerNuOmega, 85-91 (array 93-102) *)
    Definition nugray_jnu (rho temp Ye : T) (type : RadiationType) (nu : T) : T :=
      let Bnu := fd_nu NSPECIES pc temp type nu in rho * kappa * Bnu.
    (** EmissivityPerNu, 104-109 (array 111-120) *)
    Definition nugray_Jnu (rho temp Ye : T) (type : RadiationType) (nu : T) : T :=
      #4 * Opi * nugray_jnu rho temp Ye type nu.
    (** Emissivity, 122-127 *)
    Definition nugray_J (rho temp Ye : T) (type : RadiationType) : T :=
      let B := fd_T NSPECIES pc temp type in rho * kappa * B.
    (** NumberEmissivity, 129-133 *)
    Definition nugray_JN (rho temp Ye : T) (type : RadiationType) : T :=
      kappa * fd_number_T NSPECIES pc temp type.
    Definition NuGrayOpacity : NuOpac T :=
      nu_opacity nugray_alpha nugray_alpha_avg nugray_jnu nugray_Jnu nugray_J nugray_JN.
  End Gray.

  (** ** BRTOpacity, brt_neutrinos.hpp *)
  Section BRT.
    (** Constants 219-222 *)
    Definition brt_Deltanp : T := Odec 2072126995 (-15).
    Definition brt_mu : T := pc_mp pc.
    Definition brt_zeta3 : T := Odec 12020569031595942853 (-19).
    Definition brt_zeta5 : T := Odec 10369277551433699263 (-19).

    (** GetSigmac, 181-189 *)
    Definition brt_sigmac (type : RadiationType) (nu : T) : T :=
      if negb (RadType_eqb type NU_ELECTRON) then #0
      else pc_nu_sigma0 pc * ((#1 + #3 * pc_gA pc * pc_gA pc) / #4) *
           Opow ((pc_h pc * nu + brt_Deltanp) / (pc_me pc * pc_c pc * pc_c pc)) #2.

    (** GetAlphac, 191-205 *)
    Definition brt_alphac (rho temp : T) (type : RadiationType) : T :=
      if negb (RadType_eqb type NU_ELECTRON) then #0
      else
        let retval := (#1 + #3 * pc_gA pc * pc_gA pc) * Opow (pc_kb pc * temp) #4 * rho *
                      pc_nu_sigma0 pc in
        let retval := retval *
          (#310 * Opow (pc_kb pc * temp) #2 * Opow Opi #6 +
           #147 * Opow Opi #4 * brt_Deltanp * brt_Deltanp +
           #113400 * pc_kb pc * temp * brt_Deltanp * brt_zeta5) in
        retval / (#5040 * Opow (pc_c pc) #6 * Opow (pc_h pc) #3 * Opow (pc_me pc) #2 *
                  brt_mu).

    (** GetNAlphac, 207-217 (no check of [type]) *)
    Definition brt_nalphac (rho temp : T) (type : RadiationType) : T :=
      let retval := (#1 + #3 * pc_gA pc * pc_gA pc) * Opow (pc_kb pc * temp) #3 * rho *
                    pc_nu_sigma0 pc in
      let retval := retval *
        (#7 * pc_kb pc * Opow Opi #4 * temp * brt_Deltanp +
         #90 * Opow brt_Deltanp #2 * brt_zeta3 +
         #1350 * Opow (pc_kb pc * temp) #2 * brt_zeta5) in
      retval / (#120 * Opow (pc_c pc) #6 * Opow (pc_h pc) #3 * Opow (pc_me pc) #2 *
                brt_mu).

    (** AbsorptionCoefficient, 48-53 (array 54-63) *)
    Definition brt_alpha (rho temp Ye : T) (type : RadiationType) (nu : T) : T :=
      rho / brt_mu * brt_sigmac type nu.
    (** AngleAveragedAbsorptionCoefficient, 65-72 (array 74-82) *)
    Definition brt_alpha_avg (rho temp Ye : T) (type : RadiationType) (nu : T) : T :=
      rho / brt_mu * brt_sigmac type nu.
    (** EmissivityPerNuOmega, 84-90 (array 92-101) *)
    Definition brt_jnu (rho temp Ye : T) (type : RadiationType) (nu : T) : T :=
      let Bnu := fd_nu NSPECIES pc temp type nu in
      rho / brt_mu * brt_sigmac type nu * Bnu.
    (** EmissivityPerNu, 103-108 (array 110-119) *)
    Definition brt_Jnu (rho temp Ye : T) (type : RadiationType) (nu : T) : T :=
      #4 * Opi * brt_jnu rho temp Ye type nu.
    (** Emissivity, 120-125 *)
    Definition brt_J (rho temp Ye : T) (type : RadiationType) : T :=
      #4 * Opi * brt_alphac rho temp type.
    (** NumberEmissivity, 127-131 *)
    Definition brt_JN (rho temp Ye : T) (type : RadiationType) : T :=
      #4 * Opi * brt_nalphac rho temp type.
    Definition BRTOpacity : NuOpac T :=
      nu_opacity brt_alpha brt_alpha_avg brt_jnu brt_Jnu brt_J brt_JN.
  End BRT.

  (** ** TophatEmissivity, tophat_emissivity_neutrinos.hpp *)
  Section Tophat.
    Context (C numin numax : T).

    (** GetYeF, 199-208 *)
    Definition tophat_YeF (type : RadiationType) (Ye : T) : T :=
      if RadType_eqb type NU_ELECTRON then #2 * Ye
      else if RadType_eqb type NU_ELECTRON_ANTI then #1 - #2 * Ye
      else #0.

    (** EmissivityPerNuOmega, 95-104 (array 106-115) *)
    Definition tophat_jnu (rho temp Ye : T) (type : RadiationType) (nu : T) : T :=
      if Ogtb nu numin && (nu <? numax) then C * tophat_YeF type Ye else #0.
    (** EmissivityPerNu, 117-122 (array 124-133) *)
    Definition tophat_Jnu (rho temp Ye : T) (type : RadiationType) (nu : T) : T :=
      #4 * Opi * tophat_jnu rho temp Ye type nu.
    (** AbsorptionCoefficient, 53-60 (array 62-72) *)
    Definition tophat_alpha (rho temp Ye : T) (type : RadiationType) (nu : T) : T :=
      fd_kirchhoff NSPECIES pc tophat_jnu rho temp Ye type nu / (#4 * Opi).
    (** AngleAveragedAbsorptionCoefficient, 74-82 (array 84-93) *)
    Definition tophat_alpha_avg (rho temp Ye : T) (type : RadiationType) (nu : T) : T :=
      fd_kirchhoff_avg NSPECIES pc tophat_Jnu rho temp Ye type nu.
    (** Emissivity, 135-141 *)
    Definition tophat_J (rho temp Ye : T) (type : RadiationType) : T :=
      let Bc := C * (numax - numin) in
      #4 * Opi * Bc * tophat_YeF type Ye.
    (** NumberEmissivity, 143-149 *)
    Definition tophat_JN (rho temp Ye : T) (type : RadiationType) : T :=
      let Ac := #1 / (pc_h pc * rho) * C * Olog (numax / numin) in
      #4 * Opi * rho * Ac * tophat_YeF type Ye.
    Definition TophatEmissivity : NuOpac T :=
      nu_opacity tophat_alpha tophat_alpha_avg tophat_jnu tophat_Jnu tophat_J tophat_JN.
  End Tophat.
End Neutrinos.
