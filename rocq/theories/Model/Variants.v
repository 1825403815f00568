(** Model of the opacity variants: photons/photon_variant.hpp, photons/photon_s_variant.hpp,
    neutrinos/neutrino_variant.hpp, neutrinos/neutrino_s_variant.hpp, with the alternatives
    of photons/opac_photons.hpp 30-38, photons/s_opac_photons.hpp 29-36,
    neutrinos/opac_neutrinos.hpp 34-44 and neutrinos/s_opac_neutrinos.hpp 27-30.
    PortsOfCall::visit(f, opac_) is f of the object held. A unit wrapper is the wrapped
    object with its four units; the members derived from them are computed by [mk_units].
    Not modelled: PrintParams, Finalize. *)
From Coq Require Import ZArith List Bool.
From Verif Require Import Base.Outcome Base.Ops Model.Constants Model.RadTypes Model.PhotonApi Model.NeutrinoApi
  Model.GrayPhotons Model.PowerLawPhotons Model.EPBremsPhotons Model.NonCGSPhotons Model.ScatteringPhotons
  Model.OpacNeutrinos Model.NonCGSNeutrinos Model.SpinerNeutrinos.
Open Scope ops_scope.

(** the four units a wrapper is built from *)
Record Units4 (T : Type) := { u4_time : T; u4_mass : T; u4_length : T; u4_temp : T }.
Arguments u4_time {T}. Arguments u4_mass {T}. Arguments u4_length {T}. Arguments u4_temp {T}.

Section Variants.
  Context {T : Type} {O : Ops T}.

  Definition units_of (u : Units4 T) : Units T := mk_units (u4_time u) (u4_mass u) (u4_length u) (u4_temp u).
  (** the units GetOnDevice hands to the new wrapper: photons/non_cgs_photons.hpp 50-53,
      non_cgs_s_photons.hpp 39-42, neutrinos/non_cgs_neutrinos.hpp 47-50,
      non_cgs_s_neutrinos.hpp 39-42 *)
  Definition stored_units (u : Units4 T) : Units4 T :=
    let w := units_of u in
    {| u4_time := un_time w; u4_mass := un_mass w; u4_length := un_length w; u4_temp := un_temp w |}.

  (** ** photons::Opacity *)
  Inductive PhotonAlt :=
    | PhScaleFree (kappa : T)
    | PhGray (kappa : T)
    | PhPowerLawScaleFree (p : PowerLawParams T)
    | PhPowerLaw (p : PowerLawParams T)
    | PhEPBremss
    | PhUnitsGray (kappa : T) (u : Units4 T)
    | PhUnitsPowerLaw (p : PowerLawParams T) (u : Units4 T)
    | PhUnitsEPBremss (u : Units4 T).

  (** the object held *)
  Definition ph_held (v : PhotonAlt) : PhotonOpac T :=
    match v with
    | PhScaleFree kappa => GrayOpacity PhysicalConstantsUnity kappa
    | PhGray kappa => GrayOpacity PhysicalConstantsCGS kappa
    | PhPowerLawScaleFree p => PowerLawOpacity PhysicalConstantsUnity p
    | PhPowerLaw p => PowerLawOpacity PhysicalConstantsCGS p
    | PhEPBremss => EPBremsstrahlungOpacity PhysicalConstantsCGS
    | PhUnitsGray kappa u => NonCGSUnits PhysicalConstantsCGS (GrayOpacity PhysicalConstantsCGS kappa) (units_of u)
    | PhUnitsPowerLaw p u => NonCGSUnits PhysicalConstantsCGS (PowerLawOpacity PhysicalConstantsCGS p) (units_of u)
    | PhUnitsEPBremss u => NonCGSUnits PhysicalConstantsCGS (EPBremsstrahlungOpacity PhysicalConstantsCGS) (units_of u)
    end.
  Definition ph_visit {A : Type} (v : PhotonAlt) (f : PhotonOpac T -> A) : A := f (ph_held v).

  (** the members of impl::Variant; the comment gives the lines *)
  Definition ph_variant (v : PhotonAlt) : PhotonOpac T := {|
    (* 82-90 *) ph_Absorption := fun rho temp nu => ph_visit v (fun o => ph_Absorption o rho temp nu);
    (* 92-102 *) ph_Absorption_v := fun rho temp nu_bins coeffs nbins m =>
      ph_visit v (fun o => ph_Absorption_v o rho temp nu_bins coeffs nbins m);
    (* 107-115 *) ph_AngleAvgAbsorption := fun rho temp nu => ph_visit v (fun o => ph_AngleAvgAbsorption o rho temp nu);
    (* 117-127 *) ph_AngleAvgAbsorption_v := fun rho temp nu_bins coeffs nbins m =>
      ph_visit v (fun o => ph_AngleAvgAbsorption_v o rho temp nu_bins coeffs nbins m);
    (* 131-139 *) ph_EmissivityPerNuOmega := fun rho temp nu => ph_visit v (fun o => ph_EmissivityPerNuOmega o rho temp nu);
    (* 141-152 *) ph_EmissivityPerNuOmega_v := fun rho temp nu_bins coeffs nbins m =>
      ph_visit v (fun o => ph_EmissivityPerNuOmega_v o rho temp nu_bins coeffs nbins m);
    (* 155-163 *) ph_EmissivityPerNu := fun rho temp nu => ph_visit v (fun o => ph_EmissivityPerNu o rho temp nu);
    (* 165-176 *) ph_EmissivityPerNu_v := fun rho temp nu_bins coeffs nbins m =>
      ph_visit v (fun o => ph_EmissivityPerNu_v o rho temp nu_bins coeffs nbins m);
    (* 179-184 *) ph_Emissivity := fun rho temp => ph_visit v (fun o => ph_Emissivity o rho temp);
    (* 187-195 *) ph_NumberEmissivity := fun rho temp => ph_visit v (fun o => ph_NumberEmissivity o rho temp);
    (* 198-205 *) ph_ThermalDistributionOfTNu := fun temp nu => ph_visit v (fun o => ph_ThermalDistributionOfTNu o temp nu);
    (* 208-215 *) ph_DThermalDistributionOfTNuDT := fun temp nu => ph_visit v (fun o => ph_DThermalDistributionOfTNuDT o temp nu);
    (* 218-225 *) ph_ThermalDistributionOfT := fun temp => ph_visit v (fun o => ph_ThermalDistributionOfT o temp);
    (* 228-235 *) ph_ThermalNumberDistributionOfT := fun temp => ph_visit v (fun o => ph_ThermalNumberDistributionOfT o temp);
    (* 238-245 *) ph_EnergyDensityFromTemperature := fun temp => ph_visit v (fun o => ph_EnergyDensityFromTemperature o temp);
    (* 248-255 *) ph_TemperatureFromEnergyDensity := fun er => ph_visit v (fun o => ph_TemperatureFromEnergyDensity o er);
    (* 258-265 *) ph_NumberDensityFromTemperature := fun temp => ph_visit v (fun o => ph_NumberDensityFromTemperature o temp);
    (* 73-77 *) ph_RuntimePC := ph_visit v ph_RuntimePC;
    (* 267-271 *) ph_nlambda := ph_visit v ph_nlambda |}.

  (** GetOnDevice, 67-71: the variant of the alternative's copy *)
  Definition ph_GetOnDevice (v : PhotonAlt) : PhotonAlt :=
    match v with
    | PhUnitsGray kappa u => PhUnitsGray kappa (stored_units u)
    | PhUnitsPowerLaw p u => PhUnitsPowerLaw p (stored_units u)
    | PhUnitsEPBremss u => PhUnitsEPBremss (stored_units u)
    | _ => v
    end.

  (** position in the list of alternatives; IsType, 273-276, and get, 58-65, compare it *)
  Definition ph_index (v : PhotonAlt) : nat :=
    match v with
    | PhScaleFree _ => 0 | PhGray _ => 1 | PhPowerLawScaleFree _ => 2 | PhPowerLaw _ => 3 | PhEPBremss => 4
    | PhUnitsGray _ _ => 5 | PhUnitsPowerLaw _ _ => 6 | PhUnitsEPBremss _ => 7
    end.
  Definition ph_IsType (k : nat) (v : PhotonAlt) : bool := Nat.eqb (ph_index v) k.
  Definition ph_get (k : nat) (v : PhotonAlt) : result (PhotonOpac T) :=
    if ph_IsType k v then Ok (ph_held v) else Error.

  (** ** photons::SOpacity *)
  Inductive PhotonSAlt :=
    | PsScaleFree (sigma apm : T)
    | PsGray (sigma apm : T)
    | PsThomson (apm : T)
    | PsPowerLaw (p : PowerLawParams T) (apm : T)
    | PsUnitsGray (sigma apm : T) (u : Units4 T)
    | PsUnitsThomson (apm : T) (u : Units4 T)
    | PsUnitsPowerLaw (p : PowerLawParams T) (apm : T) (u : Units4 T).
  Definition ps_held (v : PhotonSAlt) : SOpac T :=
    match v with
    | PsScaleFree sigma apm => GraySOpacity sigma apm
    | PsGray sigma apm => GraySOpacity sigma apm
    | PsThomson apm => ThomsonSOpacity PhysicalConstantsCGS apm
    | PsPowerLaw p apm => PowerLawSOpacity p apm
    | PsUnitsGray sigma apm u => NonCGSUnitsS (GraySOpacity sigma apm) (units_of u)
    | PsUnitsThomson apm u => NonCGSUnitsS (ThomsonSOpacity PhysicalConstantsCGS apm) (units_of u)
    | PsUnitsPowerLaw p apm u => NonCGSUnitsS (PowerLawSOpacity p apm) (units_of u)
    end.
  Definition ps_visit {A : Type} (v : PhotonSAlt) (f : SOpac T -> A) : A := f (ps_held v).
  Definition ps_variant (v : PhotonSAlt) : SOpac T := {|
    (* 78-86 *) s_TotalCrossSection := fun rho temp nu => ps_visit v (fun o => s_TotalCrossSection o rho temp nu);
    (* 91-99 *) s_DifferentialCrossSection := fun rho temp nu mu =>
      ps_visit v (fun o => s_DifferentialCrossSection o rho temp nu mu);
    (* 104-112 *) s_TotalScatteringCoefficient := fun rho temp nu =>
      ps_visit v (fun o => s_TotalScatteringCoefficient o rho temp nu);
    (* 114-118 *) s_nlambda := ps_visit v s_nlambda |}.
  (** 67-73 *)
  Definition ps_GetOnDevice (v : PhotonSAlt) : PhotonSAlt :=
    match v with
    | PsUnitsGray sigma apm u => PsUnitsGray sigma apm (stored_units u)
    | PsUnitsThomson apm u => PsUnitsThomson apm (stored_units u)
    | PsUnitsPowerLaw p apm u => PsUnitsPowerLaw p apm (stored_units u)
    | _ => v
    end.

  Definition ps_index (v : PhotonSAlt) : nat :=
    match v with
    | PsScaleFree _ _ => 0 | PsGray _ _ => 1 | PsThomson _ => 2 | PsPowerLaw _ _ => 3
    | PsUnitsGray _ _ _ => 4 | PsUnitsThomson _ _ => 5 | PsUnitsPowerLaw _ _ _ => 6
    end.
  (** IsType, 120-123; get, 58-65 *)
  Definition ps_IsType (k : nat) (v : PhotonSAlt) : bool := Nat.eqb (ps_index v) k.
  Definition ps_get (k : nat) (v : PhotonSAlt) : result (SOpac T) :=
    if ps_IsType k v then Ok (ps_held v) else Error.

  (** ** neutrinos::Opacity; three species *)
  Inductive NuAlt :=
    | NuScaleFree (kappa : T)
    | NuBRT
    | NuGray (kappa : T)
    | NuTophat (C numin numax : T)
    | NuSpiner (t : SpinerTables T)
    | NuUnitsBRT (u : Units4 T)
    | NuUnitsGray (kappa : T) (u : Units4 T)
    | NuUnitsTophat (C numin numax : T) (u : Units4 T)
    | NuUnitsSpiner (t : SpinerTables T) (u : Units4 T).
  Definition nu_held (v : NuAlt) : NuOpac T :=
    match v with
    | NuScaleFree kappa => NuGrayOpacity 3 PhysicalConstantsUnity kappa
    | NuBRT => BRTOpacity 3 PhysicalConstantsCGS
    | NuGray kappa => NuGrayOpacity 3 PhysicalConstantsCGS kappa
    | NuTophat C numin numax => TophatEmissivity 3 PhysicalConstantsCGS C numin numax
    | NuSpiner t => SpinerOpacity 3 PhysicalConstantsCGS t
    | NuUnitsBRT u => NuNonCGSUnits PhysicalConstantsCGS (BRTOpacity 3 PhysicalConstantsCGS) (units_of u)
    | NuUnitsGray kappa u => NuNonCGSUnits PhysicalConstantsCGS (NuGrayOpacity 3 PhysicalConstantsCGS kappa) (units_of u)
    | NuUnitsTophat C numin numax u =>
      NuNonCGSUnits PhysicalConstantsCGS (TophatEmissivity 3 PhysicalConstantsCGS C numin numax) (units_of u)
    | NuUnitsSpiner t u => NuNonCGSUnits PhysicalConstantsCGS (SpinerOpacity 3 PhysicalConstantsCGS t) (units_of u)
    end.
  Definition nu_visit {A : Type} (v : NuAlt) (f : NuOpac T -> A) : A := f (nu_held v).
  Definition nu_variant (v : NuAlt) : NuOpac T := {|
    (* 82-90 *) nu_Absorption := fun rho temp Ye type nu => nu_visit v (fun o => nu_Absorption o rho temp Ye type nu);
    (* 92-104 *) nu_Absorption_v := fun rho temp Ye type nu_bins coeffs nbins m =>
      nu_visit v (fun o => nu_Absorption_v o rho temp Ye type nu_bins coeffs nbins m);
    (* 109-118 *) nu_AngleAvgAbsorption := fun rho temp Ye type nu =>
      nu_visit v (fun o => nu_AngleAvgAbsorption o rho temp Ye type nu);
    (* 120-131 *) nu_AngleAvgAbsorption_v := fun rho temp Ye type nu_bins coeffs nbins m =>
      nu_visit v (fun o => nu_AngleAvgAbsorption_v o rho temp Ye type nu_bins coeffs nbins m);
    (* 135-143 *) nu_EmissivityPerNuOmega := fun rho temp Ye type nu =>
      nu_visit v (fun o => nu_EmissivityPerNuOmega o rho temp Ye type nu);
    (* 145-157 *) nu_EmissivityPerNuOmega_v := fun rho temp Ye type nu_bins coeffs nbins m =>
      nu_visit v (fun o => nu_EmissivityPerNuOmega_v o rho temp Ye type nu_bins coeffs nbins m);
    (* 160-170 *) nu_EmissivityPerNu := fun rho temp Ye type nu =>
      nu_visit v (fun o => nu_EmissivityPerNu o rho temp Ye type nu);
    (* 172-184 *) nu_EmissivityPerNu_v := fun rho temp Ye type nu_bins coeffs nbins m =>
      nu_visit v (fun o => nu_EmissivityPerNu_v o rho temp Ye type nu_bins coeffs nbins m);
    (* 187-196 *) nu_Emissivity := fun rho temp Ye type => nu_visit v (fun o => nu_Emissivity o rho temp Ye type);
    (* 199-208 *) nu_NumberEmissivity := fun rho temp Ye type => nu_visit v (fun o => nu_NumberEmissivity o rho temp Ye type);
    (* 211-219 *) nu_ThermalDistributionOfTNu := fun temp type nu =>
      nu_visit v (fun o => nu_ThermalDistributionOfTNu o temp type nu);
    (* 222-230 *) nu_DThermalDistributionOfTNuDT := fun temp type nu =>
      nu_visit v (fun o => nu_DThermalDistributionOfTNuDT o temp type nu);
    (* 233-240 *) nu_ThermalDistributionOfT := fun temp type => nu_visit v (fun o => nu_ThermalDistributionOfT o temp type);
    (* 243-250 *) nu_ThermalNumberDistributionOfT := fun temp type =>
      nu_visit v (fun o => nu_ThermalNumberDistributionOfT o temp type);
    (* 253-260 *) nu_EnergyDensityFromTemperature := fun temp type =>
      nu_visit v (fun o => nu_EnergyDensityFromTemperature o temp type);
    (* 263-270 *) nu_TemperatureFromEnergyDensity := fun er type =>
      nu_visit v (fun o => nu_TemperatureFromEnergyDensity o er type);
    (* 273-280 *) nu_NumberDensityFromTemperature := fun temp type =>
      nu_visit v (fun o => nu_NumberDensityFromTemperature o temp type);
    (* 73-77 *) nu_RuntimePC := nu_visit v nu_RuntimePC;
    (* 282-286 *) nu_nlambda := nu_visit v nu_nlambda |}.
  (** 67-71 *)
  Definition nu_GetOnDevice (v : NuAlt) : NuAlt :=
    match v with
    | NuSpiner t => NuSpiner (sp_GetOnDevice t)
    | NuUnitsBRT u => NuUnitsBRT (stored_units u)
    | NuUnitsGray kappa u => NuUnitsGray kappa (stored_units u)
    | NuUnitsTophat C numin numax u => NuUnitsTophat C numin numax (stored_units u)
    | NuUnitsSpiner t u => NuUnitsSpiner (sp_GetOnDevice t) (stored_units u)
    | _ => v
    end.

  Definition nu_index (v : NuAlt) : nat :=
    match v with
    | NuScaleFree _ => 0 | NuBRT => 1 | NuGray _ => 2 | NuTophat _ _ _ => 3 | NuSpiner _ => 4
    | NuUnitsBRT _ => 5 | NuUnitsGray _ _ => 6 | NuUnitsTophat _ _ _ _ => 7 | NuUnitsSpiner _ _ => 8
    end.
  (** IsType, 288-291; get, 58-65 *)
  Definition nu_IsType (k : nat) (v : NuAlt) : bool := Nat.eqb (nu_index v) k.
  Definition nu_get (k : nat) (v : NuAlt) : result (NuOpac T) :=
    if nu_IsType k v then Ok (nu_held v) else Error.

  (** ** neutrinos::SOpacity *)
  Inductive NuSAlt :=
    | NsScaleFree (sigma apm : T)
    | NsGray (sigma apm : T)
    | NsUnitsGray (sigma apm : T) (u : Units4 T).
  Definition ns_held (v : NuSAlt) : NuSOpac T :=
    match v with
    | NsScaleFree sigma apm => NuGraySOpacity sigma apm
    | NsGray sigma apm => NuGraySOpacity sigma apm
    | NsUnitsGray sigma apm u => NuNonCGSUnitsS (NuGraySOpacity sigma apm) (units_of u)
    end.
  Definition ns_visit {A : Type} (v : NuSAlt) (f : NuSOpac T -> A) : A := f (ns_held v).
  Definition ns_variant (v : NuSAlt) : NuSOpac T := {|
    (* 78-86 *) nus_TotalCrossSection := fun rho temp Ye type nu =>
      ns_visit v (fun o => nus_TotalCrossSection o rho temp Ye type nu);
    (* 91-100 *) nus_DifferentialCrossSection := fun rho temp Ye type nu mu =>
      ns_visit v (fun o => nus_DifferentialCrossSection o rho temp Ye type nu mu);
    (* 105-114 *) nus_TotalScatteringCoefficient := fun rho temp Ye type nu =>
      ns_visit v (fun o => nus_TotalScatteringCoefficient o rho temp Ye type nu);
    (* 116-120 *) nus_nlambda := ns_visit v nus_nlambda |}.
  (** 67-73 *)
  Definition ns_GetOnDevice (v : NuSAlt) : NuSAlt :=
    match v with NsUnitsGray sigma apm u => NsUnitsGray sigma apm (stored_units u) | _ => v end.
  Definition ns_index (v : NuSAlt) : nat :=
    match v with NsScaleFree _ _ => 0 | NsGray _ _ => 1 | NsUnitsGray _ _ _ => 2 end.
  (** IsType, 122-125; get, 58-65 *)
  Definition ns_IsType (k : nat) (v : NuSAlt) : bool := Nat.eqb (ns_index v) k.
  Definition ns_get (k : nat) (v : NuSAlt) : result (NuSOpac T) :=
    if ns_IsType k v then Ok (ns_held v) else Error.
End Variants.
Arguments PhotonAlt : clear implicits.
Arguments PhotonSAlt : clear implicits.
Arguments NuAlt : clear implicits.
Arguments NuSAlt : clear implicits.
