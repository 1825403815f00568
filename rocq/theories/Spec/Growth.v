(** "More matter, or hotter matter, never gives less", for the photon and neutrino
    interfaces. *)
From Coq Require Import Reals ZArith.
From Verif Require Import Base.Outcome Base.Ops Model.RadTypes Model.PhotonApi Model.NeutrinoApi
  Model.PowerLawPhotons.

Section Spec.
  Context {T : Type} {O : Ops T}.

  (** the comparison [b < a] is false: for numbers that is a <= b, and it is true of NaN *)
  Definition no_less (a b : T) : Prop := Oltb b a = false.

  (** two calls that stop alike, or return and the second returns no less *)
  Definition result_up (r r' : result T) : Prop :=
    match r, r' with
    | Ok a, Ok b => no_less a b
    | Error, Error => True
    | _, _ => False
    end.

  Context (PP : T -> Prop).

  (** [warm] relates the two temperatures; densities range over [D] *)
  Definition photon_up (D : T -> Prop) (warm : T -> T -> Prop) (o : PhotonOpac T) : Prop :=
    forall rho rho' temp temp' nu, D rho -> D rho' -> PP temp -> PP temp' -> PP nu ->
    no_less rho rho' -> warm temp temp' ->
    result_up (ph_Absorption o rho temp nu) (ph_Absorption o rho' temp' nu) /\
    result_up (ph_AngleAvgAbsorption o rho temp nu) (ph_AngleAvgAbsorption o rho' temp' nu) /\
    result_up (ph_EmissivityPerNuOmega o rho temp nu) (ph_EmissivityPerNuOmega o rho' temp' nu) /\
    result_up (ph_EmissivityPerNu o rho temp nu) (ph_EmissivityPerNu o rho' temp' nu) /\
    result_up (ph_Emissivity o rho temp) (ph_Emissivity o rho' temp') /\
    result_up (ph_NumberEmissivity o rho temp) (ph_NumberEmissivity o rho' temp').

  (** the thermal functions *)
  Definition photon_thermal_up (o : PhotonOpac T) : Prop :=
    (forall temp temp' nu, PP temp -> PP temp' -> PP nu -> no_less temp temp' ->
     result_up (ph_ThermalDistributionOfTNu o temp nu) (ph_ThermalDistributionOfTNu o temp' nu) /\
     result_up (ph_ThermalDistributionOfT o temp) (ph_ThermalDistributionOfT o temp') /\
     result_up (ph_ThermalNumberDistributionOfT o temp) (ph_ThermalNumberDistributionOfT o temp') /\
     result_up (ph_EnergyDensityFromTemperature o temp) (ph_EnergyDensityFromTemperature o temp') /\
     result_up (ph_NumberDensityFromTemperature o temp) (ph_NumberDensityFromTemperature o temp')) /\
    (forall er er', PP er -> PP er' -> no_less er er' ->
     exists t t', ph_TemperatureFromEnergyDensity o er = Ok t /\
       ph_TemperatureFromEnergyDensity o er' = Ok t' /\ PP t /\ PP t' /\ no_less t t').

  Definition neutrino_up (D : T -> Prop) (warm : T -> T -> Prop) (o : NuOpac T) : Prop :=
    forall rho rho' temp temp' Ye type nu, D rho -> D rho' -> PP temp -> PP temp' -> PP nu ->
    no_less rho rho' -> warm temp temp' ->
    result_up (nu_Absorption o rho temp Ye type nu) (nu_Absorption o rho' temp' Ye type nu) /\
    result_up (nu_AngleAvgAbsorption o rho temp Ye type nu) (nu_AngleAvgAbsorption o rho' temp' Ye type nu) /\
    result_up (nu_EmissivityPerNuOmega o rho temp Ye type nu) (nu_EmissivityPerNuOmega o rho' temp' Ye type nu) /\
    result_up (nu_EmissivityPerNu o rho temp Ye type nu) (nu_EmissivityPerNu o rho' temp' Ye type nu) /\
    result_up (nu_Emissivity o rho temp Ye type) (nu_Emissivity o rho' temp' Ye type) /\
    result_up (nu_NumberEmissivity o rho temp Ye type) (nu_NumberEmissivity o rho' temp' Ye type).

  Definition neutrino_thermal_up (o : NuOpac T) : Prop :=
    (forall temp temp' type nu, PP temp -> PP temp' -> PP nu -> no_less temp temp' ->
     result_up (nu_ThermalDistributionOfTNu o temp type nu) (nu_ThermalDistributionOfTNu o temp' type nu) /\
     result_up (nu_ThermalDistributionOfT o temp type) (nu_ThermalDistributionOfT o temp' type) /\
     result_up (nu_ThermalNumberDistributionOfT o temp type) (nu_ThermalNumberDistributionOfT o temp' type) /\
     result_up (nu_EnergyDensityFromTemperature o temp type) (nu_EnergyDensityFromTemperature o temp' type) /\
     result_up (nu_NumberDensityFromTemperature o temp type) (nu_NumberDensityFromTemperature o temp' type)) /\
    (forall er er' type, PP er -> PP er' -> no_less er er' ->
     exists t t', nu_TemperatureFromEnergyDensity o er type = Ok t /\
       nu_TemperatureFromEnergyDensity o er' type = Ok t' /\ PP t /\ PP t' /\ no_less t t').
End Spec.

(** the power law has growing exponents and no stimulated emission, whose factor
    1 - exp (- h nu / k T) falls as the temperature rises *)
Definition growing {T : Type} (NN : T -> Prop) (p : PowerLawParams T) : Prop :=
  NN (pl_rho_exp p) /\ NN (pl_temp_exp p) /\ pl_do_stim_emit p = false.
