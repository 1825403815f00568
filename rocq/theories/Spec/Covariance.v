(** What "expressing an opacity in code units" means: give every argument in code
    units, read every result in code units, and get the CGS answer. *)
From Coq Require Import Reals ZArith.
From Verif Require Import Base.Outcome Inst.ER Model.RadTypes Model.PhotonApi Model.NeutrinoApi
  Model.ScatteringPhotons Model.NonCGSNeutrinos Model.MeanVariants Spec.Units.

Section Covariance.
  Variable s : unit_system.
  Notation rho_ := (in_cgs s d_mass_density).
  Notation T_ := (in_cgs s d_temperature).
  Notation nu_ := (in_cgs s d_frequency).

  (** every scalar method but the temperature derivative of the spectrum *)
  Definition photon_covariant (o w : PhotonOpac ER) : Prop :=
    (forall rho T nu, ph_Absorption w rho T nu =
       in_code s d_absorption (ph_Absorption o (rho_ rho) (T_ T) (nu_ nu))) /\
    (forall rho T nu, ph_AngleAvgAbsorption w rho T nu =
       in_code s d_absorption (ph_AngleAvgAbsorption o (rho_ rho) (T_ T) (nu_ nu))) /\
    (forall rho T nu, ph_EmissivityPerNuOmega w rho T nu =
       in_code s d_emissivity_nu (ph_EmissivityPerNuOmega o (rho_ rho) (T_ T) (nu_ nu))) /\
    (forall rho T nu, ph_EmissivityPerNu w rho T nu =
       in_code s d_emissivity_nu (ph_EmissivityPerNu o (rho_ rho) (T_ T) (nu_ nu))) /\
    (forall rho T, ph_Emissivity w rho T =
       in_code s d_emissivity (ph_Emissivity o (rho_ rho) (T_ T))) /\
    (forall rho T, ph_NumberEmissivity w rho T =
       in_code s d_number_emissivity (ph_NumberEmissivity o (rho_ rho) (T_ T))) /\
    (forall T nu, ph_ThermalDistributionOfTNu w T nu =
       in_code s d_intensity_nu (ph_ThermalDistributionOfTNu o (T_ T) (nu_ nu))) /\
    (forall T, ph_ThermalDistributionOfT w T =
       in_code s d_intensity (ph_ThermalDistributionOfT o (T_ T))) /\
    (forall T, ph_ThermalNumberDistributionOfT w T =
       in_code s d_number_intensity (ph_ThermalNumberDistributionOfT o (T_ T))) /\
    (forall T, ph_EnergyDensityFromTemperature w T =
       in_code s d_energy_density (ph_EnergyDensityFromTemperature o (T_ T))) /\
    (forall e, ph_TemperatureFromEnergyDensity w e =
       in_code s d_temperature (ph_TemperatureFromEnergyDensity o (in_cgs s d_energy_density e))) /\
    (forall T, ph_NumberDensityFromTemperature w T =
       in_code s d_number_density (ph_NumberDensityFromTemperature o (T_ T))).

  Definition photon_dT_covariant (o w : PhotonOpac ER) : Prop :=
    forall T nu, ph_DThermalDistributionOfTNuDT w T nu =
      in_code s d_intensity_nu_per_temp (ph_DThermalDistributionOfTNuDT o (T_ T) (nu_ nu)).

  Definition neutrino_covariant (o w : NuOpac ER) : Prop :=
    (forall rho T Ye t nu, nu_Absorption w rho T Ye t nu =
       in_code s d_absorption (nu_Absorption o (rho_ rho) (T_ T) Ye t (nu_ nu))) /\
    (forall rho T Ye t nu, nu_AngleAvgAbsorption w rho T Ye t nu =
       in_code s d_absorption (nu_AngleAvgAbsorption o (rho_ rho) (T_ T) Ye t (nu_ nu))) /\
    (forall rho T Ye t nu, nu_EmissivityPerNuOmega w rho T Ye t nu =
       in_code s d_emissivity_nu (nu_EmissivityPerNuOmega o (rho_ rho) (T_ T) Ye t (nu_ nu))) /\
    (forall rho T Ye t nu, nu_EmissivityPerNu w rho T Ye t nu =
       in_code s d_emissivity_nu (nu_EmissivityPerNu o (rho_ rho) (T_ T) Ye t (nu_ nu))) /\
    (forall rho T Ye t, nu_Emissivity w rho T Ye t =
       in_code s d_emissivity (nu_Emissivity o (rho_ rho) (T_ T) Ye t)) /\
    (forall rho T Ye t, nu_NumberEmissivity w rho T Ye t =
       in_code s d_number_emissivity (nu_NumberEmissivity o (rho_ rho) (T_ T) Ye t)) /\
    (forall T t nu, nu_ThermalDistributionOfTNu w T t nu =
       in_code s d_intensity_nu (nu_ThermalDistributionOfTNu o (T_ T) t (nu_ nu))) /\
    (forall T t, nu_ThermalDistributionOfT w T t =
       in_code s d_intensity (nu_ThermalDistributionOfT o (T_ T) t)) /\
    (forall T t, nu_ThermalNumberDistributionOfT w T t =
       in_code s d_number_intensity (nu_ThermalNumberDistributionOfT o (T_ T) t)) /\
    (forall T t, nu_EnergyDensityFromTemperature w T t =
       in_code s d_energy_density (nu_EnergyDensityFromTemperature o (T_ T) t)) /\
    (forall e t, nu_TemperatureFromEnergyDensity w e t =
       in_code s d_temperature (nu_TemperatureFromEnergyDensity o (in_cgs s d_energy_density e) t)) /\
    (forall T t, nu_NumberDensityFromTemperature w T t =
       in_code s d_number_density (nu_NumberDensityFromTemperature o (T_ T) t)).

  Definition neutrino_dT_covariant (o w : NuOpac ER) : Prop :=
    forall T t nu, nu_DThermalDistributionOfTNuDT w T t nu =
      in_code s d_intensity_nu_per_temp
        (nu_DThermalDistributionOfTNuDT o (T_ T) t (nu_ nu)).

  (** scattering; the cosine of the angle has no dimension *)
  Definition scattering_covariant (o w : SOpac ER) : Prop :=
    (forall rho T nu, s_TotalCrossSection w rho T nu =
       in_code s d_cross_section (s_TotalCrossSection o (rho_ rho) (T_ T) (nu_ nu))) /\
    (forall rho T nu mu, s_DifferentialCrossSection w rho T nu mu =
       in_code s d_cross_section (s_DifferentialCrossSection o (rho_ rho) (T_ T) (nu_ nu) mu)) /\
    (forall rho T nu, s_TotalScatteringCoefficient w rho T nu =
       in_code s d_absorption (s_TotalScatteringCoefficient o (rho_ rho) (T_ T) (nu_ nu))).

  Definition neutrino_scattering_covariant (o w : NuSOpac ER) : Prop :=
    (forall rho T Ye t nu, nus_TotalCrossSection w rho T Ye t nu =
       in_code s d_cross_section (nus_TotalCrossSection o (rho_ rho) (T_ T) Ye t (nu_ nu))) /\
    (forall rho T Ye t nu mu, nus_DifferentialCrossSection w rho T Ye t nu mu =
       in_code s d_cross_section
         (nus_DifferentialCrossSection o (rho_ rho) (T_ T) Ye t (nu_ nu) mu)) /\
    (forall rho T Ye t nu, nus_TotalScatteringCoefficient w rho T Ye t nu =
       in_code s d_absorption
         (nus_TotalScatteringCoefficient o (rho_ rho) (T_ T) Ye t (nu_ nu))).

  (** mean opacities: coefficients are per length; a group index has no dimension *)
  Definition mean_covariant (o w : MeanApi ER) : Prop :=
    (forall rho T g m, ma_Coefficient w rho T g m =
       in_code s d_absorption (ma_Coefficient o (rho_ rho) (T_ T) g m)) /\
    (forall nu, ma_GroupOfNu w nu = ma_GroupOfNu o (nu_ nu)) /\
    (forall rho T nu m, ma_FromNu w rho T nu m =
       in_code s d_absorption (ma_FromNu o (rho_ rho) (T_ T) (nu_ nu) m)) /\
    ma_ngroups w = ma_ngroups o /\ ma_HasGroupBounds w = ma_HasGroupBounds o.

  (** the same for the four calls that name the mean *)
  Definition mean_named_covariant (o w : MeanApi ER) : Prop :=
    (forall rho T g, ma_PlanckGroup w rho T g =
       in_code s d_absorption (ma_PlanckGroup o (rho_ rho) (T_ T) g)) /\
    (forall rho T g, ma_RosselandGroup w rho T g =
       in_code s d_absorption (ma_RosselandGroup o (rho_ rho) (T_ T) g)) /\
    (forall rho T nu, ma_PlanckFromNu w rho T nu =
       in_code s d_absorption (ma_PlanckFromNu o (rho_ rho) (T_ T) (nu_ nu))) /\
    (forall rho T nu, ma_RosselandFromNu w rho T nu =
       in_code s d_absorption (ma_RosselandFromNu o (rho_ rho) (T_ T) (nu_ nu))).

  Definition mean_s_covariant (o w : MeanSApi ER) : Prop :=
    (forall rho T, msa_Planck w rho T =
       in_code s d_absorption (msa_Planck o (rho_ rho) (T_ T))) /\
    (forall rho T, msa_Rosseland w rho T =
       in_code s d_absorption (msa_Rosseland o (rho_ rho) (T_ T))).

  Definition nu_mean_covariant (o w : NuMeanApi ER) : Prop :=
    (forall rho T Ye t, na_Planck w rho T Ye t =
       in_code s d_absorption (na_Planck o (rho_ rho) (T_ T) Ye t)) /\
    (forall rho T Ye t, na_Rosseland w rho T Ye t =
       in_code s d_absorption (na_Rosseland o (rho_ rho) (T_ T) Ye t)).
End Covariance.

(** Two opacities answer every scalar call alike. *)
Definition photon_same_scalars (o w : PhotonOpac ER) : Prop :=
  (forall rho T nu, ph_Absorption w rho T nu = ph_Absorption o rho T nu) /\
  (forall rho T nu, ph_AngleAvgAbsorption w rho T nu = ph_AngleAvgAbsorption o rho T nu) /\
  (forall rho T nu, ph_EmissivityPerNuOmega w rho T nu = ph_EmissivityPerNuOmega o rho T nu) /\
  (forall rho T nu, ph_EmissivityPerNu w rho T nu = ph_EmissivityPerNu o rho T nu) /\
  (forall rho T, ph_Emissivity w rho T = ph_Emissivity o rho T) /\
  (forall rho T, ph_NumberEmissivity w rho T = ph_NumberEmissivity o rho T) /\
  (forall T nu, ph_ThermalDistributionOfTNu w T nu = ph_ThermalDistributionOfTNu o T nu) /\
  (forall T nu, ph_DThermalDistributionOfTNuDT w T nu = ph_DThermalDistributionOfTNuDT o T nu) /\
  (forall T, ph_ThermalDistributionOfT w T = ph_ThermalDistributionOfT o T) /\
  (forall T, ph_ThermalNumberDistributionOfT w T = ph_ThermalNumberDistributionOfT o T) /\
  (forall T, ph_EnergyDensityFromTemperature w T = ph_EnergyDensityFromTemperature o T) /\
  (forall e, ph_TemperatureFromEnergyDensity w e = ph_TemperatureFromEnergyDensity o e) /\
  (forall T, ph_NumberDensityFromTemperature w T = ph_NumberDensityFromTemperature o T).

Definition neutrino_same_scalars (o w : NuOpac ER) : Prop :=
  (forall rho T Ye t nu, nu_Absorption w rho T Ye t nu = nu_Absorption o rho T Ye t nu) /\
  (forall rho T Ye t nu, nu_AngleAvgAbsorption w rho T Ye t nu = nu_AngleAvgAbsorption o rho T Ye t nu) /\
  (forall rho T Ye t nu, nu_EmissivityPerNuOmega w rho T Ye t nu = nu_EmissivityPerNuOmega o rho T Ye t nu) /\
  (forall rho T Ye t nu, nu_EmissivityPerNu w rho T Ye t nu = nu_EmissivityPerNu o rho T Ye t nu) /\
  (forall rho T Ye t, nu_Emissivity w rho T Ye t = nu_Emissivity o rho T Ye t) /\
  (forall rho T Ye t, nu_NumberEmissivity w rho T Ye t = nu_NumberEmissivity o rho T Ye t) /\
  (forall T t nu, nu_ThermalDistributionOfTNu w T t nu = nu_ThermalDistributionOfTNu o T t nu) /\
  (forall T t nu, nu_DThermalDistributionOfTNuDT w T t nu = nu_DThermalDistributionOfTNuDT o T t nu) /\
  (forall T t, nu_ThermalDistributionOfT w T t = nu_ThermalDistributionOfT o T t) /\
  (forall T t, nu_ThermalNumberDistributionOfT w T t = nu_ThermalNumberDistributionOfT o T t) /\
  (forall T t, nu_EnergyDensityFromTemperature w T t = nu_EnergyDensityFromTemperature o T t) /\
  (forall e t, nu_TemperatureFromEnergyDensity w e t = nu_TemperatureFromEnergyDensity o e t) /\
  (forall T t, nu_NumberDensityFromTemperature w T t = nu_NumberDensityFromTemperature o T t).

Definition scattering_same (o w : SOpac ER) : Prop :=
  (forall rho T nu, s_TotalCrossSection w rho T nu = s_TotalCrossSection o rho T nu) /\
  (forall rho T nu mu, s_DifferentialCrossSection w rho T nu mu = s_DifferentialCrossSection o rho T nu mu) /\
  (forall rho T nu, s_TotalScatteringCoefficient w rho T nu = s_TotalScatteringCoefficient o rho T nu).

(** the trivial unit system, and one unit system expressed in another *)
Definition unit_sys : unit_system := {| us_time := 1; us_mass := 1; us_length := 1; us_temp := 1 |}.
Definition prod_sys (s t : unit_system) : unit_system :=
  {| us_time := us_time s * us_time t; us_mass := us_mass s * us_mass t;
     us_length := us_length s * us_length t; us_temp := us_temp s * us_temp t |}%R.
