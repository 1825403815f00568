(** "Never negative", for the photon, neutrino and scattering interfaces. *)
From Coq Require Import Reals ZArith.
From Flocq Require Import Core IEEE754.BinarySingleNaN.
From Verif Require Import Base.Outcome Base.Ops Inst.ER Inst.B64 Model.Constants Model.RadTypes
  Model.PhotonApi Model.NeutrinoApi Model.ScatteringPhotons Model.NonCGSNeutrinos.
Open Scope R_scope.

(** a positive, a nonnegative real number (not NaN, not infinite) *)
Definition pos_real (x : ER) : Prop := exists r, x = Fin r /\ 0 < r.
Definition nonneg_real (x : ER) : Prop := exists r, x = Fin r /\ 0 <= r.
Definition a_real (x : ER) : Prop := exists r, x = Fin r.
(** a double that is not negative: NaN, or with sign bit clear *)
Definition not_negative (x : b64) : Prop := is_nan x = true \/ Bsign x = false.

Section Spec.
  Context {T : Type} {O : Ops T} (PP NN : T -> Prop).

  Definition returns_in (P : T -> Prop) (r : result T) : Prop := exists v, r = Ok v /\ P v.
  (** nonnegative if it returns, which it need not (an error, never undefined behaviour) *)
  Definition error_or (P : T -> Prop) (r : result T) : Prop := r = Error \/ returns_in P r.

  (** every photon call, at densities in [D], positive temperature and frequency; a
      number emissivity may be infinite *)
  Definition photon_nonneg (D : T -> Prop) (o : PhotonOpac T) : Prop :=
    forall rho temp nu, D rho -> PP temp -> PP nu ->
    returns_in NN (ph_Absorption o rho temp nu) /\
    returns_in NN (ph_AngleAvgAbsorption o rho temp nu) /\
    returns_in NN (ph_EmissivityPerNuOmega o rho temp nu) /\
    returns_in NN (ph_EmissivityPerNu o rho temp nu) /\
    error_or NN (ph_Emissivity o rho temp) /\
    error_or (fun v => NN v \/ v = Oinf) (ph_NumberEmissivity o rho temp) /\
    returns_in PP (ph_ThermalDistributionOfTNu o temp nu) /\
    returns_in PP (ph_DThermalDistributionOfTNuDT o temp nu) /\
    returns_in PP (ph_ThermalDistributionOfT o temp) /\
    returns_in PP (ph_ThermalNumberDistributionOfT o temp) /\
    returns_in PP (ph_EnergyDensityFromTemperature o temp) /\
    returns_in PP (ph_NumberDensityFromTemperature o temp).

  Definition neutrino_nonneg (D : T -> Prop) (W : T -> RadiationType -> Prop) (o : NuOpac T) : Prop :=
    forall rho temp Ye type nu, D rho -> PP temp -> PP nu -> W Ye type ->
    returns_in NN (nu_Absorption o rho temp Ye type nu) /\
    returns_in NN (nu_AngleAvgAbsorption o rho temp Ye type nu) /\
    returns_in NN (nu_EmissivityPerNuOmega o rho temp Ye type nu) /\
    returns_in NN (nu_EmissivityPerNu o rho temp Ye type nu) /\
    returns_in NN (nu_Emissivity o rho temp Ye type) /\
    returns_in NN (nu_NumberEmissivity o rho temp Ye type) /\
    returns_in PP (nu_ThermalDistributionOfTNu o temp type nu) /\
    returns_in PP (nu_DThermalDistributionOfTNuDT o temp type nu) /\
    returns_in PP (nu_ThermalDistributionOfT o temp type) /\
    returns_in PP (nu_ThermalNumberDistributionOfT o temp type) /\
    returns_in PP (nu_EnergyDensityFromTemperature o temp type) /\
    returns_in PP (nu_NumberDensityFromTemperature o temp type).

  Definition scattering_nonneg (D : T -> Prop) (o : SOpac T) : Prop :=
    forall rho temp nu mu, D rho -> PP temp -> PP nu ->
    returns_in NN (s_TotalCrossSection o rho temp nu) /\
    returns_in NN (s_DifferentialCrossSection o rho temp nu mu) /\
    returns_in NN (s_TotalScatteringCoefficient o rho temp nu).

  (** every constant positive but the axial coupling *)
  Definition pos_consts (RR : T -> Prop) (pc : PhysConst T) : Prop :=
    PP (pc_h pc) /\ PP (pc_kb pc) /\ PP (pc_c pc) /\ PP (pc_alpha pc) /\ PP (pc_hbar pc) /\
    PP (pc_me pc) /\ PP (pc_mp pc) /\ PP (pc_qe pc) /\ PP (pc_nu_sigma0 pc) /\ RR (pc_gA pc).
End Spec.
