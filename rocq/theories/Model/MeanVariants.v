(** Model of the unit wrappers and variants of the mean opacities:
    photons/non_cgs_photons.hpp (MeanNonCGSUnits, 240-331),
    photons/mean_photon_variant.hpp (MeanVariant) with the alternatives
    MeanOpacityBase, MeanNonCGSUnits<MeanOpacityBase> (mean_opacity_photons.hpp, end),
    neutrinos/non_cgs_neutrinos.hpp (MeanNonCGSUnits, 254-318),
    neutrinos/non_cgs_s_neutrinos.hpp (MeanNonCGSUnitsS, 86-137),
    neutrinos/mean_neutrino_variant.hpp and mean_neutrino_s_variant.hpp.
    Not modelled: members that do not compile for these alternatives (the photon variant's
    PlanckMean..., RosselandMean... and Emissivity, which MeanNonCGSUnits lacks; the photon
    MeanSVariant, which needs a PlanckMeanTotalScatteringCoefficient no photon class has);
    assignment and get. The photon MeanNonCGSUnitsS (photons/non_cgs_s_photons.hpp 82-131)
    wraps such a class; it is modelled around an arbitrary one. *)
From Coq Require Import ZArith List Bool.
From Verif Require Import Base.Outcome Base.Ops Model.Constants Model.RadTypes Model.Spiner
  Model.MeanUtils Model.MeanPhotons Model.MeanNeutrinos Model.NonCGSPhotons.
Open Scope ops_scope.

Section Photons.
  Context {T : Type} {O : Ops T}.

  (** the members both alternatives have *)
  Record MeanApi := {
    ma_Coefficient : T -> T -> Z -> Z -> result T;       (* rho temp group gmode *)
    ma_PlanckGroup : T -> T -> Z -> result T;
    ma_RosselandGroup : T -> T -> Z -> result T;
    ma_GroupOfNu : T -> result Z;
    ma_FromNu : T -> T -> T -> Z -> result T;            (* rho temp nu gmode *)
    ma_PlanckFromNu : T -> T -> T -> result T;
    ma_RosselandFromNu : T -> T -> T -> result T;
    ma_ngroups : Z;
    ma_HasGroupBounds : bool;
    ma_RPC : RuntimePC T;
    ma_Save : bool -> result (MeanFile T);
  }.

  (** MeanOpacity<pc>; HasGroupBounds 154 *)
  Definition mean_api (pc : PhysConst T) (m : MeanTable T) : MeanApi := {|
    ma_Coefficient := mt_Coefficient m;
    ma_PlanckGroup := mt_PlanckGroup m;
    ma_RosselandGroup := mt_RosselandGroup m;
    ma_GroupOfNu := mt_GroupOfNu m;
    ma_FromNu := mt_CoefficientFromNu m;
    ma_PlanckFromNu := mt_PlanckFromNu m;
    ma_RosselandFromNu := mt_RosselandFromNu m;
    ma_ngroups := mt_ngroups m;
    ma_HasGroupBounds := true;
    ma_RPC := mt_RPC pc;
    ma_Save := fun io => Save io m |}.

  (** MeanNonCGSUnits<MeanOpac>, photons/non_cgs_photons.hpp 240-331. The constructor,
      246-253, computes rho_unit and freq_unit as [mk_units] does. *)
  Definition MeanNonCGSUnits (o : MeanApi) (u : Units T) : MeanApi :=
    (* 292-298 *)
    let coef := fun rho temp group gmode =>
      alpha <- ma_Coefficient o (un_rho u * rho) (un_temp u * temp) group gmode ;;
      Ok (alpha * un_length u) in
    (* 318-325 *)
    let from_nu := fun rho temp nu gmode =>
      alpha <- ma_FromNu o (un_rho u * rho) (un_temp u * temp) (nu * un_freq u) gmode ;;
      Ok (alpha * un_length u) in
    {| ma_Coefficient := coef;
       (* 280-290 *)
       ma_PlanckGroup := fun rho temp group => coef rho temp group Planck;
       ma_RosselandGroup := fun rho temp group => coef rho temp group Rosseland;
       (* 300-303 *)
       ma_GroupOfNu := fun nu => ma_GroupOfNu o (nu * un_freq u);
       ma_FromNu := from_nu;
       (* 305-316 *)
       ma_PlanckFromNu := fun rho temp nu => from_nu rho temp nu Planck;
       ma_RosselandFromNu := fun rho temp nu => from_nu rho temp nu Rosseland;
       (* 261-267 *)
       ma_ngroups := ma_ngroups o;
       ma_HasGroupBounds := ma_HasGroupBounds o;
       (* 269-272: the constants of the wrapped object, not converted *)
       ma_RPC := ma_RPC o;
       (* 274-278 *)
       ma_Save := ma_Save o |}.

  (** what the photon MeanNonCGSUnitsS asks of the object it wraps, and the wrapper,
      photons/non_cgs_s_photons.hpp 82-131 *)
  Record MeanSApi := {
    msa_Planck : T -> T -> result T;
    msa_Rosseland : T -> T -> result T;
  }.
  Definition MeanNonCGSUnitsS (o : MeanSApi) (u : Units T) : MeanSApi := {|
    (* 103-113 *)
    msa_Planck := fun rho temp =>
      alpha <- msa_Planck o (un_rho u * rho) (un_temp u * temp) ;;
      Ok (alpha * un_length u);
    (* 115-125 *)
    msa_Rosseland := fun rho temp =>
      alpha <- msa_Rosseland o (un_rho u * rho) (un_temp u * temp) ;;
      Ok (alpha * un_length u) |}.

  (** photons::MeanOpacity: the alternative held *)
  Inductive MeanAlt :=
    | MeanBase (m : MeanTable T)
    | MeanUnits (m : MeanTable T) (u : Units T).

  Definition mean_visit (pc : PhysConst T) (v : MeanAlt) : MeanApi :=
    match v with
    | MeanBase m => mean_api pc m
    | MeanUnits m u => MeanNonCGSUnits (mean_api pc m) u
    end.

  (** GetOnDevice of the alternatives (non_cgs_photons.hpp 255-258 rebuilds the wrapper
      from its four units) and of the variant, mean_photon_variant.hpp 67-71 *)
  Definition mean_GetOnDevice (v : MeanAlt) : MeanAlt :=
    match v with
    | MeanBase m => MeanBase (mt_GetOnDevice m)
    | MeanUnits m u =>
      MeanUnits (mt_GetOnDevice m) (mk_units (un_time u) (un_mass u) (un_length u) (un_temp u))
    end.

  Section Variant.
    Context (pc : PhysConst T).
    (** MeanVariant members, mean_photon_variant.hpp *)
    (* 134-142, four arguments *)
    Definition mv_Coefficient (v : MeanAlt) (rho temp : T) (group gmode : Z) : result T :=
      ma_Coefficient (mean_visit pc v) rho temp group gmode.
    (* 96-100, three arguments: the third is gmode and the group is 0 *)
    Definition mv_Coefficient3 (v : MeanAlt) (rho temp : T) (gmode : Z) : result T :=
      mv_Coefficient v rho temp 0 gmode.
    (* 122-132 *)
    Definition mv_PlanckGroup (v : MeanAlt) (rho temp : T) (group : Z) : result T :=
      mv_Coefficient v rho temp group Planck.
    Definition mv_RosselandGroup (v : MeanAlt) (rho temp : T) (group : Z) : result T :=
      mv_Coefficient v rho temp group Rosseland.
    (* 144-148 *)
    Definition mv_GroupOfNu (v : MeanAlt) (nu : T) : result Z := ma_GroupOfNu (mean_visit pc v) nu.
    (* 163-172 *)
    Definition mv_FromNu (v : MeanAlt) (rho temp nu : T) (gmode : Z) : result T :=
      ma_FromNu (mean_visit pc v) rho temp nu gmode.
    (* 150-161 *)
    Definition mv_PlanckFromNu (v : MeanAlt) (rho temp nu : T) : result T :=
      mv_FromNu v rho temp nu Planck.
    Definition mv_RosselandFromNu (v : MeanAlt) (rho temp nu : T) : result T :=
      mv_FromNu v rho temp nu Rosseland.
    (* 110-120 *)
    Definition mv_ngroups (v : MeanAlt) : Z := ma_ngroups (mean_visit pc v).
    Definition mv_HasGroupBounds (v : MeanAlt) : bool := ma_HasGroupBounds (mean_visit pc v).
    (* 73-77 *)
    Definition mv_RPC (v : MeanAlt) : RuntimePC T := ma_RPC (mean_visit pc v).
    (* 180-183 *)
    Definition mv_Save (v : MeanAlt) (io : bool) : result (MeanFile T) := ma_Save (mean_visit pc v) io.
  End Variant.

  (** the three-argument call on the alternatives themselves, mean_opacity_photons.hpp
      204-210, non_cgs_photons.hpp 292-298: the third argument is the group, gmode
      defaults to Rosseland *)
  Definition ma_Coefficient3 (o : MeanApi) (rho temp : T) (group : Z) : result T :=
    ma_Coefficient o rho temp group Rosseland.
End Photons.

Section Neutrinos.
  Context {T : Type} {O : Ops T}.

  Record NuMeanApi := {
    na_Planck : T -> T -> T -> RadiationType -> result T;
    na_Rosseland : T -> T -> T -> RadiationType -> result T;
    na_RPC : RuntimePC T;                        (* absorption only *)
    na_Save : bool -> result (NuMeanFile T);     (* absorption only when wrapped *)
  }.

  Definition nu_mean_api (pc : PhysConst T) (m : NuMeanTable T) : NuMeanApi := {|
    na_Planck := nm_Planck m; na_Rosseland := nm_Rosseland m;
    na_RPC := nm_RPC pc; na_Save := fun io => NuSave io m |}.

  (** MeanNonCGSUnits, neutrinos/non_cgs_neutrinos.hpp 254-318; MeanNonCGSUnitsS,
      non_cgs_s_neutrinos.hpp 86-137, has the same two coefficients *)
  Definition NuMeanNonCGSUnits (o : NuMeanApi) (u : Units T) : NuMeanApi := {|
    (* 282-293 / 107-118 *)
    na_Planck := fun rho temp Ye type =>
      alpha <- na_Planck o (un_rho u * rho) (un_temp u * temp) Ye type ;;
      Ok (alpha * un_length u);
    (* 295-306 / 120-131 *)
    na_Rosseland := fun rho temp Ye type =>
      alpha <- na_Rosseland o (un_rho u * rho) (un_temp u * temp) Ye type ;;
      Ok (alpha * un_length u);
    (* 308-312: always the cgs constants *)
    na_RPC := RuntimePC_units PhysicalConstantsCGS (un_time u) (un_mass u) (un_length u) (un_temp u);
    (* 276-280 *)
    na_Save := na_Save o |}.

  Inductive NuMeanAlt :=
    | NuMeanBase (m : NuMeanTable T)
    | NuMeanUnits (m : NuMeanTable T) (u : Units T).
  Definition nu_mean_visit (pc : PhysConst T) (v : NuMeanAlt) : NuMeanApi :=
    match v with
    | NuMeanBase m => nu_mean_api pc m
    | NuMeanUnits m u => NuMeanNonCGSUnits (nu_mean_api pc m) u
    end.
  (** GetOnDevice: mean_neutrino_variant.hpp 65-69, non_cgs_neutrinos.hpp 267-270 *)
  Definition nu_mean_GetOnDevice (v : NuMeanAlt) : NuMeanAlt :=
    match v with
    | NuMeanBase m => NuMeanBase (nm_GetOnDevice m)
    | NuMeanUnits m u =>
      NuMeanUnits (nm_GetOnDevice m) (mk_units (un_time u) (un_mass u) (un_length u) (un_temp u))
    end.
  (** mean_neutrino_variant.hpp 71-75, 77-85, 86-94, 102-105 *)
  Definition nmv_RPC (pc : PhysConst T) (v : NuMeanAlt) := na_RPC (nu_mean_visit pc v).
  Definition nmv_Planck (pc : PhysConst T) (v : NuMeanAlt) := na_Planck (nu_mean_visit pc v).
  Definition nmv_Rosseland (pc : PhysConst T) (v : NuMeanAlt) := na_Rosseland (nu_mean_visit pc v).
  Definition nmv_Save (pc : PhysConst T) (v : NuMeanAlt) := na_Save (nu_mean_visit pc v).
End Neutrinos.

Arguments MeanApi : clear implicits.
Arguments MeanSApi : clear implicits.
Arguments MeanAlt : clear implicits.
Arguments NuMeanApi : clear implicits.
Arguments NuMeanAlt : clear implicits.
