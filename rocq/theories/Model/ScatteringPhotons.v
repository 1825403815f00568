(** Models of photons/gray_s_opacity_photons.hpp, thomson_s_opacity_photons.hpp,
    powerlaw_s_opacity_photons.hpp and non_cgs_s_photons.hpp. *)
From Coq Require Import ZArith Bool.
From Verif Require Import Base.Outcome Base.Ops Model.Constants
  Model.NonCGSPhotons Model.PowerLawPhotons.
Open Scope ops_scope.
Open Scope result_scope.

(** The scattering interface (photons/photon_s_variant.hpp); [mu] is the cosine
    of the scattering angle. lambda dropped as in PhotonApi. *)
Record SOpac (T : Type) := {
  s_TotalCrossSection : T -> T -> T -> result T;               (* rho temp nu *)
  s_DifferentialCrossSection : T -> T -> T -> T -> result T;   (* rho temp nu mu *)
  s_TotalScatteringCoefficient : T -> T -> T -> result T;
  s_nlambda : Z;
}.
Arguments s_TotalCrossSection {T}. Arguments s_DifferentialCrossSection {T}.
Arguments s_TotalScatteringCoefficient {T}. Arguments s_nlambda {T}.

Section Scattering.
  Context {T : Type} {O : Ops T}.

  (** GraySOpacity, gray_s_opacity_photons.hpp 31-68: TotalCrossSection 47-51,
      DifferentialCrossSection 53-57, TotalScatteringCoefficient 59-63 *)
  Definition GraySOpacity (sigma apm : T) : SOpac T := {|
    s_TotalCrossSection := fun _ _ _ => Ok sigma;
    s_DifferentialCrossSection := fun _ _ _ _ => Ok (sigma / (#4 * Opi));
    s_TotalScatteringCoefficient := fun rho _ _ => Ok ((rho / apm) * sigma);
    s_nlambda := 0%Z |}.

  (** ThomsonSOpacity, thomson_s_opacity_photons.hpp: sigmaT_ 32-35 *)
  Definition thomson_sigmaT (pc : PhysConst T) : T :=
    #8 * Opi / #3 * Opow (pc_alpha pc * pc_hbar pc / (pc_me pc * pc_c pc)) #2.
  (** 46-63 *)
  Definition ThomsonSOpacity (pc : PhysConst T) (apm : T) : SOpac T := {|
    s_TotalCrossSection := fun _ _ _ => Ok (thomson_sigmaT pc);
    s_DifferentialCrossSection := fun _ _ _ _ => Ok (thomson_sigmaT pc / (#4 * Opi));
    s_TotalScatteringCoefficient := fun rho _ _ =>
      let ne := (rho / apm) / #2 in Ok (ne * thomson_sigmaT pc);
    s_nlambda := 0%Z |}.

  (** PowerLawSOpacity, powerlaw_s_opacity_photons.hpp; the data members 109-118
      are those of PowerLawOpacity without do_stim_emit, plus apm_. Constructor
      checks 42-59 (rho_ref is not checked; nu_ref is checked twice). *)
  Definition powerlaw_s_ctor (p : PowerLawParams T) (apm : T)
    : result (PowerLawParams T * T) :=
    if negb (Ogtb (pl_nu_ref p) #0) then Error else
    if negb (Ogtb (pl_temp_ref p) #0) then Error else
    if negb (Ogtb (pl_nu_ref p) #0) then Error else
    if pl_rho_off p <? #0 then Error else
    if pl_temp_off p <? #0 then Error else
    if pl_nu_off p <? #0 then Error else
    Ok (p, apm).

  (** OpacityScale_, 96-100 (OpacityPrefactor_ 102-107 has the same text as
      powerlaw_opacity_photons.hpp 241-246) *)
  Definition powerlaw_s_scale (p : PowerLawParams T) (rho temp nu : T) : T :=
    powerlaw_prefactor p rho temp *
    Opow ((nu + pl_nu_off p) / pl_nu_ref p) (pl_nu_exp p).

  (** 76-93 *)
  Definition PowerLawSOpacity (p : PowerLawParams T) (apm : T) : SOpac T := {|
    s_TotalCrossSection := fun rho temp nu => Ok (powerlaw_s_scale p rho temp nu);
    s_DifferentialCrossSection := fun rho temp nu _ =>
      Ok (powerlaw_s_scale p rho temp nu / (#4 * Opi));
    s_TotalScatteringCoefficient := fun rho temp nu =>
      Ok ((rho / apm) * powerlaw_s_scale p rho temp nu);
    s_nlambda := 0%Z |}.

  (** NonCGSUnitsS<SOpac>, non_cgs_s_photons.hpp 28-80; rho_unit_ and freq_unit_
      are computed as in NonCGSUnits (36-37), so [Units] is reused. *)
  Definition NonCGSUnitsS (o : SOpac T) (u : Units T) : SOpac T := {|
    s_TotalCrossSection := fun rho temp nu =>
      sigma <- s_TotalCrossSection o (un_rho u * rho) (un_temp u * temp)
                                   (nu * un_freq u) ;;
      Ok (sigma / (un_length u * un_length u));
    s_DifferentialCrossSection := fun rho temp nu mu =>
      dsigma <- s_DifferentialCrossSection o (un_rho u * rho) (un_temp u * temp)
                                           (nu * un_freq u) mu ;;
      Ok (dsigma / (un_length u * un_length u));
    s_TotalScatteringCoefficient := fun rho temp nu =>
      alpha <- s_TotalScatteringCoefficient o (un_rho u * rho) (un_temp u * temp)
                                            (nu * un_freq u) ;;
      Ok (alpha * un_length u);
    s_nlambda := s_nlambda o |}.
End Scattering.
