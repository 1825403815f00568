(** Model of photons/non_cgs_photons.hpp (NonCGSUnits<Opac>, 31-238). *)
From Coq Require Import ZArith.
From Verif Require Import Base.Outcome Base.Ops Model.Constants Model.PhotonApi.
Open Scope ops_scope.
Open Scope result_scope.

(** Data members 235-237. *)
Record Units (T : Type) := {
  un_time : T; un_mass : T; un_length : T; un_temp : T;
  un_rho : T; un_freq : T; un_inv_emiss : T; un_inv_num_emiss : T;
  un_inv_intensity : T; un_inv_energy_dens : T;
}.
Arguments un_time {T}. Arguments un_mass {T}. Arguments un_length {T}.
Arguments un_temp {T}. Arguments un_rho {T}. Arguments un_freq {T}.
Arguments un_inv_emiss {T}. Arguments un_inv_num_emiss {T}.
Arguments un_inv_intensity {T}. Arguments un_inv_energy_dens {T}.

Section NonCGS.
  Context {T : Type} {O : Ops T}.

  (** Constructor, 37-48 *)
  Definition mk_units (time mass length temp : T) : Units T := {|
    un_time := time; un_mass := mass; un_length := length; un_temp := temp;
    un_rho := mass / (length * length * length);
    un_freq := #1 / time;
    un_inv_emiss := length * time * time / mass;
    un_inv_num_emiss := length * length * length * time;
    un_inv_intensity := time * time / mass;
    un_inv_energy_dens := time * time * length / mass |}.

  (** Body of the array overloads, 76-84, 102-110, 126-134, 150-158: convert the
      caller's bins in place, call the wrapped overload, convert bins back and
      scale the outputs (one loop does both, bins first). *)
  Definition noncgs_array (u : Units T) (out_unit : T) (inner : array_call T)
    : array_call T :=
    fun nu_bins coeffs nbins m =>
      m1 <- scale_loop nu_bins (un_freq u) nbins m ;;
      m2 <- inner nu_bins coeffs nbins m1 ;;
      for_int nbins
        (fun i m => v <- load m (nu_bins + i) ;;
                    m' <- store m (nu_bins + i) (v * un_time u) ;;
                    w <- load m' (coeffs + i) ;;
                    store m' (coeffs + i) (w * out_unit)) m2.

  (** [pc] is the static type Opac::PC (34), used by
      GetRuntimePhysicalConstants (227-231). *)
  Definition NonCGSUnits (pc : PhysConst T) (o : PhotonOpac T) (u : Units T)
    : PhotonOpac T := {|
    (* 59-69: note rho_unit_ * rho and temp_unit_ * temp *)
    ph_Absorption := fun rho temp nu =>
      alpha <- ph_Absorption o (un_rho u * rho) (un_temp u * temp) (nu * un_freq u) ;;
      Ok (alpha * un_length u);
    (* 71-85 *)
    ph_Absorption_v := fun rho temp =>
      noncgs_array u (un_length u)
        (ph_Absorption_v o (rho * un_rho u) (temp * un_temp u));
    (* 87-94 *)
    ph_AngleAvgAbsorption := fun rho temp nu =>
      alpha <- ph_AngleAvgAbsorption o (rho * un_rho u) (temp * un_temp u)
                                     (nu * un_freq u) ;;
      Ok (alpha * un_length u);
    (* 98-111 *)
    ph_AngleAvgAbsorption_v := fun rho temp =>
      noncgs_array u (un_length u)
        (ph_AngleAvgAbsorption_v o (rho * un_rho u) (temp * un_temp u));
    (* 113-119 *)
    ph_EmissivityPerNuOmega := fun rho temp nu =>
      jnu <- ph_EmissivityPerNuOmega o (rho * un_rho u) (temp * un_temp u)
                                     (nu * un_freq u) ;;
      Ok (jnu * un_inv_emiss u);
    (* 121-135 *)
    ph_EmissivityPerNuOmega_v := fun rho temp =>
      noncgs_array u (un_inv_emiss u)
        (ph_EmissivityPerNuOmega_v o (rho * un_rho u) (temp * un_temp u));
    (* 137-143 *)
    ph_EmissivityPerNu := fun rho temp nu =>
      Jnu <- ph_EmissivityPerNu o (rho * un_rho u) (temp * un_temp u)
                                (nu * un_freq u) ;;
      Ok (Jnu * un_inv_emiss u);
    (* 145-159 *)
    ph_EmissivityPerNu_v := fun rho temp =>
      noncgs_array u (un_inv_emiss u)
        (ph_EmissivityPerNu_v o (rho * un_rho u) (temp * un_temp u));
    (* 161-167 *)
    ph_Emissivity := fun rho temp =>
      J <- ph_Emissivity o (rho * un_rho u) (temp * un_temp u) ;;
      Ok (J * un_inv_emiss u * un_time u);
    (* 169-175 *)
    ph_NumberEmissivity := fun rho temp =>
      JoH <- ph_NumberEmissivity o (rho * un_rho u) (temp * un_temp u) ;;
      Ok (JoH * un_inv_num_emiss u);
    (* 177-183 *)
    ph_ThermalDistributionOfTNu := fun temp nu =>
      BoH <- ph_ThermalDistributionOfTNu o (temp * un_temp u) (nu * un_freq u) ;;
      Ok (BoH * un_inv_intensity u);
    (* 185-190: temp and nu are passed on unconverted *)
    ph_DThermalDistributionOfTNuDT := fun temp nu =>
      dBdToH <- ph_DThermalDistributionOfTNuDT o temp nu ;;
      Ok (dBdToH * un_inv_intensity u * un_temp u);
    (* 192-196 *)
    ph_ThermalDistributionOfT := fun temp =>
      BoH <- ph_ThermalDistributionOfT o (temp * un_temp u) ;;
      Ok (BoH * un_inv_energy_dens u * un_time u / un_length u);
    (* 198-203 *)
    ph_ThermalNumberDistributionOfT := fun temp =>
      NoH <- ph_ThermalNumberDistributionOfT o (temp * un_temp u) ;;
      Ok (NoH * un_mass u / un_rho u * un_time u / un_length u);
    (* 205-210 *)
    ph_EnergyDensityFromTemperature := fun temp =>
      BoH <- ph_EnergyDensityFromTemperature o (temp * un_temp u) ;;
      Ok (BoH * un_inv_energy_dens u);
    (* 212-218 *)
    ph_TemperatureFromEnergyDensity := fun er =>
      BoH <- ph_TemperatureFromEnergyDensity o (er / un_inv_energy_dens u) ;;
      Ok (BoH / un_temp u);
    (* 220-225 *)
    ph_NumberDensityFromTemperature := fun temp =>
      NoH <- ph_NumberDensityFromTemperature o (temp * un_temp u) ;;
      Ok (NoH * un_mass u / un_rho u);
    (* 227-231 *)
    ph_RuntimePC := RuntimePC_units pc (un_time u) (un_mass u) (un_length u) (un_temp u);
    (* 56-57 *)
    ph_nlambda := ph_nlambda o |}.
End NonCGS.
