(** C65: the absorption and the particle emission of the tophat in double precision. *)
From Coquelicot Require Import Coquelicot.
From Coq Require Import Reals ZArith Lra Lia Bool.
From Flocq Require Import Core IEEE754.BinarySingleNaN.
From Verif Require Import Proofs.C65 Base.Outcome Base.Ops Inst.B64 Model.Constants Model.RadTypes Model.NeutrinoApi Model.Robust
  Model.ThermalNeutrinos Model.OpacNeutrinos Spec.Physics Spec.Opacities Spec.Tables Spec.DoublePrecision Spec.DoubleFormulas Spec.DoubleTophat
  Proofs.B64Facts Proofs.Near Proofs.NearConsts Proofs.NearRules Proofs.NearPhotons Proofs.NearNeutrinos Proofs.NarrowGroup Proofs.DoubleTables Proofs.C56 Proofs.C63.
Open Scope R_scope.

(** Inside the band, for the species it emits, the particle emission to 16 roundings, and two
    more for each time the logarithm of the ratio of the ends of the band fits into 1. *)
Theorem C65_number : forall (L : Libm) (C numin numax rho temp Ye : b64) (type : RadiationType),
  let O := B64_ops L in
  let pc := @PhysicalConstantsCGS b64 O in
  let o := @TophatEmissivity b64 O 3 pc C numin numax in
  let w := Ye_weight type (B2R Ye) in
  let D := ln (B2R numax / B2R numin) in
  accurate_log L -> physical C -> physical numin -> physical numax -> physical rho -> physical Ye -> 0 < w -> / 2 ^ 30 <= D ->
  returns (nu_NumberEmissivity o rho temp Ye type) (16 + 2 / D) (4 * PI * (B2R C / h_cgs * D) * w).
Proof. exact C65_number_proof. Qed.
Print Assumptions C65_number.

(** Inside the band, for the species it emits, the absorption from Kirchhoff's law to
    26 + 7 h nu / (k T) roundings: C w / B if averaged over angles, and that over 4 pi (the
    finding of C10) if not. The spectrum B is at least 2^-900, so that neither the floor
    nor the guard against division by zero is noticed. *)
Theorem C65_absorption : forall (L : Libm) (C numin numax rho temp Ye nu : b64) (type : RadiationType),
  let O := B64_ops L in
  let pc := @PhysicalConstantsCGS b64 O in
  let o := @TophatEmissivity b64 O 3 pc C numin numax in
  let w := Ye_weight type (B2R Ye) in
  let x := h_cgs * B2R nu / (k_cgs * B2R temp) in
  let B := FermiDirac_B 3 h_cgs k_cgs c_cgs (B2R temp) (B2R nu) in
  accurate_libm L -> physical C -> physical numin -> physical numax -> physical temp -> physical nu -> physical Ye -> 0 < w ->
  B2R numin < B2R nu < B2R numax -> x <= 680 -> / 2 ^ 900 <= B -> B2R C * w / B <= 2 ^ 1000 ->
  returns (nu_Absorption o rho temp Ye type nu) (26 + 7 * x) (B2R C * w / B / (4 * PI)) /\
  returns (nu_AngleAvgAbsorption o rho temp Ye type nu) (26 + 7 * x) (B2R C * w / B).
Proof. exact C65_absorption_proof. Qed.
Print Assumptions C65_absorption.

(** Outside the band, and for heavy neutrinos everywhere, where nothing is emitted, the
    absorption is not zero but at most 2^-115: the floor under the emissivity over the spectrum. *)
Theorem C65_outside : forall (L : Libm) (C numin numax rho temp Ye nu : b64) (type : RadiationType),
  let O := B64_ops L in
  let pc := @PhysicalConstantsCGS b64 O in
  let o := @TophatEmissivity b64 O 3 pc C numin numax in
  let x := h_cgs * B2R nu / (k_cgs * B2R temp) in
  let B := FermiDirac_B 3 h_cgs k_cgs c_cgs (B2R temp) (B2R nu) in
  accurate_libm L -> physical C -> physical numin -> physical numax -> physical temp -> physical nu ->
  B2R nu <= B2R numin \/ B2R numax <= B2R nu \/ type = NU_HEAVY -> x <= 680 -> / 2 ^ 900 <= B ->
  nu_EmissivityPerNuOmega o rho temp Ye type nu = Ok (b64_of_Z 0) /\
  (exists a, nu_Absorption o rho temp Ye type nu = Ok a /\ is_finite a = true /\ 0 <= B2R a <= / 2 ^ 115) /\
  (exists a, nu_AngleAvgAbsorption o rho temp Ye type nu = Ok a /\ is_finite a = true /\ 0 <= B2R a <= / 2 ^ 115).
Proof. exact C65_outside_proof. Qed.
Print Assumptions C65_outside.

(** The particle emission of narrow bands is lost: with any accurate mathematical library there
    is a band, between two neighbouring doubles below 2, whose energy emission is right to 9
    roundings while the particle emission is at least 1.9 times what it should be. The ratio of
    the ends is rounded before its logarithm is taken. *)
Theorem C65_narrow_refuted : forall L : Libm, accurate_log L ->
  exists (C numin numax rho Ye : b64), forall temp : b64,
  let O := B64_ops L in
  let pc := @PhysicalConstantsCGS b64 O in
  let o := @TophatEmissivity b64 O 3 pc C numin numax in
  let w := Ye_weight NU_ELECTRON (B2R Ye) in
  physical C /\ physical numin /\ physical numax /\ physical rho /\ physical Ye /\ 0 < w /\ B2R numin < B2R numax /\
  returns (nu_Emissivity o rho temp Ye NU_ELECTRON) 9 (4 * PI * (B2R C * (B2R numax - B2R numin)) * w) /\
  exists N, nu_NumberEmissivity o rho temp Ye NU_ELECTRON = Ok N /\ is_finite N = true /\
    19 / 10 * (4 * PI * (B2R C / h_cgs * ln (B2R numax / B2R numin)) * w) <= B2R N.
Proof. exact C65_narrow_refuted_proof. Qed.
Print Assumptions C65_narrow_refuted.

(** A band from 1 to 10^18 Hz, for electron neutrinos at an electron fraction of 1/4: C65_number. *)
Example C65_number_example_holds :
  exists (L : Libm) (C numin numax rho Ye : b64),
  accurate_log L /\ physical C /\ physical numin /\ physical numax /\ physical rho /\ physical Ye /\
  0 < Ye_weight NU_ELECTRON (B2R Ye) /\ / 2 ^ 30 <= ln (B2R numax / B2R numin) /\ B2R numin = 1 /\ B2R numax = 10 ^ 18.
Proof. exact C65_number_example. Qed.

(** 10^18 Hz at 10^7 K, inside a band from 10^7 to 2^70 Hz: C65_absorption. *)
Example C65_absorption_example_holds :
  exists (L : Libm) (C numin numax temp Ye nu : b64),
  let w := Ye_weight NU_ELECTRON (B2R Ye) in
  let x := h_cgs * B2R nu / (k_cgs * B2R temp) in
  let B := FermiDirac_B 3 h_cgs k_cgs c_cgs (B2R temp) (B2R nu) in
  accurate_libm L /\ physical C /\ physical numin /\ physical numax /\ physical temp /\ physical nu /\ physical Ye /\ 0 < w /\
  B2R numin < B2R nu < B2R numax /\ x <= 680 /\ / 2 ^ 900 <= B /\ B2R C * w / B <= 2 ^ 1000 /\ B2R nu = 10 ^ 18 /\ B2R temp = 10 ^ 7.
Proof. exact C65_absorption_example. Qed.

(** 10^18 Hz at 10^7 K, above a band from 1 to 10^7 Hz: C65_outside. *)
Example C65_outside_example_holds :
  exists (L : Libm) (C numin numax temp nu : b64),
  accurate_libm L /\ physical C /\ physical numin /\ physical numax /\ physical temp /\ physical nu /\
  B2R numin < B2R numax /\ B2R numax <= B2R nu /\ h_cgs * B2R nu / (k_cgs * B2R temp) <= 680 /\
  / 2 ^ 900 <= FermiDirac_B 3 h_cgs k_cgs c_cgs (B2R temp) (B2R nu).
Proof. exact C65_outside_example. Qed.

(** A correctly rounding library is accurate: C65_narrow_refuted. *)
Example C65_narrow_example_holds : exists L : Libm, accurate_log L.
Proof. exact C65_narrow_example. Qed.
