(** C59. Averages are made of opacities in the units of the table. *)
From Coq Require Import Reals ZArith List Lia Lra Bool.
From Flocq Require Import Core IEEE754.BinarySingleNaN.
From Verif Require Import Proofs.C59 Base.Outcome Base.Ops Inst.ER Inst.ERTac Inst.B64 Model.Constants Model.Robust Model.RadTypes
  Model.PhotonApi Model.NeutrinoApi Model.GrayPhotons Model.OpacNeutrinos Model.ThermalNeutrinos Model.NonCGSPhotons Model.NonCGSNeutrinos
  Model.Spiner Model.MeanUtils Model.MeanPhotons Model.MeanNeutrinos Spec.Physics Spec.Opacities Spec.Tables Spec.Groups Spec.Means
  Spec.RuntimeConstants Inst.RConsts Proofs.BoseIntegral Proofs.InterpFacts Proofs.TableFacts Proofs.ModelFacts Proofs.PlanckFacts
  Proofs.MeanExact Proofs.MeanTotal Proofs.MeanNodes Proofs.B64Facts Proofs.C26 Proofs.C31.
Import ListNotations.
Open Scope R_scope.

(** binary64, any mathematical library, a debug build, photon tables: an opacity with the constants of the table is
    averaged as in a release build, and one with any other constant is refused, whatever the grid, the groups and the
    opacity. (For the scattering averages [opc] is what a class with GetRuntimePhysicalConstants would report; the
    photon scattering classes have none.) *)
Theorem C59_debug_photon :
  forall (L : Libm) (pc : PhysConst b64) (opc : RuntimePC b64) (coef : b64 -> b64 -> b64 -> result b64)
    (a b : b64) (NR : Z) (c d : b64) (NT : Z) (gb : list b64) (ng N : Z),
  let O := B64_ops L in
  moderate (RuntimePC_of pc) -> moderate opc ->
  (same_constants (RuntimePC_of pc) opc ->
     MeanImpl pc true opc coef a b NR c d NT gb ng N = MeanImpl pc false opc coef a b NR c d NT gb ng N) /\
  (~ same_constants (RuntimePC_of pc) opc -> MeanImpl pc true opc coef a b NR c d NT gb ng N = Error).
Proof. exact C59_debug_photon_proof. Qed.
Print Assumptions C59_debug_photon.

(** The same of the neutrino absorption tables. *)
Theorem C59_debug_neutrino :
  forall (L : Libm) (pc : PhysConst b64) (opc : RuntimePC b64)
    (coef : b64 -> b64 -> b64 -> RadiationType -> b64 -> result b64) (dist ddist : b64 -> RadiationType -> b64 -> result b64)
    (a b : b64) (NR : Z) (c d : b64) (NT : Z) (e f : b64) (NY : Z) (range : option (b64 * b64 * Z)),
  let O := B64_ops L in
  moderate (RuntimePC_of pc) -> moderate opc ->
  (same_constants (RuntimePC_of pc) opc ->
     NuMeanOpacity pc coef dist ddist true opc a b NR c d NT e f NY range =
     NuMeanOpacity pc coef dist ddist false opc a b NR c d NT e f NY range) /\
  (~ same_constants (RuntimePC_of pc) opc -> NuMeanOpacity pc coef dist ddist true opc a b NR c d NT e f NY range = Error).
Proof. exact C59_debug_neutrino_proof. Qed.
Print Assumptions C59_debug_neutrino.

(** binary64, any mathematical library, a debug build: an opacity wrapped into units one of which is not 1 is refused,
    whatever the opacity, the constants and the table; NaN and infinite units included. *)
Theorem C59_wrapped :
  forall (L : Libm) (pc : PhysConst b64) (t m l k : b64), let O := B64_ops L in
  other_unit t \/ other_unit m \/ other_unit l \/ other_unit k ->
  (forall (o : PhotonOpac b64) (a b : b64) (NR : Z) (c d : b64) (NT : Z) (gb : list b64) (ng N : Z),
     let w := NonCGSUnits pc o (mk_units t m l k) in
     MeanImpl pc true (ph_RuntimePC w) (ph_Absorption w) a b NR c d NT gb ng N = Error) /\
  (forall (o : NuOpac b64) (a b : b64) (NR : Z) (c d : b64) (NT : Z) (e f : b64) (NY : Z) (range : option (b64 * b64 * Z)),
     let w := NuNonCGSUnits pc o (mk_units t m l k) in
     NuMeanOpacity pc (nu_Absorption w) (nu_ThermalDistributionOfTNu w) (nu_DThermalDistributionOfTNuDT w)
       true (nu_RuntimePC w) a b NR c d NT e f NY range = Error).
Proof. exact C59_wrapped_proof. Qed.
Print Assumptions C59_wrapped.

(** Exact arithmetic: wrapping into the units of the table is allowed, the reported constants are the same. *)
Theorem C59_unit_units :
  forall pc : PhysConst R,
  RuntimePC_units (finpc pc) (Fin 1) (Fin 1) (Fin 1) (Fin 1) = RuntimePC_of (finpc pc) /\
  RuntimePC_eqb (RuntimePC_of (finpc pc)) (RuntimePC_units (finpc pc) (Fin 1) (Fin 1) (Fin 1) (Fin 1)) = true.
Proof. exact C59_unit_units_proof. Qed.
Print Assumptions C59_unit_units.

(** Exact arithmetic, release builds: nothing is compared. A gray opacity in units of time t, mass m, length l and
    temperature k is averaged, and the Planck mean of the table is m/l^2 times that of the table of the opacity itself,
    at every node. *)
Theorem C59_release_refuted :
  forall (pc : PhysConst R) (kappa t m l k : R), positive_hkc pc -> 0 <= kappa -> 0 < t -> 0 < m -> 0 < l -> 0 < k ->
  forall (gR gT : rgrid) (gb : list ER) (ng N : Z), rg_ok gR -> rg_ok gT ->
  partition (edge (fun x => x) gb) (Z.to_nat ng) -> (ng < Z.of_nat (length gb))%Z -> (2 <= N)%Z ->
  let build dbg o := MeanImpl (finpc pc) dbg (ph_RuntimePC o) (ph_Absorption o) (Fin (rg_lo gR)) (Fin (rg_hi gR)) (rg_n gR)
    (Fin (rg_lo gT)) (Fin (rg_hi gT)) (rg_n gT) gb ng N in
  let o := GrayOpacity (finpc pc) (Fin kappa) in
  exists table wrong,
    build true o = Ok table /\
    build false (NonCGSUnits (finpc pc) o (mk_units (Fin t) (Fin m) (Fin l) (Fin k))) = Ok wrong /\
    at_every_node gR gT ng (fun rho T g => exists P Q Q',
      answers table rho T g P Q /\ answers wrong rho T g (m / l ^ 2 * P) Q' /\ (0 < kappa -> 0 < P)).
Proof. exact C59_release_refuted_proof. Qed.
Print Assumptions C59_release_refuted.

(** Exact arithmetic, any build: the neutrino scattering averages compare nothing. A gray scattering opacity in units
    of mass m and length l is averaged, and the Planck mean of the table is m/l^2 times that of the opacity itself. *)
Theorem C59_neutrino_scattering_refuted :
  forall (pc : PhysConst R) (n : Z) (sigma apm t m l k : R), positive_hkc pc -> (0 < n)%Z ->
  0 <= sigma -> 0 < apm -> 0 < t -> 0 < m -> 0 < l -> 0 < k ->
  forall (gR gT gY : rgrid) (range : option (R * R * Z)), rg_ok gR -> rg_ok gT -> rg_ok gY ->
  (forall r N, range = Some (r, N) -> fst r < snd r /\ (0 < N)%Z) ->
  let build o := NuMeanSOpacity (finpc pc) (nus_TotalScatteringCoefficient o)
    (fun T type nu => Ok (fd_nu n (finpc pc) T type nu)) (fun T type nu => Ok (fd_dT n (finpc pc) T type nu))
    (Fin (rg_lo gR)) (Fin (rg_hi gR)) (rg_n gR) (Fin (rg_lo gT)) (Fin (rg_hi gT)) (rg_n gT)
    (Fin (rg_lo gY)) (Fin (rg_hi gY)) (rg_n gY) (fin_range range) in
  let o := NuGraySOpacity (Fin sigma) (Fin apm) in
  exists table wrong,
    build o = Ok table /\
    build (NuNonCGSUnitsS o (mk_units (Fin t) (Fin m) (Fin l) (Fin k))) = Ok wrong /\
    at_every_nu_node gR gT gY (fun rho T Ye type => exists P Q Q',
      nu_answers table rho T Ye type P Q /\ nu_answers wrong rho T Ye type (m / l ^ 2 * P) Q' /\ (0 < sigma -> 0 < P)).
Proof. exact C59_neutrino_scattering_refuted_proof. Qed.
Print Assumptions C59_neutrino_scattering_refuted.

(** A kilometre, or any other integer length below 2^53 but 1, and a NaN. *)
Example C59_wrapped_example_holds :
  (forall z, (1 < z < 2 ^ 53)%Z -> other_unit (b64_ldexp z 0)) /\ other_unit B754_nan.
Proof. exact C59_wrapped_example. Qed.

(** The whole spectrum, units of one second, gram, kelvin and of two centimetres: the table is four times too small. *)
Example C59_release_refuted_example_holds :
  let gR := {| rg_lo := -6; rg_hi := 3; rg_n := 10 |} in let gT := {| rg_lo := 2; rg_hi := 8; rg_n := 7 |} in
  positive_hkc cgsR /\ rg_ok gR /\ rg_ok gT /\ partition (edge (fun x => x) whole_spectrum) (Z.to_nat 1) /\
  (1 < Z.of_nat (length whole_spectrum))%Z /\ 1 / 2 ^ 2 = / 4.
Proof. exact C59_release_refuted_example. Qed.

(** The constants of the library: the scale-free opacities, of constants 1, are not averaged into CGS tables. *)
Example C59_debug_photon_example_holds :
  forall L : Libm, let O := B64_ops L in
  moderate (RuntimePC_of PhysicalConstantsCGS) /\ moderate (RuntimePC_of PhysicalConstantsUnity) /\
  same_constants (RuntimePC_of PhysicalConstantsCGS) (RuntimePC_of PhysicalConstantsCGS) /\
  ~ same_constants (RuntimePC_of PhysicalConstantsCGS) (RuntimePC_of PhysicalConstantsUnity).
Proof. exact C59_debug_photon_example. Qed.
