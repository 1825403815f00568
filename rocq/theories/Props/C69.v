(** C69: filling an indexer from an opacity and interpolating gives the opacity back. *)
From Coquelicot Require Import Coquelicot.
From Coq Require Import Reals ZArith List Lia Lra Arith Bool.
From Verif Require Import Proofs.C69 Base.Outcome Base.Ops Inst.ER Inst.ERTac Model.Spiner Model.Chebyshev Model.Indexers.
From Verif Require Import Model.Constants Model.RadTypes Model.PhotonApi Model.GrayPhotons Model.NeutrinoApi Model.SpinerNeutrinos.
From Verif Require Import Model.NonCGSPhotons Model.NonCGSNeutrinos Spec.Opacities Spec.Arrays Spec.Means Spec.Tables.
From Verif Require Import Spec.Chebyshev Proofs.ArrayFacts Proofs.MeanExact Proofs.InterpFacts Proofs.C17 Proofs.C18 Proofs.C50.
From Verif Require Import Inst.RConsts Spec.Physics Spec.Integral Proofs.C08.
Import ListNotations.
Open Scope R_scope.

(** Exact arithmetic: the photon opacities, the parameters and the state arbitrary. *)
Theorem C69_photons :
  forall (pc : PhysConst ER) (o : PhotonOpac ER), photon_opacity pc o -> forall rho T,
    fills (ph_Absorption o rho T) (ph_Absorption_v o rho T) /\
    fills (ph_AngleAvgAbsorption o rho T) (ph_AngleAvgAbsorption_v o rho T) /\
    fills (ph_EmissivityPerNuOmega o rho T) (ph_EmissivityPerNuOmega_v o rho T) /\
    fills (ph_EmissivityPerNu o rho T) (ph_EmissivityPerNu_v o rho T).
Proof. exact C69_photons_proof. Qed.
Print Assumptions C69_photons.

(** The same for the neutrino opacities. *)
Theorem C69_neutrinos :
  forall (ns : Z) (pc : PhysConst ER) (o : NuOpac ER), neutrino_opacity ns pc o -> forall rho T Ye type,
    fills (nu_Absorption o rho T Ye type) (nu_Absorption_v o rho T Ye type) /\
    fills (nu_AngleAvgAbsorption o rho T Ye type) (nu_AngleAvgAbsorption_v o rho T Ye type) /\
    fills (nu_EmissivityPerNuOmega o rho T Ye type) (nu_EmissivityPerNuOmega_v o rho T Ye type) /\
    fills (nu_EmissivityPerNu o rho T Ye type) (nu_EmissivityPerNu_v o rho T Ye type).
Proof. exact C69_neutrinos_proof. Qed.
Print Assumptions C69_neutrinos.

(** The same for the tabulated neutrino opacity, whatever the tables. *)
Theorem C69_tabulated :
  forall (ns : Z) (pc : PhysConst ER) (t : SpinerTables ER) rho T Ye type, let o := SpinerOpacity ns pc t in
    fills (nu_Absorption o rho T Ye type) (nu_Absorption_v o rho T Ye type) /\
    fills (nu_AngleAvgAbsorption o rho T Ye type) (nu_AngleAvgAbsorption_v o rho T Ye type) /\
    fills (nu_EmissivityPerNuOmega o rho T Ye type) (nu_EmissivityPerNuOmega_v o rho T Ye type) /\
    fills (nu_EmissivityPerNu o rho T Ye type) (nu_EmissivityPerNu_v o rho T Ye type).
Proof. exact C69_tabulated_proof. Qed.
Print Assumptions C69_tabulated.

(** The same in units of the caller's choice: bins, range and answers are all in those units. *)
Theorem C69_units :
  forall t mass len temp, t <> 0 ->
  (forall (pc : PhysConst ER) (o : PhotonOpac ER), photon_opacity pc o ->
    let w := NonCGSUnits pc o (mk_units (Fin t) mass len temp) in forall rho T,
    fills (ph_Absorption w rho T) (ph_Absorption_v w rho T) /\
    fills (ph_AngleAvgAbsorption w rho T) (ph_AngleAvgAbsorption_v w rho T) /\
    fills (ph_EmissivityPerNuOmega w rho T) (ph_EmissivityPerNuOmega_v w rho T) /\
    fills (ph_EmissivityPerNu w rho T) (ph_EmissivityPerNu_v w rho T)) /\
  (forall (ns : Z) (pc : PhysConst ER) (o : NuOpac ER), neutrino_opacity ns pc o ->
    let w := NuNonCGSUnits pc o (mk_units (Fin t) mass len temp) in forall rho T Ye type,
    fills (nu_Absorption w rho T Ye type) (nu_Absorption_v w rho T Ye type) /\
    fills (nu_AngleAvgAbsorption w rho T Ye type) (nu_AngleAvgAbsorption_v w rho T Ye type) /\
    fills (nu_EmissivityPerNuOmega w rho T Ye type) (nu_EmissivityPerNuOmega_v w rho T Ye type) /\
    fills (nu_EmissivityPerNu w rho T Ye type) (nu_EmissivityPerNu_v w rho T Ye type)).
Proof. exact C69_units_proof. Qed.
Print Assumptions C69_units.

(** bins at 1, 2 and 3 Hz in cells 0-2, their values in cells 3-5: a gray opacity with 5 cm^2/g at
    2 g/cm^3, interpolated at 5/2 Hz; the absorption coefficient does not depend on frequency *)
Example C69_photons_example_holds :
  forall pc : PhysConst ER, exists m' L,
    ph_Absorption_v (GrayOpacity pc (Fin 5)) (Fin 2) (Fin 300) 0%nat 3%nat 3%Z
      [Fin 1; Fin 2; Fin 3; NaN; NaN; NaN] = Ok m' /\
    Linear_ptr (skipn 3 m') (Fin 1) (Fin 3) 3 = Ok L /\ Linear_call L (Fin (5 / 2)) = Ok (Fin 10).
Proof. exact C69_photons_example. Qed.

(** Exact arithmetic: for the emissivity of a gray photon opacity, with Linear or LogLinear bins,
    the error over the whole range falls in proportion to the number of bins. *)
Theorem C69_refinement :
  forall (pc : PhysConst R) (kappa rho T a b : R), positive_hkc pc -> 0 < T -> 0 < a -> a < b ->
  let o := GrayOpacity (finpc pc) (Fin kappa) in
  let j nu := rho * kappa * Planck_B (pc_h pc) (pc_kb pc) (pc_c pc) T nu in
  exists K, 0 <= K /\ forall (n : nat) (m : mem ER) (p q : nat), (2 <= n)%nat -> (Z.of_nat n < 2 ^ 31)%Z ->
    (prepared_buffers m p q n (lin_bin a b n) ->
     exists m' L, ph_EmissivityPerNuOmega_v o (Fin rho) (Fin T) p q (Z.of_nat n) m = Ok m' /\
       Linear_ptr (skipn q m') (Fin a) (Fin b) (Z.of_nat n) = Ok L /\
       forall nu, a <= nu <= b -> exists v, Linear_call L (Fin nu) = Ok (Fin v) /\ Rabs (v - j nu) <= K / (INR n - 1)) /\
    (prepared_buffers m p q n (log_bin a b n) ->
     exists m' L, ph_EmissivityPerNuOmega_v o (Fin rho) (Fin T) p q (Z.of_nat n) m = Ok m' /\
       LogLinear_ptr (skipn q m') (Fin a) (Fin b) (Z.of_nat n) = Ok L /\
       forall nu, a <= nu <= b -> exists v, LogLinear_call L (Fin nu) = Ok (Fin v) /\ Rabs (v - j nu) <= K / (INR n - 1)).
Proof. exact C69_refinement_proof. Qed.
Print Assumptions C69_refinement.
