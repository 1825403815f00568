(** C31. Means of a frequency-independent opacity. *)
From Coq Require Import Reals ZArith List Lia Lra Bool.
From Verif Require Import Proofs.C31 Base.Outcome Base.Ops Inst.ER Inst.ERTac Model.Constants Model.Robust Model.RadTypes
  Model.PhotonApi Model.NeutrinoApi Model.GrayPhotons Model.OpacNeutrinos Model.ThermalNeutrinos Model.Spiner Model.MeanUtils Model.MeanPhotons Model.MeanNeutrinos Spec.Physics Spec.Opacities Spec.Tables
  Spec.Groups Spec.Means Spec.RuntimeConstants Inst.RConsts Proofs.BoseIntegral Proofs.InterpFacts Proofs.TableFacts Proofs.ModelFacts Proofs.PlanckFacts
  Proofs.MeanExact Proofs.MeanTotal Proofs.MeanNodes Proofs.C26 Proofs.C34.
Import ListNotations.
Open Scope R_scope.

(** Photons, absorption and scattering: the constructor succeeds and at every node, for every
    group, the Planck mean is kappa D/(D + tiny), D > 0 being the sum of the Planck weights,
    and the Rosseland mean D/(D rho/(alpha + tiny) + tiny), D being the sum of its weights;
    the latter is 0 if the coefficient, D or D rho/(alpha + tiny) is not above the guard. *)
Theorem C31_photon :
  forall (pc : PhysConst R) (coef : ER -> ER -> ER -> result ER) (alpha : R -> R -> R),
  positive_hkc pc -> real_coefficient coef (fun rho T _ => alpha rho T) ->
  (forall rho T, 0 < rho -> 0 < T -> 0 <= alpha rho T) ->
  forall (gR gT : rgrid) (gb : list ER) (ng N : Z), rg_ok gR -> rg_ok gT ->
  partition (edge (fun x => x) gb) (Z.to_nat ng) -> (ng < Z.of_nat (length gb))%Z -> (2 <= N)%Z ->
  forall (dbg : bool) (opc : RuntimePC ER),
  (dbg = true -> RuntimePC_eqb (RuntimePC_of (finpc pc)) opc = true) ->
  exists m,
    MeanImpl (finpc pc) dbg opc coef (Fin (rg_lo gR)) (Fin (rg_hi gR)) (rg_n gR)
      (Fin (rg_lo gT)) (Fin (rg_hi gT)) (rg_n gT) gb ng N = Ok m /\
    at_every_node gR gT ng (fun rho T g =>
      0 < planck_weight pc gb N T g /\ 0 < rosseland_weight pc gb N T g /\
      answers m rho T g (guarded_planck (alpha rho T / rho) (planck_weight pc gb N T g))
                        (guarded_rosseland rho (alpha rho T) (rosseland_weight pc gb N T g))).
Proof. exact C31_photon_proof. Qed.
Print Assumptions C31_photon.

(** ... hence both means equal the mass coefficient to the relative accuracy eps wherever the
    weights exceed the guard by that factor. *)
Theorem C31_photon_close :
  forall (pc : PhysConst R) (coef : ER -> ER -> ER -> result ER) (alpha : R -> R -> R),
  positive_hkc pc -> real_coefficient coef (fun rho T _ => alpha rho T) ->
  (forall rho T, 0 < rho -> 0 < T -> 0 <= alpha rho T) ->
  forall (gR gT : rgrid) (gb : list ER) (ng N : Z), rg_ok gR -> rg_ok gT ->
  partition (edge (fun x => x) gb) (Z.to_nat ng) -> (ng < Z.of_nat (length gb))%Z -> (2 <= N)%Z ->
  forall (dbg : bool) (opc : RuntimePC ER),
  (dbg = true -> RuntimePC_eqb (RuntimePC_of (finpc pc)) opc = true) ->
  exists m,
    MeanImpl (finpc pc) dbg opc coef (Fin (rg_lo gR)) (Fin (rg_hi gR)) (rg_n gR)
      (Fin (rg_lo gT)) (Fin (rg_hi gT)) (rg_n gT) gb ng N = Ok m /\
    at_every_node gR gT ng (fun rho T g => exists P Q, answers m rho T g P Q /\
      (forall eps, tiny <= eps * planck_weight pc gb N T g ->
         (1 - eps) * (alpha rho T / rho) <= P <= alpha rho T / rho) /\
      (let k := (alpha rho T + tiny) / rho in
       forall eps, eps < 1 -> tiny < alpha rho T -> tiny < rosseland_weight pc gb N T g ->
         tiny * k <= eps * rosseland_weight pc gb N T g -> (1 - eps) * k <= Q <= k)).
Proof. exact C31_photon_close_proof. Qed.
Print Assumptions C31_photon_close.

(** Neutrinos, absorption and scattering, with the Fermi-Dirac spectrum of n species, with and
    without an explicit frequency range: the constructor succeeds and at every node, for every
    species, the means are those of the guarded formulas; both are within eps of the mass
    coefficient wherever the weights exceed the guard by that factor. *)
Theorem C31_neutrino :
  forall (absorption : bool) (pc : PhysConst R) (n : Z)
    (coef : ER -> ER -> ER -> RadiationType -> ER -> result ER) (alpha : R -> R -> R -> RadiationType -> R),
  positive_hkc pc -> (0 < n)%Z -> nu_real_coefficient coef (fun rho T Ye type _ => alpha rho T Ye type) ->
  (forall rho T Ye type, 0 < rho -> 0 < T -> 0 <= alpha rho T Ye type) ->
  forall (gR gT gY : rgrid) (range : option (R * R * Z)), rg_ok gR -> rg_ok gT -> rg_ok gY ->
  (forall r N, range = Some (r, N) -> fst r < snd r /\ (0 < N)%Z) ->
  forall (dbg : bool) (opc : RuntimePC ER),
  (dbg = true -> RuntimePC_eqb (RuntimePC_of (finpc pc)) opc = true) ->
  let l := nu_range pc gT range in let N := nu_samples absorption range in
  exists m,
    nu_build absorption pc dbg opc coef (fun T type nu => Ok (fd_nu n (finpc pc) T type nu))
      (fun T type nu => Ok (fd_dT n (finpc pc) T type nu)) gR gT gY range = Ok m /\
    at_every_nu_node gR gT gY (fun rho T Ye type =>
      let DP := nu_planck_weight pc n l N T type in let DR := nu_rosseland_weight pc n l N T type in
      let a := alpha rho T Ye type in let k := (a + tiny) / rho in
      let P := guarded_planck (a / rho) DP in let Q := nu_guarded_rosseland rho a DP DR in
      0 < DP /\ 0 < DR /\ nu_answers m rho T Ye type P Q /\
      (forall eps, tiny <= eps * DP -> (1 - eps) * (a / rho) <= P <= a / rho) /\
      (forall eps, eps < 1 -> tiny < a -> tiny < P -> tiny * k <= eps * DR -> (1 - eps) * k <= Q <= k)).
Proof. exact C31_neutrino_proof. Qed.
Print Assumptions C31_neutrino.

(** A group that lies between 900 kT/h and 1000 kT/h at the temperature of a node: the sums of
    the weights are below the guard, the Planck mean is less than a thousandth of the
    coefficient and the Rosseland mean is 0, whatever the coefficient. *)
Theorem C31_tail_refuted :
  forall (pc : PhysConst R) (coef : ER -> ER -> ER -> result ER) (alpha : R -> R -> R),
  positive_hkc pc -> real_coefficient coef (fun rho T _ => alpha rho T) ->
  (forall rho T, 0 < rho -> 0 < T -> 0 <= alpha rho T) ->
  forall (gR gT : rgrid) (gb : list ER) (ng N : Z), rg_ok gR -> rg_ok gT ->
  partition (edge (fun x => x) gb) (Z.to_nat ng) -> (ng < Z.of_nat (length gb))%Z -> (2 <= N)%Z ->
  forall (dbg : bool) (opc : RuntimePC ER),
  (dbg = true -> RuntimePC_eqb (RuntimePC_of (finpc pc)) opc = true) ->
  exists m,
    MeanImpl (finpc pc) dbg opc coef (Fin (rg_lo gR)) (Fin (rg_hi gR)) (rg_n gR)
      (Fin (rg_lo gT)) (Fin (rg_hi gT)) (rg_n gT) gb ng N = Ok m /\
    at_every_node gR gT ng (fun rho T g =>
      forall lo hi, edge (fun x => x) gb (Z.to_nat g) = Fin lo -> edge (fun x => x) gb (S (Z.to_nat g)) = Fin hi ->
      let u := pc_kb pc * T / pc_h pc in
      1 <= u -> 900 * u <= lo -> lo < hi -> hi <= 1000 * u ->
      let A := 2 * pc_h pc * (1001 * u) ^ 4 / pc_c pc ^ 2 in A <= 10 ^ 50 -> 1001 * A <= 10 ^ 50 * T ->
      exists P, answers m rho T g P 0 /\ P <= / 1000 * (alpha rho T / rho)).
Proof. exact C31_tail_refuted_proof. Qed.
Print Assumptions C31_tail_refuted.

(** The gray opacity of 1 cm^2/g in CGS, one group from 0 to infinity, 10^-6 to 10^3 g/cm^3,
    10^2 to 10^8 K, 100 samples. *)
Example C31_photon_example_holds :
  let gR := {| rg_lo := -6; rg_hi := 3; rg_n := 10 |} in let gT := {| rg_lo := 2; rg_hi := 8; rg_n := 7 |} in
  positive_hkc cgsR /\
  real_coefficient (ph_Absorption (GrayOpacity PhysicalConstantsCGS (Fin 1))) (fun rho _ _ => rho * 1) /\
  (forall rho T : R, 0 < rho -> 0 < T -> 0 <= rho * 1) /\
  rg_ok gR /\ rg_ok gT /\ partition (edge (fun x => x) whole_spectrum) (Z.to_nat 1) /\
  (1 < Z.of_nat (length whole_spectrum))%Z /\ (2 <= 100)%Z /\
  RuntimePC_eqb (RuntimePC_of (finpc cgsR)) (ph_RuntimePC (GrayOpacity PhysicalConstantsCGS (Fin 1))) = true.
Proof. exact C31_photon_example. Qed.

(** Unit constants, T = 1, the group [1, 10]: the guard is more than 10^290 times smaller than
    the weights. *)
Example C31_photon_close_example_holds :
  let gb := [Fin 1; Fin 10] in forall N, (2 <= N)%Z -> let eps := / 10 ^ 290 in
  positive_hkc unityR /\ partition (edge (fun x => x) gb) (Z.to_nat 1) /\
  tiny <= eps * planck_weight unityR gb N 1 0 /\
  (let alpha := 1 in let rho := 1 in eps < 1 /\ tiny < alpha /\ tiny < rosseland_weight unityR gb N 1 0 /\
   tiny * ((alpha + tiny) / rho) <= eps * rosseland_weight unityR gb N 1 0).
Proof. exact C31_photon_close_example. Qed.

(** One group [9 10^17, 10^18] at 48000 K, CGS. *)
Example C31_tail_refuted_example_holds :
  let T := 10 ^ 15 * pc_h cgsR / pc_kb cgsR in let u := pc_kb cgsR * T / pc_h cgsR in
  let A := 2 * pc_h cgsR * (1001 * u) ^ 4 / pc_c cgsR ^ 2 in
  let gb := [Fin (900 * 10 ^ 15); Fin (1000 * 10 ^ 15)] in
  let gT := {| rg_lo := log10 T; rg_hi := log10 T + 1; rg_n := 2 |} in
  rg_ok gT /\ pow10 (rg_node gT 0) = T /\ partition (edge (fun x => x) gb) (Z.to_nat 1) /\
  1 <= u /\ 900 * u <= 900 * 10 ^ 15 /\ 1000 * 10 ^ 15 <= 1000 * u /\ A <= 10 ^ 50 /\ 1001 * A <= 10 ^ 50 * T.
Proof. exact C31_tail_refuted_example. Qed.

(** The gray neutrino opacity, three species, automatic and explicit range. *)
Example C31_neutrino_example_holds :
  let g := {| rg_lo := 0; rg_hi := 2; rg_n := 3 |} in
  positive_hkc cgsR /\
  nu_real_coefficient (nu_Absorption (NuGrayOpacity 3 PhysicalConstantsCGS (Fin 1))) (fun rho _ _ _ _ => rho * 1) /\
  rg_ok g /\ species NU_ELECTRON /\ species NU_ELECTRON_ANTI /\ species NU_HEAVY /\
  (forall r N, Some ((12, 20), 50%Z) = Some (r, N) -> fst r < snd r /\ (0 < N)%Z).
Proof. exact C31_neutrino_example. Qed.
