(** C32. Group means lie between the extremes of the sampled coefficient. *)
From Coq Require Import Reals ZArith List Lia Lra Bool.
From Verif Require Import Proofs.C32 Base.Outcome Base.Ops Inst.ER Inst.ERTac Model.Constants Model.Robust Model.RadTypes
  Model.PhotonApi Model.NeutrinoApi Model.GrayPhotons Model.OpacNeutrinos Model.ThermalNeutrinos Model.Spiner Model.MeanUtils
  Model.MeanPhotons Model.MeanNeutrinos Spec.Physics Spec.Opacities Spec.Tables Spec.Groups Spec.Means Inst.RConsts
  Proofs.InterpFacts Proofs.TableFacts Proofs.ModelFacts Proofs.PlanckFacts Proofs.MeanExact Proofs.MeanTotal Proofs.MeanNodes Proofs.C31.
Import ListNotations.
Open Scope R_scope.

(** Photons, absorption and scattering, every coefficient: at every node and for every group the
    Planck mean lies between the extremes of the sampled mass coefficients, up to the factor
    D/(D + tiny) of the guard. The Rosseland mean lies between the extremes lo, hi of the
    guarded mass coefficients if no sample is below the guard, up to D/(D + lo tiny), unless
    D or D/hi is below the guard. *)
Theorem C32_photon :
  forall (pc : PhysConst R) (coef : ER -> ER -> ER -> result ER) (a : R -> R -> R -> R),
  positive_hkc pc -> real_coefficient coef a ->
  forall (gR gT : rgrid) (gb : list ER) (ng N : Z), rg_ok gR -> rg_ok gT ->
  partition (edge (fun x => x) gb) (Z.to_nat ng) -> (ng < Z.of_nat (length gb))%Z -> (2 <= N)%Z ->
  forall (dbg : bool) (opc : RuntimePC ER),
  (dbg = true -> RuntimePC_eqb (RuntimePC_of (finpc pc)) opc = true) ->
  exists m,
    MeanImpl (finpc pc) dbg opc coef (Fin (rg_lo gR)) (Fin (rg_hi gR)) (rg_n gR)
      (Fin (rg_lo gT)) (Fin (rg_hi gT)) (rg_n gT) gb ng N = Ok m /\
    at_every_node gR gT ng (fun rho T g =>
      let l := group_logs pc gb T (Z.to_nat g) in
      let DP := planck_weight pc gb N T g in let DR := rosseland_weight pc gb N T g in
      exists P Q, answers m rho T g P Q /\
      (forall lo hi, 0 <= lo -> sampled l N (fun nu => a rho T nu / rho) lo hi ->
         lo * (DP / (DP + tiny)) <= P <= hi) /\
      (forall lo hi, 0 < lo -> sampled l N (fun nu => (a rho T nu + tiny) / rho) lo hi ->
         (forall i, (i < Z.to_nat N)%nat -> tiny < a rho T (frequency l N i)) ->
         Q <= hi /\ (tiny < DR -> tiny < DR / hi -> lo * (DR / (DR + lo * tiny)) <= Q))).
Proof. exact C32_photon_proof. Qed.
Print Assumptions C32_photon.

(** The Rosseland mean exceeds every sampled value if part of the group is transparent: the
    samples at or below the guard are left out of the numerator only. If the others all have
    the coefficient alpha, and carry less than half of the weight, the mean is at least twice
    the largest sampled mass coefficient, guard included. *)
Theorem C32_photon_refuted :
  forall (pc : PhysConst R) (coef : ER -> ER -> ER -> result ER) (a : R -> R -> R -> R),
  positive_hkc pc -> real_coefficient coef a ->
  forall (gR gT : rgrid) (gb : list ER) (ng N : Z), rg_ok gR -> rg_ok gT ->
  partition (edge (fun x => x) gb) (Z.to_nat ng) -> (ng < Z.of_nat (length gb))%Z -> (2 <= N)%Z ->
  forall (dbg : bool) (opc : RuntimePC ER),
  (dbg = true -> RuntimePC_eqb (RuntimePC_of (finpc pc)) opc = true) ->
  exists m,
    MeanImpl (finpc pc) dbg opc coef (Fin (rg_lo gR)) (Fin (rg_hi gR)) (rg_n gR)
      (Fin (rg_lo gT)) (Fin (rg_hi gT)) (rg_n gT) gb ng N = Ok m /\
    at_every_node gR gT ng (fun rho T g =>
      let l := group_logs pc gb T (Z.to_nat g) in let DR := rosseland_weight pc gb N T g in
      let opaque := average_sum (weight_dB (pc_h pc) (pc_kb pc) (pc_c pc) T) l N
                      (fun nu => if Rlt_dec tiny (a rho T nu) then 1 else 0) in
      forall alpha, 0 < alpha ->
      (forall i, (i < Z.to_nat N)%nat -> let x := a rho T (frequency l N i) in 0 <= x <= tiny \/ x = alpha) ->
      let k := (alpha + tiny) / rho in
      k * tiny < opaque -> 2 * (opaque + k * tiny) <= DR -> tiny < DR ->
      exists P Q, answers m rho T g P Q /\ sampled l N (fun nu => a rho T nu / rho) 0 k /\ 2 * k <= Q).
Proof. exact C32_photon_refuted_proof. Qed.
Print Assumptions C32_photon_refuted.

(** Unit constants, T = 100, the group [1, 10], two samples, transparent above frequency 3:
    more than five sixths of the weight is at the transparent frequency. *)
Example C32_photon_refuted_example_holds :
  let gb := [Fin 1; Fin 10] in let l := group_logs unityR gb 100 (Z.to_nat 0) in
  let a := fun rho T nu : R => if Rlt_dec nu 3 then rho else 0 in
  let opaque := average_sum (weight_dB (pc_h unityR) (pc_kb unityR) (pc_c unityR) 100) l 2
                  (fun nu => if Rlt_dec tiny (a 1 100 nu) then 1 else 0) in
  real_coefficient (fun rho _ nu => if Oltb nu (Fin 3) then Ok rho else Ok (Fin 0)) a /\
  partition (edge (fun x => x) gb) (Z.to_nat 1) /\
  (forall i, (i < Z.to_nat 2)%nat -> let x := a 1 100 (frequency l 2 i) in 0 <= x <= tiny \/ x = 1) /\
  (1 + tiny) / 1 * tiny < opaque /\
  2 * (opaque + (1 + tiny) / 1 * tiny) <= rosseland_weight unityR gb 2 100 0 /\
  tiny < rosseland_weight unityR gb 2 100 0.
Proof. exact C32_photon_refuted_example. Qed.

(** Neutrinos, absorption and scattering, every coefficient and positive spectrum: the Planck
    mean lies between the extremes of all sampled mass coefficients, the Rosseland mean
    between those of the samples above the guard (Dc is their weight), also when others are
    below it; up to the guard terms. *)
Theorem C32_neutrino :
  forall (absorption : bool) (pc : PhysConst R) (coef : ER -> ER -> ER -> RadiationType -> ER -> result ER)
    (dist ddist : ER -> RadiationType -> ER -> result ER)
    (a : R -> R -> R -> RadiationType -> R -> R) (B dB : R -> RadiationType -> R -> R),
  positive_hkc pc -> nu_real_coefficient coef a -> real_spectrum dist ddist B dB ->
  forall (gR gT gY : rgrid) (range : option (R * R * Z)), rg_ok gR -> rg_ok gT -> rg_ok gY ->
  (forall r N, range = Some (r, N) -> fst r < snd r /\ (0 < N)%Z) ->
  forall (dbg : bool) (opc : RuntimePC ER),
  (dbg = true -> RuntimePC_eqb (RuntimePC_of (finpc pc)) opc = true) ->
  let l := nu_range pc gT range in let N := nu_samples absorption range in
  exists m,
    nu_build absorption pc dbg opc coef dist ddist gR gT gY range = Ok m /\
    at_every_nu_node gR gT gY (fun rho T Ye type =>
      let x := a rho T Ye type in
      let DP := average_sum (B T type) l N (fun _ => 1) in
      let Dc := average_sum (dB T type) l N (fun nu => if Rlt_dec tiny (x nu) then 1 else 0) in
      exists P Q, nu_answers m rho T Ye type P Q /\
      (forall lo hi, 0 <= lo -> sampled l N (fun nu => x nu / rho) lo hi -> lo * (DP / (DP + tiny)) <= P <= hi) /\
      (forall lo hi, 0 < lo -> lo <= hi ->
         (forall i, (i < Z.to_nat N)%nat -> let nu := frequency l N i in
            0 <= x nu /\ (tiny < x nu -> lo <= (x nu + tiny) / rho <= hi)) ->
         Q <= hi /\ (tiny < P -> tiny < Dc / hi -> lo * (Dc / (Dc + lo * tiny)) <= Q))).
Proof. exact C32_neutrino_proof. Qed.
Print Assumptions C32_neutrino.

(** A coefficient with a transparent part, the Fermi-Dirac spectrum of three species. *)
Example C32_neutrino_example_holds :
  nu_real_coefficient (fun rho _ _ _ nu => if Oltb nu (Fin 3) then Ok rho else Ok (Fin 0))
    (fun rho _ _ _ nu => if Rlt_dec nu 3 then rho else 0) /\
  real_spectrum (fun T type nu => Ok (fd_nu 3 (finpc cgsR) T type nu)) (fun T type nu => Ok (fd_dT 3 (finpc cgsR) T type nu))
    (FD_spectrum cgsR 3) (FD_slope cgsR 3) /\
  (forall nu, let x := fun nu : R => if Rlt_dec nu 3 then 2 else 0 in
     0 <= x nu /\ (tiny < x nu -> 2 <= (x nu + tiny) / 1 <= 2 + tiny)).
Proof. exact C32_neutrino_example. Qed.

(** The gray table of C31: with kappa = 1 every sample is 1. *)
Example C32_photon_example_holds :
  real_coefficient (ph_Absorption (GrayOpacity (finpc cgsR) (Fin 1))) (fun rho _ _ => rho * 1) /\
  (forall l N rho, 0 < rho -> sampled l N (fun _ => rho * 1 / rho) 1 1) /\
  partition (edge (fun x => x) whole_spectrum) (Z.to_nat 1).
Proof. exact C32_photon_example. Qed.
