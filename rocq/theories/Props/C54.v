(** C54. Averaging respects sums, factors and order. *)
From Coq Require Import Reals ZArith List Lia Lra Bool.
From Verif Require Import Proofs.C54 Base.Outcome Base.Ops Inst.ER Inst.ERTac Model.Constants Model.Robust Model.RadTypes
  Model.PhotonApi Model.NeutrinoApi Model.GrayPhotons Model.OpacNeutrinos Model.Spiner Model.MeanUtils
  Model.MeanPhotons Model.MeanNeutrinos Spec.Physics Spec.Opacities Spec.Tables Spec.Groups Spec.Means Inst.RConsts
  Proofs.InterpFacts Proofs.TableFacts Proofs.ModelFacts Proofs.PlanckFacts Proofs.MeanExact Proofs.MeanTotal Proofs.MeanNodes Proofs.BoseIntegral Proofs.C31 Proofs.C32 Proofs.C35.
Import ListNotations.
Open Scope R_scope.

(** Photons, absorption and scattering: at every node and for every group the Planck mean of
    c1 a1 + c2 a2 is c1 times the Planck mean of a1 plus c2 times that of a2. *)
Theorem C54_photon_linear :
  forall (pc : PhysConst R) (coef1 coef2 coef3 : ER -> ER -> ER -> result ER) (a1 a2 : R -> R -> R -> R) (c1 c2 : R),
  positive_hkc pc -> 0 <= c1 -> 0 <= c2 ->
  real_coefficient coef1 a1 -> real_coefficient coef2 a2 ->
  real_coefficient coef3 (fun rho T nu => c1 * a1 rho T nu + c2 * a2 rho T nu) ->
  forall (gR gT : rgrid) (gb : list ER) (ng N : Z), rg_ok gR -> rg_ok gT ->
  partition (edge (fun x => x) gb) (Z.to_nat ng) -> (ng < Z.of_nat (length gb))%Z -> (2 <= N)%Z ->
  on_grid gR gT (fun rho T nu => 0 <= a1 rho T nu /\ 0 <= a2 rho T nu) ->
  forall (dbg : bool) (opc : RuntimePC ER), (dbg = true -> RuntimePC_eqb (RuntimePC_of (finpc pc)) opc = true) ->
  exists m1 m2 m3,
    photon_mean pc dbg opc coef1 gR gT gb ng N = Ok m1 /\ photon_mean pc dbg opc coef2 gR gT gb ng N = Ok m2 /\
    photon_mean pc dbg opc coef3 gR gT gb ng N = Ok m3 /\
    at_every_node gR gT ng (fun rho T g => exists P1 P2 Q1 Q2 Q3,
      answers m1 rho T g P1 Q1 /\ answers m2 rho T g P2 Q2 /\ answers m3 rho T g (c1 * P1 + c2 * P2) Q3).
Proof. exact C54_photon_linear_proof. Qed.
Print Assumptions C54_photon_linear.

(** Photons: at every state inside the grid and for every group, lookups of the tables of
    a1 <= a2 are in the same order. For the Rosseland mean the coefficients must exceed the
    guard, and a2 must not be cut off. *)
Theorem C54_photon_order :
  forall (pc : PhysConst R) (coef1 coef2 : ER -> ER -> ER -> result ER) (a1 a2 : R -> R -> R -> R),
  positive_hkc pc -> real_coefficient coef1 a1 -> real_coefficient coef2 a2 ->
  forall (gR gT : rgrid) (gb : list ER) (ng N : Z), rg_ok gR -> rg_ok gT ->
  partition (edge (fun x => x) gb) (Z.to_nat ng) -> (ng < Z.of_nat (length gb))%Z -> (2 <= N)%Z ->
  forall (dbg : bool) (opc : RuntimePC ER), (dbg = true -> RuntimePC_eqb (RuntimePC_of (finpc pc)) opc = true) ->
  exists m1 m2,
    photon_mean pc dbg opc coef1 gR gT gb ng N = Ok m1 /\ photon_mean pc dbg opc coef2 gR gT gb ng N = Ok m2 /\
    forall rho temp g, in_grid gR gT rho temp -> (0 <= g < ng)%Z ->
    let ordered gmode := exists A1 A2, mt_Coefficient m1 (Fin rho) (Fin temp) g gmode = Ok (Fin A1) /\
      mt_Coefficient m2 (Fin rho) (Fin temp) g gmode = Ok (Fin A2) /\ A1 <= A2 in
    (on_grid gR gT (fun r T nu => 0 <= a1 r T nu <= a2 r T nu) -> ordered 1%Z) /\
    (on_grid gR gT (fun r T nu => tiny < a1 r T nu <= a2 r T nu) -> not_cut_off pc gb N gR gT ng a2 -> ordered 0%Z).
Proof. exact C54_photon_order_proof. Qed.
Print Assumptions C54_photon_order.

(** Photons: multiplying the coefficient by c >= 1 multiplies every lookup inside the grid by a
    factor between 1 and c (the guard tiny is not multiplied). *)
Theorem C54_photon_factor :
  forall (pc : PhysConst R) (coef1 coef2 : ER -> ER -> ER -> result ER) (a : R -> R -> R -> R) (c : R),
  positive_hkc pc -> 1 <= c -> real_coefficient coef1 a -> real_coefficient coef2 (fun r T nu => c * a r T nu) ->
  forall (gR gT : rgrid) (gb : list ER) (ng N : Z), rg_ok gR -> rg_ok gT ->
  partition (edge (fun x => x) gb) (Z.to_nat ng) -> (ng < Z.of_nat (length gb))%Z -> (2 <= N)%Z ->
  forall (dbg : bool) (opc : RuntimePC ER), (dbg = true -> RuntimePC_eqb (RuntimePC_of (finpc pc)) opc = true) ->
  exists m1 m2,
    photon_mean pc dbg opc coef1 gR gT gb ng N = Ok m1 /\ photon_mean pc dbg opc coef2 gR gT gb ng N = Ok m2 /\
    forall rho temp g, in_grid gR gT rho temp -> (0 <= g < ng)%Z ->
    let scaled gmode := exists A1 A2, mt_Coefficient m1 (Fin rho) (Fin temp) g gmode = Ok (Fin A1) /\
      mt_Coefficient m2 (Fin rho) (Fin temp) g gmode = Ok (Fin A2) /\ A1 <= A2 <= c * A1 in
    (on_grid gR gT (fun r T nu => 0 <= a r T nu) -> scaled 1%Z) /\
    (on_grid gR gT (fun r T nu => tiny < a r T nu) -> not_cut_off pc gb N gR gT ng (fun r T nu => c * a r T nu) -> scaled 0%Z).
Proof. exact C54_photon_factor_proof. Qed.
Print Assumptions C54_photon_factor.

(** The Rosseland part needs its hypothesis: replacing a coefficient that is transparent at some
    frequencies by a larger, gray one lowers the Rosseland mean. *)
Theorem C54_photon_order_refuted :
  exists (coef1 coef2 : ER -> ER -> ER -> result ER) (a1 a2 : R -> R -> R -> R) (gR gT : rgrid) (gb : list ER) (N : Z)
    (m1 m2 : MeanTable ER) (rho temp A1 A2 : R),
  real_coefficient coef1 a1 /\ real_coefficient coef2 a2 /\ everywhere (fun r T nu => 0 <= a1 r T nu <= a2 r T nu) /\
  rg_ok gR /\ rg_ok gT /\ partition (edge (fun x => x) gb) (Z.to_nat 1) /\ (1 < Z.of_nat (length gb))%Z /\ (2 <= N)%Z /\
  photon_mean unityR false (RuntimePC_of (finpc unityR)) coef1 gR gT gb 1 N = Ok m1 /\
  photon_mean unityR false (RuntimePC_of (finpc unityR)) coef2 gR gT gb 1 N = Ok m2 /\
  in_grid gR gT rho temp /\
  mt_Coefficient m1 (Fin rho) (Fin temp) 0 0 = Ok (Fin A1) /\ mt_Coefficient m2 (Fin rho) (Fin temp) 0 0 = Ok (Fin A2) /\ A2 < A1.
Proof. exact C54_photon_order_refuted_proof. Qed.
Print Assumptions C54_photon_order_refuted.

(** Neutrinos, absorption and scattering, any positive spectrum: the Planck mean at a node is
    linear in the coefficient. *)
Theorem C54_neutrino_linear :
  forall (absorption : bool) (pc : PhysConst R) (coef1 coef2 coef3 : ER -> ER -> ER -> RadiationType -> ER -> result ER)
    (dist ddist : ER -> RadiationType -> ER -> result ER)
    (a1 a2 : R -> R -> R -> RadiationType -> R -> R) (B dB : R -> RadiationType -> R -> R) (c1 c2 : R),
  positive_hkc pc -> 0 <= c1 -> 0 <= c2 ->
  nu_real_coefficient coef1 a1 -> nu_real_coefficient coef2 a2 ->
  nu_real_coefficient coef3 (fun r T Ye t nu => c1 * a1 r T Ye t nu + c2 * a2 r T Ye t nu) -> real_spectrum dist ddist B dB ->
  forall (gR gT gY : rgrid) (range : option (R * R * Z)), rg_ok gR -> rg_ok gT -> rg_ok gY ->
  (forall r N, range = Some (r, N) -> fst r < snd r /\ (0 < N)%Z) ->
  nu_on_grid gR gT gY (fun r T Ye t nu => 0 <= a1 r T Ye t nu /\ 0 <= a2 r T Ye t nu) ->
  forall (dbg : bool) (opc : RuntimePC ER), (dbg = true -> RuntimePC_eqb (RuntimePC_of (finpc pc)) opc = true) ->
  exists m1 m2 m3,
    nu_build absorption pc dbg opc coef1 dist ddist gR gT gY range = Ok m1 /\
    nu_build absorption pc dbg opc coef2 dist ddist gR gT gY range = Ok m2 /\
    nu_build absorption pc dbg opc coef3 dist ddist gR gT gY range = Ok m3 /\
    at_every_nu_node gR gT gY (fun rho T Ye type => exists P1 P2 Q1 Q2 Q3,
      nu_answers m1 rho T Ye type P1 Q1 /\ nu_answers m2 rho T Ye type P2 Q2 /\
      nu_answers m3 rho T Ye type (c1 * P1 + c2 * P2) Q3).
Proof. exact C54_neutrino_linear_proof. Qed.
Print Assumptions C54_neutrino_linear.

(** Neutrinos: lookups inside the grid are in the order of the coefficients, for the Rosseland
    mean if these exceed the guard and the larger one is not cut off. *)
Theorem C54_neutrino_order :
  forall (absorption : bool) (pc : PhysConst R) (coef1 coef2 : ER -> ER -> ER -> RadiationType -> ER -> result ER)
    (dist ddist : ER -> RadiationType -> ER -> result ER)
    (a1 a2 : R -> R -> R -> RadiationType -> R -> R) (B dB : R -> RadiationType -> R -> R),
  positive_hkc pc -> nu_real_coefficient coef1 a1 -> nu_real_coefficient coef2 a2 -> real_spectrum dist ddist B dB ->
  forall (gR gT gY : rgrid) (range : option (R * R * Z)), rg_ok gR -> rg_ok gT -> rg_ok gY ->
  (forall r N, range = Some (r, N) -> fst r < snd r /\ (0 < N)%Z) ->
  forall (dbg : bool) (opc : RuntimePC ER), (dbg = true -> RuntimePC_eqb (RuntimePC_of (finpc pc)) opc = true) ->
  let l := nu_range pc gT range in let N := nu_samples absorption range in
  exists m1 m2,
    nu_build absorption pc dbg opc coef1 dist ddist gR gT gY range = Ok m1 /\
    nu_build absorption pc dbg opc coef2 dist ddist gR gT gY range = Ok m2 /\
    forall rho temp Ye type, nu_in_grid gR gT gY rho temp Ye -> species type ->
    (nu_on_grid gR gT gY (fun r T Ye t nu => 0 <= a1 r T Ye t nu <= a2 r T Ye t nu) ->
     exists A1 A2, nm_Planck m1 (Fin rho) (Fin temp) (Fin Ye) type = Ok (Fin A1) /\
       nm_Planck m2 (Fin rho) (Fin temp) (Fin Ye) type = Ok (Fin A2) /\ A1 <= A2) /\
    (nu_on_grid gR gT gY (fun r T Ye t nu => tiny < a1 r T Ye t nu <= a2 r T Ye t nu) -> nu_not_cut_off dB l N gR gT gY a2 ->
     exists A1 A2, nm_Rosseland m1 (Fin rho) (Fin temp) (Fin Ye) type = Ok (Fin A1) /\
       nm_Rosseland m2 (Fin rho) (Fin temp) (Fin Ye) type = Ok (Fin A2) /\ A1 <= A2).
Proof. exact C54_neutrino_order_proof. Qed.
Print Assumptions C54_neutrino_order.

(** Neutrinos: a factor c >= 1 multiplies the lookups by between 1 and c. *)
Theorem C54_neutrino_factor :
  forall (absorption : bool) (pc : PhysConst R) (coef1 coef2 : ER -> ER -> ER -> RadiationType -> ER -> result ER)
    (dist ddist : ER -> RadiationType -> ER -> result ER)
    (a : R -> R -> R -> RadiationType -> R -> R) (B dB : R -> RadiationType -> R -> R) (c : R),
  positive_hkc pc -> 1 <= c -> nu_real_coefficient coef1 a ->
  nu_real_coefficient coef2 (fun r T Ye t nu => c * a r T Ye t nu) -> real_spectrum dist ddist B dB ->
  forall (gR gT gY : rgrid) (range : option (R * R * Z)), rg_ok gR -> rg_ok gT -> rg_ok gY ->
  (forall r N, range = Some (r, N) -> fst r < snd r /\ (0 < N)%Z) ->
  forall (dbg : bool) (opc : RuntimePC ER), (dbg = true -> RuntimePC_eqb (RuntimePC_of (finpc pc)) opc = true) ->
  let l := nu_range pc gT range in let N := nu_samples absorption range in
  exists m1 m2,
    nu_build absorption pc dbg opc coef1 dist ddist gR gT gY range = Ok m1 /\
    nu_build absorption pc dbg opc coef2 dist ddist gR gT gY range = Ok m2 /\
    forall rho temp Ye type, nu_in_grid gR gT gY rho temp Ye -> species type ->
    (nu_on_grid gR gT gY (fun r T Ye t nu => 0 <= a r T Ye t nu) ->
     exists A1 A2, nm_Planck m1 (Fin rho) (Fin temp) (Fin Ye) type = Ok (Fin A1) /\
       nm_Planck m2 (Fin rho) (Fin temp) (Fin Ye) type = Ok (Fin A2) /\ A1 <= A2 <= c * A1) /\
    (nu_on_grid gR gT gY (fun r T Ye t nu => tiny < a r T Ye t nu) -> nu_above_guard B l N gR gT gY a ->
     nu_not_cut_off dB l N gR gT gY (fun r T Ye t nu => c * a r T Ye t nu) ->
     exists A1 A2, nm_Rosseland m1 (Fin rho) (Fin temp) (Fin Ye) type = Ok (Fin A1) /\
       nm_Rosseland m2 (Fin rho) (Fin temp) (Fin Ye) type = Ok (Fin A2) /\ A1 <= A2 <= c * A1).
Proof. exact C54_neutrino_factor_proof. Qed.
Print Assumptions C54_neutrino_factor.

(** The flat spectrum over two decades with two samples, a coefficient that is transparent above
    frequency 10: raising it there to a hundredth of its value below 10 lowers the Rosseland
    mean. *)
Theorem C54_neutrino_order_refuted :
  exists (coef1 coef2 : ER -> ER -> ER -> RadiationType -> ER -> result ER) (a1 a2 : R -> R -> R -> RadiationType -> R -> R)
    (dist ddist : ER -> RadiationType -> ER -> result ER) (B dB : R -> RadiationType -> R -> R) (g : rgrid) (range : option (R * R * Z))
    (m1 m2 : NuMeanTable ER) (rho temp Ye A1 A2 : R),
  nu_real_coefficient coef1 a1 /\ nu_real_coefficient coef2 a2 /\ real_spectrum dist ddist B dB /\
  nu_everywhere (fun r T Ye t nu => 0 <= a1 r T Ye t nu <= a2 r T Ye t nu) /\ rg_ok g /\
  (forall r N, range = Some (r, N) -> fst r < snd r /\ (0 < N)%Z) /\
  nu_build true unityR false (RuntimePC_of (finpc unityR)) coef1 dist ddist g g g range = Ok m1 /\
  nu_build true unityR false (RuntimePC_of (finpc unityR)) coef2 dist ddist g g g range = Ok m2 /\
  nu_in_grid g g g rho temp Ye /\
  nm_Rosseland m1 (Fin rho) (Fin temp) (Fin Ye) NU_ELECTRON = Ok (Fin A1) /\
  nm_Rosseland m2 (Fin rho) (Fin temp) (Fin Ye) NU_ELECTRON = Ok (Fin A2) /\ A2 < A1.
Proof. exact C54_neutrino_order_refuted_proof. Qed.
Print Assumptions C54_neutrino_order_refuted.

(** Gray photon opacities with kappa = 1 and kappa = 2, unit constants, densities and
    temperatures from 1 to 10. *)
Example C54_photon_order_example_holds :
  let g := {| rg_lo := 0; rg_hi := 1; rg_n := 2 |} in let gb := [Fin 1; Fin 10] in
  real_coefficient (ph_Absorption (GrayOpacity (finpc unityR) (Fin 1))) (fun r _ _ => r * 1) /\
  real_coefficient (ph_Absorption (GrayOpacity (finpc unityR) (Fin 2))) (fun r _ _ => r * 2) /\
  rg_ok g /\ partition (edge (fun x => x) gb) (Z.to_nat 1) /\
  on_grid g g (fun r _ _ => 0 <= r * 1 <= r * 2) /\ on_grid g g (fun r _ _ => tiny < r * 1 <= r * 2) /\
  not_cut_off unityR gb 50 g g 1 (fun r _ _ => r * 2) /\ in_grid g g (9 / 2) (7 / 2).
Proof. exact C54_photon_order_example. Qed.

(** The sum of two gray opacities. *)
Example C54_photon_linear_example_holds :
  real_coefficient (ph_Absorption (GrayOpacity (finpc cgsR) (Fin 1))) (fun r _ _ => r * 1) /\
  real_coefficient (ph_Absorption (GrayOpacity (finpc cgsR) (Fin 2))) (fun r _ _ => r * 2) /\
  real_coefficient (fun r _ _ => Ok (Oadd (Omul (Fin 3) r) (Omul (Fin 4) r))) (fun r _ _ => 3 / 1 * (r * 1) + 2 * (r * 2)).
Proof. exact C54_photon_linear_example. Qed.

(** The flat spectrum over two decades, the gray coefficients rho and 2 rho. *)
Example C54_neutrino_factor_example_holds :
  let g := {| rg_lo := 0; rg_hi := 1; rg_n := 2 |} in let l := (0, 2) in
  let dist := fun (_ : ER) (_ : RadiationType) (_ : ER) => Ok (Fin 1) in let B := fun (_ : R) (_ : RadiationType) (_ : R) => 1 in
  real_spectrum dist dist B B /\ rg_ok g /\
  nu_real_coefficient (nu_Absorption (NuGrayOpacity 3 (finpc unityR) (Fin 1))) (fun r _ _ _ _ => r * 1) /\
  nu_real_coefficient (nu_Absorption (NuGrayOpacity 3 (finpc unityR) (Fin 2))) (fun r _ _ _ _ => 2 * (r * 1)) /\
  nu_on_grid g g g (fun r _ _ _ _ => tiny < r * 1) /\ nu_above_guard B l 2 g g g (fun r _ _ _ _ => r * 1) /\ nu_not_cut_off B l 2 g g g (fun r _ _ _ _ => 2 * (r * 1)) /\
  nu_in_grid g g g (9 / 2) (7 / 2) (/ 2).
Proof. exact C54_neutrino_factor_example. Qed.
