(** C48. Frequency resolution of the neutrino mean tables. *)
From Coq Require Import Reals ZArith List Lia Lra Bool.
From Verif Require Import Proofs.C48 Base.Outcome Base.Ops Inst.ER Inst.ERTac Model.Constants Model.Robust Model.RadTypes
  Model.ThermalNeutrinos Model.Spiner Model.MeanNeutrinos Spec.Physics Spec.Opacities Spec.Tables Spec.Means Inst.RConsts
  Proofs.InterpFacts Proofs.TableFacts Proofs.MeanExact Proofs.MeanTotal Proofs.MeanNodes.
Import ListNotations.
Open Scope R_scope.

(** MeanOpacity on an explicit range: at every node both means are those of exactly the
    caller's number N of samples, equally spaced in log frequency over the caller's range. *)
Theorem C48_absorption :
  forall (pc : PhysConst R) (coef : ER -> ER -> ER -> RadiationType -> ER -> result ER)
    (dist ddist : ER -> RadiationType -> ER -> result ER)
    (a : R -> R -> R -> RadiationType -> R -> R) (B dB : R -> RadiationType -> R -> R),
  positive_hkc pc -> nu_real_coefficient coef a -> real_spectrum dist ddist B dB ->
  forall (gR gT gY : rgrid) (r : R * R) (N : Z), rg_ok gR -> rg_ok gT -> rg_ok gY -> fst r < snd r -> (0 < N)%Z ->
  forall (dbg : bool) (opc : RuntimePC ER),
  (dbg = true -> RuntimePC_eqb (RuntimePC_of (finpc pc)) opc = true) ->
  exists m,
    NuMeanOpacity (finpc pc) coef dist ddist dbg opc (Fin (rg_lo gR)) (Fin (rg_hi gR)) (rg_n gR)
      (Fin (rg_lo gT)) (Fin (rg_hi gT)) (rg_n gT) (Fin (rg_lo gY)) (Fin (rg_hi gY)) (rg_n gY)
      (Some (Fin (fst r), Fin (snd r), N)) = Ok m /\
    nu_means_at_nodes a B dB r N gR gT gY m.
Proof. exact C48_absorption_proof. Qed.
Print Assumptions C48_absorption.

(** MeanSOpacity on an explicit range: the number N is not used, in any arithmetic: ... *)
Theorem C48_ignored :
  forall (T : Type) (O : Ops T) (pc : PhysConst T) (coef : T -> T -> T -> RadiationType -> T -> result T)
    (dist ddist : T -> RadiationType -> T -> result T)
    (lRhoMin lRhoMax : T) (NRho : Z) (lTMin lTMax : T) (NT : Z) (YeMin YeMax : T) (NYe : Z) (r : T * T) (N N' : Z),
  NuMeanSOpacity pc coef dist ddist lRhoMin lRhoMax NRho lTMin lTMax NT YeMin YeMax NYe (Some (r, N)) =
  NuMeanSOpacity pc coef dist ddist lRhoMin lRhoMax NRho lTMin lTMax NT YeMin YeMax NYe (Some (r, N')).
Proof. exact C48_ignored_proof. Qed.
Print Assumptions C48_ignored.

(** ... the means are those of 100 samples, even for N <= 0. *)
Theorem C48_scattering :
  forall (pc : PhysConst R) (coef : ER -> ER -> ER -> RadiationType -> ER -> result ER)
    (dist ddist : ER -> RadiationType -> ER -> result ER)
    (a : R -> R -> R -> RadiationType -> R -> R) (B dB : R -> RadiationType -> R -> R),
  positive_hkc pc -> nu_real_coefficient coef a -> real_spectrum dist ddist B dB ->
  forall (gR gT gY : rgrid) (r : R * R) (N : Z), rg_ok gR -> rg_ok gT -> rg_ok gY -> fst r < snd r ->
  exists m,
    NuMeanSOpacity (finpc pc) coef dist ddist (Fin (rg_lo gR)) (Fin (rg_hi gR)) (rg_n gR)
      (Fin (rg_lo gT)) (Fin (rg_hi gT)) (rg_n gT) (Fin (rg_lo gY)) (Fin (rg_hi gY)) (rg_n gY)
      (Some (Fin (fst r), Fin (snd r), N)) = Ok m /\
    nu_means_at_nodes a B dB r 100 gR gT gY m.
Proof. exact C48_scattering_proof. Qed.
Print Assumptions C48_scattering.

(** Refuted: a caller who asks for one sample of this coefficient asks for a Planck mean of 0;
    the table does not hold the one-sample means. Any range, grid and spectrum. *)
Theorem C48_refuted :
  forall (pc : PhysConst R) (dist ddist : ER -> RadiationType -> ER -> result ER) (B dB : R -> RadiationType -> R -> R),
  positive_hkc pc -> real_spectrum dist ddist B dB ->
  forall (gR gT gY : rgrid) (r : R * R), rg_ok gR -> rg_ok gT -> rg_ok gY -> fst r < snd r ->
  tiny < pow10 (rg_lo gR) -> tiny <= pow10 (rg_lo gT) ->
  exists (coef : ER -> ER -> ER -> RadiationType -> ER -> result ER) (m : NuMeanTable ER),
    nu_real_coefficient coef (half r) /\
    NuMeanSOpacity (finpc pc) coef dist ddist (Fin (rg_lo gR)) (Fin (rg_hi gR)) (rg_n gR)
      (Fin (rg_lo gT)) (Fin (rg_hi gT)) (rg_n gT) (Fin (rg_lo gY)) (Fin (rg_hi gY)) (rg_n gY)
      (Some (Fin (fst r), Fin (snd r), 1%Z)) = Ok m /\
    ~ nu_means_at_nodes (half r) B dB r 1 gR gT gY m.
Proof. exact C48_refuted_proof. Qed.
Print Assumptions C48_refuted.

(** Fermi-Dirac, three species, CGS: density 1 to 100, temperature 1 to 100, Ye 0 to 1, range
    10^12 to 10^20 Hz. *)
Example C48_refuted_example_holds :
  let g := {| rg_lo := 0; rg_hi := 2; rg_n := 3 |} in let gY := {| rg_lo := 0; rg_hi := 1; rg_n := 2 |} in
  positive_hkc cgsR /\
  real_spectrum (fun T type nu => Ok (fd_nu 3 (finpc cgsR) T type nu)) (fun T type nu => Ok (fd_dT 3 (finpc cgsR) T type nu))
    (FD_spectrum cgsR 3) (FD_slope cgsR 3) /\
  rg_ok g /\ rg_ok gY /\ fst (12, 20) < snd (12, 20) /\ tiny < pow10 (rg_lo g).
Proof. exact C48_refuted_example. Qed.
