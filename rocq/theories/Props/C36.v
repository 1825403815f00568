(** C36. Saving and reloading a mean-opacity table. *)
From Coq Require Import Reals ZArith List Lia Lra Bool.
From Verif Require Import Proofs.C36 Base.Outcome Base.Ops Inst.ER Inst.ERTac Model.Constants Model.Robust Model.RadTypes Model.Spiner
  Model.MeanUtils Model.MeanPhotons Model.MeanNeutrinos Model.MeanVariants Spec.Groups Spec.Tables Spec.TableShape Proofs.ArrayFacts
  Proofs.OrderLaws Proofs.GroupFacts Proofs.InterpFacts Proofs.TableFacts Proofs.LoadFacts Proofs.MeanFacts Proofs.C35 Proofs.C37.
Import ListNotations.
Open Scope R_scope.

(** One cycle, in exact arithmetic and in binary64 with any libm: it succeeds; groups,
    bounds, dimensions and grids are the same, and every stored logarithm x has become
    ToLog(FromLog(x)). *)
Theorem C36_photon_cycle :
  forall (T : Type) (O : Ops T) (val : T -> ER), values O val ->
  forall m : MeanTable T, in_order val m ->
  cycle m = Ok (remap (fun x => ToLog (FromLog x)) m) /\ in_order val (remap (fun x => ToLog (FromLog x)) m).
Proof. exact C36_photon_cycle_proof. Qed.
Print Assumptions C36_photon_cycle.

(** Whenever ToLog(FromLog(x)) = x for the stored numbers, the table comes back bit for bit. *)
Theorem C36_photon_identity :
  forall (T : Type) (O : Ops T) (val : T -> ER), values O val ->
  forall m : MeanTable T, in_order val m ->
  (forall x, In x (db_data (mt_lPlanck m)) \/ In x (db_data (mt_lRosseland m)) -> ToLog (FromLog x) = x) ->
  forall k, cycles k m = Ok m.
Proof. exact C36_photon_identity_proof. Qed.
Print Assumptions C36_photon_identity.

(** Tables loaded from well-formed boxes are in order, in both arithmetics. *)
Theorem C36_loaded_in_order :
  forall (T : Type) (O : Ops T) (val : T -> ER), values O val ->
  forall (p r : DataBox T) (gb : list T) (m : MeanTable T), well_formed p -> well_formed r ->
  LoadTables p r gb = Ok m -> in_order val m.
Proof. exact C36_loaded_in_order_proof. Qed.
Print Assumptions C36_loaded_in_order.

(** Tables built by averaging are in order (exact arithmetic, two or more nodes per axis). *)
Theorem C36_built_in_order :
  forall pc dbg opc coef (gR gT : rgrid) gb ng N (m : MeanTable ER), rg_ok gR -> rg_ok gT ->
  MeanImpl pc dbg opc coef (Fin (rg_lo gR)) (Fin (rg_hi gR)) (rg_n gR) (Fin (rg_lo gT)) (Fin (rg_hi gT)) (rg_n gT) gb ng N = Ok m ->
  in_order (fun x => x) m.
Proof. exact C36_built_in_order_proof. Qed.
Print Assumptions C36_built_in_order.

(** Any number of cycles in exact arithmetic: a table holding the logarithms f holds
    log10(10^f + k tiny) after k of them, with the same groups and bounds. *)
Theorem C36_photon_cycles :
  forall (k : nat) (m : MeanTable ER), in_order (fun x => x) m ->
  exists m', cycles k m = Ok m' /\ in_order (fun x => x) m' /\
    mt_ngroups m' = mt_ngroups m /\ mt_bounds m' = mt_bounds m /\
    forall gmode dims f, holds (selected m gmode) dims f ->
      holds (selected m' gmode) dims (fun is => log10 (pow10 (f is) + INR k * tiny)).
Proof. exact C36_photon_cycles_proof. Qed.
Print Assumptions C36_photon_cycles.

(** The coefficients at the nodes of the grid have then grown by k tiny times the density:
    by the guard of the logarithm per cycle. *)
Theorem C36_photon_node_drift :
  forall (k : nat) (m : MeanTable ER) (gmode : Z) (gR gT : rgrid) (n : Z) (f : list Z -> R),
  in_order (fun x => x) m -> rg_ok gR -> rg_ok gT -> holds (selected m gmode) [Axis gR; Axis gT; Index n] f ->
  exists m', cycles k m = Ok m' /\
  forall (i j g : Z) (rho temp : R),
  (0 <= i < rg_n gR)%Z -> (0 <= j < rg_n gT)%Z -> (0 <= g < n)%Z -> 0 <= rho -> 0 <= temp ->
  rho + tiny = pow10 (rg_node gR i) -> temp + tiny = pow10 (rg_node gT j) ->
  exists a, mt_Coefficient m (Fin rho) (Fin temp) g gmode = Ok (Fin a) /\
    mt_Coefficient m' (Fin rho) (Fin temp) g gmode = Ok (Fin (a + INR k * (rho * tiny))).
Proof. exact C36_photon_node_drift_proof. Qed.
Print Assumptions C36_photon_node_drift.

(** Everywhere within the grid the coefficient never shrinks, and grows at most by the factor
    1 + k tiny / kmin, where kmin is a lower bound of the neighbouring opacities. *)
Theorem C36_photon_inside_drift :
  forall (k : nat) (m : MeanTable ER) (gmode : Z) (gR gT : rgrid) (n : Z) (f : list Z -> R),
  in_order (fun x => x) m -> rg_ok gR -> rg_ok gT -> holds (selected m gmode) [Axis gR; Axis gT; Index n] f ->
  exists m', cycles k m = Ok m' /\
  forall (g : Z) (rho temp kmin : R), (0 <= g < n)%Z -> 0 <= rho -> 0 <= temp -> 0 < kmin ->
  let x := log10 (rho + tiny) in let y := log10 (temp + tiny) in
  rg_inside gR x -> rg_inside gT y ->
  (forall i j, (0 <= i < rg_n gR)%Z -> (0 <= j < rg_n gT)%Z ->
     Rabs (x - rg_node gR i) <= rg_dx gR -> Rabs (y - rg_node gT j) <= rg_dx gT -> kmin <= pow10 (f [i; j; g])) ->
  exists a b, mt_Coefficient m (Fin rho) (Fin temp) g gmode = Ok (Fin a) /\
    mt_Coefficient m' (Fin rho) (Fin temp) g gmode = Ok (Fin b) /\ a <= b <= a * (1 + INR k * tiny / kmin).
Proof. exact C36_photon_inside_drift_proof. Qed.
Print Assumptions C36_photon_inside_drift.

(** The full statement "the drift per cycle is at most the logarithm guard, at every state" is
    false between the nodes: next to a vanishing opacity one cycle moves the coefficient by
    more than 10^100 times the guard. *)
Theorem C36_photon_drift_refuted :
  exists (m m' : MeanTable ER) (rho temp a b : R), in_order (fun x => x) m /\ cycle m = Ok m' /\
  0 < rho /\ 0 < temp /\ rg_inside ex_grid (log10 (rho + tiny)) /\ rg_inside ex_grid (log10 (temp + tiny)) /\
  mt_Coefficient m (Fin rho) (Fin temp) 0 1 = Ok (Fin a) /\ mt_Coefficient m' (Fin rho) (Fin temp) 0 1 = Ok (Fin b) /\
  b - a > 10 ^ 100 * (rho * tiny).
Proof. exact C36_photon_drift_refuted_proof. Qed.
Print Assumptions C36_photon_drift_refuted.

(** Neutrino tables, absorption and scattering, in any arithmetic: saving and loading gives
    back the very same object, any number of times. *)
Theorem C36_neutrino :
  forall (T : Type) (m : NuMeanTable T),
  bind (NuSave true m) (fun f => NuLoadFile (Some f)) = Ok m.
Proof. exact C36_neutrino_proof. Qed.
Print Assumptions C36_neutrino.

(** A failed file operation is an error, never an object. *)
Theorem C36_io_error :
  forall (T : Type) (O : Ops T) (m : MeanTable T) (n : NuMeanTable T) (p : option (DataBox T)) (b : option (list T)),
  (forall f, Save false m <> Ok f) /\ NuSave false n = Error /\
  @LoadFile T O None = Error /\ @NuLoadFile T None = Error /\
  LoadFile (Some {| mf_planck := None; mf_rosseland := p; mf_bounds := b |}) = Error /\
  LoadFile (Some {| mf_planck := p; mf_rosseland := None; mf_bounds := b |}) = Error /\
  LoadFile (Some {| mf_planck := p; mf_rosseland := p; mf_bounds := None |}) = Error /\
  NuLoadFile (Some {| nf_planck := None; nf_rosseland := p |}) = Error /\
  NuLoadFile (Some {| nf_planck := p; nf_rosseland := None |}) = Error.
Proof. exact C36_io_error_proof. Qed.
Print Assumptions C36_io_error.

(** A loaded two-group table comes back from a cycle with its groups and bounds. *)
Example C36_photon_cycles_example_holds :
  exists m m' : MeanTable ER, in_order (fun x => x) m /\ cycles 3 m = Ok m' /\ mt_ngroups m' = 2%Z /\
  mt_Coefficient m (Fin (10 - tiny)) (Fin (1 - tiny)) 1 1 = Ok (Fin ((10 - tiny) * (6 + tiny))) /\
  mt_Coefficient m' (Fin (10 - tiny)) (Fin (1 - tiny)) 1 1 = Ok (Fin ((10 - tiny) * (6 + 4 * tiny))).
Proof. exact C36_photon_cycles_example. Qed.
