(** C35. Table lookup: nodes, bracketing, power laws. *)
From Coq Require Import Reals ZArith List Lia Lra Bool.
From Flocq Require Import Core IEEE754.BinarySingleNaN.
From Verif Require Import Proofs.C35 Base.Outcome Base.Ops Inst.ER Inst.ERTac Inst.B64 Model.Constants Model.Robust Model.RadTypes
  Model.Spiner Model.MeanUtils Model.MeanPhotons Model.MeanNeutrinos Spec.Tables Proofs.ArrayFacts Proofs.GroupFacts
  Proofs.InterpFacts Proofs.TableFacts Proofs.B64Facts.
Import ListNotations.
Open Scope R_scope.

(** Photon tables (absorption and scattering): at a node of the grid, i.e. where the
    guarded logarithms of density and temperature are node coordinates, the lookup returns
    the stored value of that node and group, times the density. *)
Theorem C35_node :
  forall (m : MeanTable ER) (gmode : Z) (gR gT : rgrid) (n : Z) (f : list Z -> R),
  rg_ok gR -> rg_ok gT -> holds (selected m gmode) [Axis gR; Axis gT; Index n] f ->
  forall (i j g : Z) (rho temp : R),
  (0 <= i < rg_n gR)%Z -> (0 <= j < rg_n gT)%Z -> (0 <= g < n)%Z -> 0 <= rho -> 0 <= temp ->
  rho + tiny = pow10 (rg_node gR i) -> temp + tiny = pow10 (rg_node gT j) ->
  mt_Coefficient m (Fin rho) (Fin temp) g gmode = Ok (Fin (rho * pow10 (f [i; j; g]))).
Proof. exact C35_node_proof. Qed.
Print Assumptions C35_node.

(** Photon tables: inside the grid the lookup lies between the smallest and the largest
    stored value of the neighbouring nodes of the same group. *)
Theorem C35_between :
  forall (m : MeanTable ER) (gmode : Z) (gR gT : rgrid) (n : Z) (f : list Z -> R),
  rg_ok gR -> rg_ok gT -> holds (selected m gmode) [Axis gR; Axis gT; Index n] f ->
  forall (g : Z) (rho temp lo hi : R), (0 <= g < n)%Z -> 0 <= rho -> 0 <= temp ->
  let x := log10 (rho + tiny) in let y := log10 (temp + tiny) in
  rg_inside gR x -> rg_inside gT y ->
  (forall i j, (0 <= i < rg_n gR)%Z -> (0 <= j < rg_n gT)%Z ->
     Rabs (x - rg_node gR i) <= rg_dx gR -> Rabs (y - rg_node gT j) <= rg_dx gT ->
     lo <= f [i; j; g] <= hi) ->
  exists v, mt_Coefficient m (Fin rho) (Fin temp) g gmode = Ok (Fin (rho * pow10 v)) /\ lo <= v <= hi.
Proof. exact C35_between_proof. Qed.
Print Assumptions C35_between.

(** Photon tables: if the stored logarithms are those of the power law
    10^(c g) (rho + tiny)^a (T + tiny)^b, so is the lookup, at every state (inside the grid
    or not) whose distance from the grid is a number of cells an int can hold. *)
Theorem C35_power_law :
  forall (m : MeanTable ER) (gmode : Z) (gR gT : rgrid) (n : Z) (a b : R) (c : Z -> R),
  rg_ok gR -> rg_ok gT ->
  holds (selected m gmode) [Axis gR; Axis gT; Index n]
    (fun is => a * rg_node gR (nth 0 is 0%Z) + b * rg_node gT (nth 1 is 0%Z) + c (nth 2 is 0%Z)) ->
  forall (g : Z) (rho temp : R), (0 <= g < n)%Z -> 0 <= rho -> 0 <= temp ->
  rg_fits gR (log10 (rho + tiny)) -> rg_fits gT (log10 (temp + tiny)) ->
  mt_Coefficient m (Fin rho) (Fin temp) g gmode =
  Ok (Fin (rho * (pow10 (c g) * Rpower (rho + tiny) a * Rpower (temp + tiny) b))).
Proof. exact C35_power_law_proof. Qed.
Print Assumptions C35_power_law.

(** Neutrino tables (absorption and scattering, Planck and Rosseland): at a node. *)
Theorem C35_neutrino_node :
  forall (m : NuMeanTable ER) (rosseland : bool) (gR gT gY : rgrid) (f : list Z -> R),
  rg_ok gR -> rg_ok gT -> rg_ok gY ->
  holds (if rosseland then nm_lRosseland m else nm_lPlanck m) [Axis gR; Axis gT; Axis gY; Index 3] f ->
  forall (i j k : Z) (type : RadiationType) (rho temp : R),
  (0 <= i < rg_n gR)%Z -> (0 <= j < rg_n gT)%Z -> (0 <= k < rg_n gY)%Z ->
  (0 <= RadType2Idx type < 3)%Z -> 0 <= rho -> 0 <= temp ->
  rho + tiny = pow10 (rg_node gR i) -> temp + tiny = pow10 (rg_node gT j) ->
  (if rosseland then nm_Rosseland m else nm_Planck m)
     (Fin rho) (Fin temp) (Fin (rg_node gY k)) type =
  Ok (Fin (rho * pow10 (f [i; j; k; RadType2Idx type]))).
Proof. exact C35_neutrino_node_proof. Qed.
Print Assumptions C35_neutrino_node.

(** Neutrino tables: between the neighbouring nodes. *)
Theorem C35_neutrino_between :
  forall (m : NuMeanTable ER) (rosseland : bool) (gR gT gY : rgrid) (f : list Z -> R),
  rg_ok gR -> rg_ok gT -> rg_ok gY ->
  holds (if rosseland then nm_lRosseland m else nm_lPlanck m) [Axis gR; Axis gT; Axis gY; Index 3] f ->
  forall (type : RadiationType) (rho temp Ye lo hi : R),
  (0 <= RadType2Idx type < 3)%Z -> 0 <= rho -> 0 <= temp ->
  let x := log10 (rho + tiny) in let y := log10 (temp + tiny) in
  rg_inside gR x -> rg_inside gT y -> rg_inside gY Ye ->
  (forall i j k, (0 <= i < rg_n gR)%Z -> (0 <= j < rg_n gT)%Z -> (0 <= k < rg_n gY)%Z ->
     Rabs (x - rg_node gR i) <= rg_dx gR -> Rabs (y - rg_node gT j) <= rg_dx gT ->
     Rabs (Ye - rg_node gY k) <= rg_dx gY -> lo <= f [i; j; k; RadType2Idx type] <= hi) ->
  exists v, (if rosseland then nm_Rosseland m else nm_Planck m) (Fin rho) (Fin temp) (Fin Ye) type
    = Ok (Fin (rho * pow10 v)) /\ lo <= v <= hi.
Proof. exact C35_neutrino_between_proof. Qed.
Print Assumptions C35_neutrino_between.

(** Neutrino tables: power laws in density and temperature, exponential in Ye. *)
Theorem C35_neutrino_power_law :
  forall (m : NuMeanTable ER) (rosseland : bool) (gR gT gY : rgrid) (a b d : R) (c : Z -> R),
  rg_ok gR -> rg_ok gT -> rg_ok gY ->
  holds (if rosseland then nm_lRosseland m else nm_lPlanck m) [Axis gR; Axis gT; Axis gY; Index 3]
    (fun is => a * rg_node gR (nth 0 is 0%Z) + b * rg_node gT (nth 1 is 0%Z) +
               d * rg_node gY (nth 2 is 0%Z) + c (nth 3 is 0%Z)) ->
  forall (type : RadiationType) (rho temp Ye : R),
  (0 <= RadType2Idx type < 3)%Z -> 0 <= rho -> 0 <= temp ->
  rg_fits gR (log10 (rho + tiny)) -> rg_fits gT (log10 (temp + tiny)) -> rg_fits gY Ye ->
  (if rosseland then nm_Rosseland m else nm_Planck m) (Fin rho) (Fin temp) (Fin Ye) type =
  Ok (Fin (rho * (pow10 (c (RadType2Idx type)) * Rpower (rho + tiny) a * Rpower (temp + tiny) b * pow10 (d * Ye)))).
Proof. exact C35_neutrino_power_law_proof. Qed.
Print Assumptions C35_neutrino_power_law.

(** A 2 x 2 table of two groups: the value of group 1 at the node (1, 0). *)
Example C35_node_example_holds :
  mt_Coefficient (ex_table [0; 1; 2; 3; 4; 5; 6; 7]) (Fin (10 - tiny)) (Fin (1 - tiny)) 1 1 =
  Ok (Fin ((10 - tiny) * pow10 5)).
Proof. exact C35_node_example. Qed.

(** Away from the grid: the power law 10^(2 + 3 g) rho T^2 at rho = T = 1000. *)
Example C35_power_law_example_holds :
  mt_Coefficient (ex_table [2; 5; 4; 7; 3; 6; 5; 8]) (Fin (1000 - tiny)) (Fin (1000 - tiny)) 1 0 =
  Ok (Fin ((1000 - tiny) * (pow10 5 * Rpower 1000 1 * Rpower 1000 2))).
Proof. exact C35_power_law_example. Qed.

(** In binary64 with any libm: the guard under the logarithm vanishes for magnitudes of at
    least 2^-963, so nodes are at density and temperature 10^x themselves. *)
Theorem C35_guard_binary64 :
  forall (L : Libm) (x : b64), is_finite x = true ->
  bpow radix2 (-963) <= Rabs (B2R x) ->
  @ToLog b64 (B64_ops L) x = lm_log10 L (Babs x).
Proof. exact C35_guard_binary64_proof. Qed.
Print Assumptions C35_guard_binary64.

Example C35_guard_binary64_example_holds : forall L : Libm,
  @ToLog b64 (B64_ops L) (b64_of_Z 3) = lm_log10 L (b64_of_Z 3).
Proof. exact C35_guard_binary64_example. Qed.
