(** C40. The tabulated neutrino opacity against its source. *)
From Coq Require Import Reals ZArith List Lia Lra Bool.
From Verif Require Import Proofs.C40 Base.Outcome Base.Ops Inst.ER Inst.ERTac Inst.RConsts Model.Constants Model.RadTypes Model.NeutrinoApi
  Model.ThermalNeutrinos Model.OpacNeutrinos Model.Spiner Model.SpinerNeutrinos Spec.Nonneg Spec.Opacities Spec.Tables Spec.Tabulated
  Proofs.ArrayFacts Proofs.InterpFacts Proofs.TableFacts Proofs.FillFacts Proofs.ModelFacts Proofs.SignLaws Proofs.MeanTotal
  Proofs.SpinerFacts Proofs.SpinerExact.
Import ListNotations.
Open Scope R_scope.

(** The constructor succeeds for every source that computes real numbers and every grid; the
    table reproduces, at every node and for every species, the source's emissivities and
    number emissivity, and the source's absorption coefficient at the wrong temperature: the
    node's in MeV, where the source takes kelvin. *)
Theorem C40_nodes :
  forall (pc : PhysConst R) (n : Z) (o : NuOpac ER) (f : nu_functions) (gR gT gY ge : rgrid),
  0 < pc_h pc -> 0 < pc_eV pc -> computes o f -> rg_ok gR -> rg_ok gT -> rg_ok gY -> rg_ok ge ->
  exists t, tabulated pc o gR gT gY ge = Ok t /\
  reproduces pc gR gT gY ge (absorption_at_MeV f) (SpinerOpacity n (finpc pc) t).
Proof. exact C40_nodes_proof. Qed.
Print Assumptions C40_nodes.

(** If the source's absorption coefficient does not depend on the temperature, the table
    reproduces the source. *)
Theorem C40_temperature_free :
  forall (pc : PhysConst R) (n : Z) (o : NuOpac ER) (f : nu_functions) (gR gT gY ge : rgrid),
  0 < pc_h pc -> 0 < pc_eV pc -> computes o f -> rg_ok gR -> rg_ok gT -> rg_ok gY -> rg_ok ge ->
  (forall rho T T' Ye type nu, 0 < rho -> 0 < T -> 0 < T' -> 0 < nu -> neutrino_species type ->
     nf_alpha f rho T Ye type nu = nf_alpha f rho T' Ye type nu) ->
  exists t, tabulated pc o gR gT gY ge = Ok t /\ reproduces pc gR gT gY ge f (SpinerOpacity n (finpc pc) t).
Proof. exact C40_temperature_free_proof. Qed.
Print Assumptions C40_temperature_free.

(** Each of the library's closed-form opacities computes real numbers; the gray and BRT
    absorption coefficients do not depend on the temperature, so their tables reproduce
    them. *)
Theorem C40_sources :
  forall (pc : PhysConst R) (m : Z) (ns : positive) (o : NuOpac ER) (gR gT gY ge : rgrid),
  positive_consts pc ->
  (exists kappa, 0 <= kappa /\ o = NuGrayOpacity (Zpos ns) (finpc pc) (Fin kappa)) \/ o = BRTOpacity (Zpos ns) (finpc pc) ->
  rg_ok gR -> rg_ok gT -> rg_ok gY -> rg_ok ge ->
  exists t, tabulated pc o gR gT gY ge = Ok t /\ reproduces pc gR gT gY ge (functions_of o) (SpinerOpacity m (finpc pc) t).
Proof. exact C40_sources_proof. Qed.
Print Assumptions C40_sources.

Theorem C40_refuted :
  computes thermometer thermometer_functions /\
  forall (n : Z) (gR gT gY ge : rgrid), rg_ok gR -> rg_ok gT -> rg_ok gY -> rg_ok ge ->
  exists t, tabulated cgsR thermometer gR gT gY ge = Ok t /\
  forall i j k l rho rho' T T' Ye nu nu' type,
  density_node gR i rho rho' -> temperature_node gT j T T' -> fraction_node gY k Ye -> frequency_node cgsR ge l nu nu' ->
  neutrino_species type ->
  nu_Absorption (SpinerOpacity n (finpc cgsR) t) (Fin rho') (Fin T') (Fin Ye) type (Fin nu') = Ok (Fin (T / kelvin_per_MeV + tiny)) /\
  T / kelvin_per_MeV + tiny <> guarded (nf_alpha thermometer_functions rho T Ye type nu).
Proof. exact C40_refuted_proof. Qed.
Print Assumptions C40_refuted.

(** Every lookup for a neutrino species stays inside the table and returns a positive
    number, at any real state (inside the table or not) whose distance from the table is a
    number of cells an int can hold. *)
Theorem C40_total :
  forall (pc : PhysConst R) (n : Z) (o : NuOpac ER) (f : nu_functions) (gR gT gY ge : rgrid),
  0 < pc_h pc -> 0 < pc_eV pc -> computes o f -> rg_ok gR -> rg_ok gT -> rg_ok gY -> rg_ok ge ->
  exists t, tabulated pc o gR gT gY ge = Ok t /\
  let s := SpinerOpacity n (finpc pc) t in
  forall rho T Ye type nu, neutrino_species type ->
  rg_fits gR (log10 (guarded rho)) -> rg_fits gT (log10 (kelvin_per_MeV * guarded (T / kelvin_per_MeV))) ->
  rg_fits gY Ye -> rg_fits ge (log10 (guarded (nu / hz_per_MeV pc))) ->
  exists a j J N, 0 < a /\ 0 < j /\ 0 < J /\ 0 < N /\
  nu_Absorption s (Fin rho) (Fin T) (Fin Ye) type (Fin nu) = Ok (Fin a) /\
  nu_AngleAvgAbsorption s (Fin rho) (Fin T) (Fin Ye) type (Fin nu) = Ok (Fin a) /\
  nu_EmissivityPerNuOmega s (Fin rho) (Fin T) (Fin Ye) type (Fin nu) = Ok (Fin j) /\
  nu_EmissivityPerNu s (Fin rho) (Fin T) (Fin Ye) type (Fin nu) = Ok (Fin (4 * PI * j)) /\
  nu_Emissivity s (Fin rho) (Fin T) (Fin Ye) type = Ok (Fin J) /\
  nu_NumberEmissivity s (Fin rho) (Fin T) (Fin Ye) type = Ok (Fin N).
Proof. exact C40_total_proof. Qed.
Print Assumptions C40_total.

(** "Never reads outside the table for the species it accepts" fails: the lookups do not
    check the species, and for any source and any grids, PHOTON at the last node and TRACER
    at the first node of the table read outside its storage, in all six calls. *)
Theorem C40_species_refuted :
  forall (pc : PhysConst R) (n : Z) (o : NuOpac ER) (f : nu_functions) (gR gT gY ge : rgrid),
  0 < pc_h pc -> 0 < pc_eV pc -> computes o f -> rg_ok gR -> rg_ok gT -> rg_ok gY -> rg_ok ge ->
  exists t, tabulated pc o gR gT gY ge = Ok t /\
  let s := SpinerOpacity n (finpc pc) t in
  forall last rho rho' T T' Ye nu nu' (type := if last : bool then PHOTON else TRACER)
    (node := fun g => if last : bool then (rg_n g - 1)%Z else 0%Z),
  density_node gR (node gR) rho rho' -> temperature_node gT (node gT) T T' -> fraction_node gY (node gY) Ye ->
  frequency_node pc ge (node ge) nu nu' ->
  nu_Absorption s (Fin rho') (Fin T') (Fin Ye) type (Fin nu') = UB /\
  nu_AngleAvgAbsorption s (Fin rho') (Fin T') (Fin Ye) type (Fin nu') = UB /\
  nu_EmissivityPerNuOmega s (Fin rho') (Fin T') (Fin Ye) type (Fin nu') = UB /\
  nu_EmissivityPerNu s (Fin rho') (Fin T') (Fin Ye) type (Fin nu') = UB /\
  nu_Emissivity s (Fin rho') (Fin T') (Fin Ye) type = UB /\
  nu_NumberEmissivity s (Fin rho') (Fin T') (Fin Ye) type = UB.
Proof. exact C40_species_refuted_proof. Qed.
Print Assumptions C40_species_refuted.

(** Inside the table, every emissivity lies between the smallest and the largest of the
    source's (guarded) values at the neighbouring nodes of the same species. *)
Theorem C40_between :
  forall (pc : PhysConst R) (n : Z) (o : NuOpac ER) (f : nu_functions) (gR gT gY ge : rgrid),
  0 < pc_h pc -> 0 < pc_eV pc -> computes o f -> rg_ok gR -> rg_ok gT -> rg_ok gY -> rg_ok ge ->
  exists t, tabulated pc o gR gT gY ge = Ok t /\
  let s := SpinerOpacity n (finpc pc) t in
  forall rho T Ye type nu lo hi, neutrino_species type ->
  let x := log10 (guarded rho) in let y := log10 (kelvin_per_MeV * guarded (T / kelvin_per_MeV)) in
  let z := log10 (guarded (nu / hz_per_MeV pc)) in
  rg_inside gR x -> rg_inside gT y -> rg_inside gY Ye -> rg_inside ge z -> 0 < lo ->
  let close := fun i j k => (0 <= i < rg_n gR)%Z /\ (0 <= j < rg_n gT)%Z /\ (0 <= k < rg_n gY)%Z /\
     Rabs (x - rg_node gR i) <= rg_dx gR /\ Rabs (y - rg_node gT j) <= rg_dx gT /\ Rabs (Ye - rg_node gY k) <= rg_dx gY in
  let bounds4 := fun F : R -> R -> R -> RadiationType -> R => forall i j k, close i j k ->
     lo <= guarded (F (pow10 (rg_node gR i)) (pow10 (rg_node gT j)) (rg_node gY k) type) <= hi in
  let bounds5 := fun F : R -> R -> R -> RadiationType -> R -> R => forall i j k l, close i j k -> (0 <= l < rg_n ge)%Z ->
     Rabs (z - rg_node ge l) <= rg_dx ge ->
     lo <= guarded (F (pow10 (rg_node gR i)) (pow10 (rg_node gT j)) (rg_node gY k) type (hz_per_MeV pc * pow10 (rg_node ge l))) <= hi in
  let answers := fun r => exists v, r = Ok (Fin v) /\ lo <= v <= hi in
  (bounds5 (nf_j f) -> answers (nu_EmissivityPerNuOmega s (Fin rho) (Fin T) (Fin Ye) type (Fin nu))) /\
  (bounds4 (nf_J f) -> answers (nu_Emissivity s (Fin rho) (Fin T) (Fin Ye) type)) /\
  (bounds4 (nf_N f) -> answers (nu_NumberEmissivity s (Fin rho) (Fin T) (Fin Ye) type)).
Proof. exact C40_between_proof. Qed.
Print Assumptions C40_between.

(** Any arithmetic (binary64 included): if the source answers where it is asked, every cell
    of the tables holds the guarded logarithm of the source's answer for that node. *)
Theorem C40_cells :
  forall (T : Type) (O : Ops T) (pc : PhysConst T) (o : NuOpac T)
    (r0 r1 t0 t1 y0 y1 e0 e1 : T) (NR NT NY NE : Z) (gR gT gY ge : Grid T),
  let lK := Olog10 sp_K2MeV in
  mk_grid r0 r1 NR = Ok gR -> mk_grid (t0 + lK)%o (t1 + lK)%o NT = Ok gT -> mk_grid y0 y1 NY = Ok gY -> mk_grid e0 e1 NE = Ok ge ->
  let log_guard := fun v : T => Olog10 (Oabs (Omax (Omax v #0) (- #0) + #0) + #10 * Onum_min)%o in
  let rho := fun i => (Opow #10 (g_x gR (Z.of_nat i)) - #0)%o in
  let temp := fun i => (Opow #10 (g_x gT (Z.of_nat i)) - #0)%o in
  let kelvin := fun i => (temp i * sp_MeV2K)%o in
  let Ye := fun i => g_x gY (Z.of_nat i) in
  let nu := fun i => (#1 / (pc_h pc / (Odec 1 6 * pc_eV pc)) * (Opow #10 (g_x ge (Z.of_nat i)) - #0))%o in
  forall (a j : nat -> nat -> nat -> RadiationType -> nat -> T) (J N : nat -> nat -> nat -> RadiationType -> T),
  (forall x t y type e, (Z.of_nat x < NR)%Z -> (Z.of_nat t < NT)%Z -> (Z.of_nat y < NY)%Z -> (Z.of_nat e < NE)%Z -> neutrino_species type ->
     nu_Absorption o (rho x) (temp t) (Ye y) type (nu e) = Ok (a x t y type e) /\
     nu_EmissivityPerNuOmega o (rho x) (kelvin t) (Ye y) type (nu e) = Ok (j x t y type e)) ->
  (forall x t y type, (Z.of_nat x < NR)%Z -> (Z.of_nat t < NT)%Z -> (Z.of_nat y < NY)%Z -> neutrino_species type ->
     nu_Emissivity o (rho x) (kelvin t) (Ye y) type = Ok (J x t y type) /\
     nu_NumberEmissivity o (rho x) (kelvin t) (Ye y) type = Ok (N x t y type)) ->
  exists tb, sp_tabulate pc o r0 r1 NR t0 t1 NT y0 y1 NY e0 e1 NE = Ok tb /\
  forall x t y type e, (Z.of_nat x < NR)%Z -> (Z.of_nat t < NT)%Z -> (Z.of_nat y < NY)%Z -> (Z.of_nat e < NE)%Z -> neutrino_species type ->
  let c := (((Z.of_nat x * NT + Z.of_nat t) * NY + Z.of_nat y) * 3 + RadType2Idx type)%Z in
  at_flat (db_data (sp_alpha tb)) (c * NE + Z.of_nat e) = Ok (log_guard (a x t y type e)) /\
  at_flat (db_data (sp_jnu tb)) (c * NE + Z.of_nat e) = Ok (log_guard (j x t y type e)) /\
  at_flat (db_data (sp_J tb)) c = Ok (log_guard (J x t y type)) /\
  at_flat (db_data (sp_JYe tb)) c = Ok (log_guard (N x t y type)).
Proof. exact C40_cells_proof. Qed.
Print Assumptions C40_cells.

(** an example for the hypotheses: a gray opacity on a 2 x 2 x 2 table, asked at its last node *)
Example C40_nodes_example_holds : let g := {| rg_lo := 0; rg_hi := 1; rg_n := 2 |} in
  let o := NuGrayOpacity 3 (finpc cgsR) (Fin 2) in
  let T' := 10 - kelvin_per_MeV * tiny in let nu := hz_per_MeV cgsR * 10 in let nu' := nu - hz_per_MeV cgsR * tiny in
  rg_ok g /\ density_node g 1 10 (10 - tiny) /\ temperature_node g 1 10 T' /\ fraction_node g 1 1 /\
  frequency_node cgsR g 1 nu nu' /\
  exists t, tabulated cgsR o g g g g = Ok t /\
  nu_Absorption (SpinerOpacity 3 (finpc cgsR) t) (Fin (10 - tiny)) (Fin T') (Fin 1) NU_HEAVY (Fin nu') = Ok (Fin (20 + tiny)).
Proof. exact C40_nodes_example. Qed.
