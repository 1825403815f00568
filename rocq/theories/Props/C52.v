(** C52. Lookups stay within the tables. *)
From Coq Require Import Reals ZArith List Lia Lra Bool.
From Verif Require Import Proofs.C52 Base.Outcome Base.Ops Inst.ER Inst.ERTac Inst.RConsts Model.Constants Model.RadTypes Model.PhotonApi
  Model.NeutrinoApi Model.OpacNeutrinos Model.Spiner Model.MeanUtils Model.MeanPhotons Model.MeanNeutrinos Model.SpinerNeutrinos
  Spec.Groups Spec.Tables Spec.TableShape Spec.Tabulated Spec.NuLib Spec.Reach Proofs.ArrayFacts Proofs.OrderLaws Proofs.InterpFacts
  Proofs.TableFacts Proofs.MeanTotal Proofs.FillFacts Proofs.SpinerFacts Proofs.SpinerExact Proofs.NuLibFacts Proofs.C35 Proofs.C37 Proofs.C40 Proofs.C41.
Import ListNotations.
Open Scope Z_scope.

(** A photon mean table as constructed, over at least two densities and two temperatures: a
    lookup of an existing group gives a value exactly if the distances of density and
    temperature from the first nodes, counted in cells, are ints; otherwise the conversion to
    int is undefined, and there is no other outcome. In any arithmetic. *)
Theorem C52_photon :
  forall (T : Type) (O : Ops T) (pc : PhysConst T) (dbg : bool) (opc : RuntimePC T) (coef : T -> T -> T -> result T)
    (lR hR : T) (NR : Z) (lT hT : T) (NT : Z) (gb : list T) (n N : Z) (m : MeanTable T),
  MeanImpl pc dbg opc coef lR hR NR lT hT NT gb n N = Ok m -> 2 <= NR -> 2 <= NT ->
  exists gR gT, mk_grid lR hR NR = Ok gR /\ mk_grid lT hT NT = Ok gT /\
  forall rho temp group gmode, 0 <= group < n ->
  answers (mt_Coefficient m rho temp group gmode) (convertible gR (ToLog rho) /\ convertible gT (ToLog temp)).
Proof. exact C52_photon_proof. Qed.
Print Assumptions C52_photon.

(** The same of tables from a file or from the caller, if the sizes of their grids are those
    of the dimensions; with the grids of the table asked. *)
Theorem C52_loaded :
  forall (T : Type) (O : Ops T) (p r : DataBox T) (gb : list T) (m : MeanTable T) (n NT NR : Z) x gT gR y gT' gR',
  LoadTables p r gb = Ok m ->
  db_dims p = [n; NT; NR] -> db_ranges p = [x; Some gT; Some gR] -> db_ranges r = [y; Some gT'; Some gR'] ->
  db_size p = n * NT * NR -> proper_axis NR gR -> proper_axis NT gT -> proper_axis NR gR' -> proper_axis NT gT' ->
  forall rho temp group, 0 <= group < n ->
  answers (mt_PlanckGroup m rho temp group) (convertible gR (ToLog rho) /\ convertible gT (ToLog temp)) /\
  answers (mt_RosselandGroup m rho temp group) (convertible gR' (ToLog rho) /\ convertible gT' (ToLog temp)).
Proof. exact C52_loaded_proof. Qed.
Print Assumptions C52_loaded.

(** Neutrino mean tables, absorption and scattering: one of the three neutrino species. *)
Theorem C52_neutrino :
  forall (T : Type) (O : Ops T) (pc : PhysConst T) (coef : T -> T -> T -> RadiationType -> T -> result T)
    (dist ddist : T -> RadiationType -> T -> result T) (dbg : bool) (opc : RuntimePC T)
    (lR hR : T) (NR : Z) (lT hT : T) (NT : Z) (lY hY : T) (NY : Z) (range : option (T * T * Z)) (m : NuMeanTable T),
  NuMeanOpacity pc coef dist ddist dbg opc lR hR NR lT hT NT lY hY NY range = Ok m \/
  NuMeanSOpacity pc coef dist ddist lR hR NR lT hT NT lY hY NY range = Ok m ->
  2 <= NR -> 2 <= NT -> 2 <= NY ->
  exists gR gT gY, mk_grid lR hR NR = Ok gR /\ mk_grid lT hT NT = Ok gT /\ mk_grid lY hY NY = Ok gY /\
  forall rho temp Ye type, neutrino_species type ->
  let C := convertible gR (ToLog rho) /\ convertible gT (ToLog temp) /\ convertible gY Ye in
  answers (nm_Planck m rho temp Ye type) C /\ answers (nm_Rosseland m rho temp Ye type) C.
Proof. exact C52_neutrino_proof. Qed.
Print Assumptions C52_neutrino.

(** Tabulated neutrino opacities: all five lookups, for the three species. *)
Theorem C52_tabulated :
  forall (T : Type) (O : Ops T) (pc : PhysConst T) (k : Z) (o : NuOpac T) (lR hR : T) (NR : Z) (lT hT : T) (NT : Z)
    (lY hY : T) (NY : Z) (le he : T) (NE : Z) (t : SpinerTables T),
  sp_tabulate pc o lR hR NR lT hT NT lY hY NY le he NE = Ok t -> 2 <= NR -> 2 <= NT -> 2 <= NY -> 2 <= NE ->
  exists gR gT gY ge, mk_grid lR hR NR = Ok gR /\
  mk_grid (Oadd lT (Olog10 sp_K2MeV)) (Oadd hT (Olog10 sp_K2MeV)) NT = Ok gT /\ mk_grid lY hY NY = Ok gY /\ mk_grid le he NE = Ok ge /\
  forall rho temp Ye type, neutrino_species type -> all_answer pc k t gR gT gY ge rho temp Ye type.
Proof. exact C52_tabulated_proof. Qed.
Print Assumptions C52_tabulated.

(** Opacities from NuLib files: the same for the species the file has. *)
Theorem C52_nulib :
  forall (T : Type) (O : Ops T) (pc : PhysConst T) (k : Z) (fresh : nat -> T) (f : NuLibFile T) (t : SpinerTables T) (NR NT NY NS NE : Z),
  LoadFromNuLib pc fresh (Some f) = Ok t ->
  nl_nrho f = Some NR -> nl_ntemp f = Some NT -> nl_nye f = Some NY -> nl_number_species f = Some NS -> nl_number_groups f = Some NE ->
  2 <= NR -> 2 <= NT -> 2 <= NY -> 2 <= NE ->
  exists lR hR lT hT lY hY le he gR gT gY ge,
  ReadBounds (nl_rho_points f) NR = Ok (lR, hR) /\ ReadBounds (nl_temp_points f) NT = Ok (lT, hT) /\
  ReadBounds (nl_ye_points f) NY = Ok (lY, hY) /\ ReadBounds (nl_neutrino_energies f) NE = Ok (le, he) /\
  mk_grid (Olog10 lR) (Olog10 hR) NR = Ok gR /\ mk_grid (Olog10 lT) (Olog10 hT) NT = Ok gT /\
  mk_grid lY hY NY = Ok gY /\ mk_grid (Olog10 le) (Olog10 he) NE = Ok ge /\
  forall rho temp Ye type, 0 <= RadType2Idx type < NS -> all_answer pc k t gR gT gY ge rho temp Ye type.
Proof. exact C52_nulib_proof. Qed.
Print Assumptions C52_nulib.

(** In exact arithmetic, grids of at least two nodes: a lookup at a density and temperature
    gives a value exactly if both are less than 2^31 cells from the first node; and at a
    density or temperature that is infinite or not a number the behaviour is undefined. *)
Theorem C52_photon_exact :
  forall (pc : PhysConst ER) (dbg : bool) (opc : RuntimePC ER) (coef : ER -> ER -> ER -> result ER) (gR gT : rgrid)
    (gb : list ER) (n N : Z) (m : MeanTable ER) (group gmode : Z),
  rg_ok gR -> rg_ok gT ->
  MeanImpl pc dbg opc coef (Fin (rg_lo gR)) (Fin (rg_hi gR)) (rg_n gR) (Fin (rg_lo gT)) (Fin (rg_hi gT)) (rg_n gT) gb n N = Ok m ->
  0 <= group < n ->
  (forall rho temp, (0 <= rho)%R -> (0 <= temp)%R ->
   answers (mt_Coefficient m (Fin rho) (Fin temp) group gmode) (rg_fits gR (log10 (rho + tiny)) /\ rg_fits gT (log10 (temp + tiny)))) /\
  (forall rho temp, (forall r, rho <> Fin r) \/ (forall r, temp <> Fin r) -> mt_Coefficient m rho temp group gmode = UB).
Proof. exact C52_photon_exact_proof. Qed.
Print Assumptions C52_photon_exact.

(** The condition is met by every density and temperature from 0 to the largest double on
    grids starting between 10^-400 and 10^400 with cells of 10^-6 decades or more. *)
Theorem C52_ordinary :
  forall (g : rgrid) (x : R), rg_ok g -> (0 <= x <= 10 ^ 309)%R -> (-400 <= rg_lo g <= 400)%R -> (/ 10 ^ 6 <= rg_dx g)%R ->
  rg_fits g (log10 (x + tiny)).
Proof. exact C52_ordinary_proof. Qed.
Print Assumptions C52_ordinary.

(** The full statement, a value for every finite state, is false of the code. A table with a
    single density is accepted from the caller or a file and made by the tabulating
    constructor, and every lookup in it reads before the start of the storage. In any
    arithmetic. *)
Theorem C52_single_density :
  forall (T : Type) (O : Ops T),
  (forall (p r : DataBox T) gb m n NT x gT gR y gT' gR', LoadTables p r gb = Ok m ->
   db_dims p = [n; NT; 1] -> db_ranges p = [x; Some gT; Some gR] -> db_ranges r = [y; Some gT'; Some gR'] ->
   g_N gR = 1 -> g_N gR' = 1 -> g_N gT = NT -> g_N gT' = NT -> 1 <= n -> 1 <= NT -> db_size p = n * NT ->
   forall rho temp group gmode, group < n -> mt_Coefficient m rho temp group gmode = UB) /\
  (forall pc k o (lR hR lT hT lY hY le he : T) NT NY NE t, sp_tabulate pc o lR hR 1 lT hT NT lY hY NY le he NE = Ok t ->
   forall rho temp Ye type nu, neutrino_species type ->
   nu_Absorption (SpinerOpacity k pc t) rho temp Ye type nu = UB /\ nu_EmissivityPerNuOmega (SpinerOpacity k pc t) rho temp Ye type nu = UB /\
   nu_Emissivity (SpinerOpacity k pc t) rho temp Ye type = UB /\ nu_NumberEmissivity (SpinerOpacity k pc t) rho temp Ye type = UB).
Proof. exact C52_single_density_proof. Qed.
Print Assumptions C52_single_density.

Theorem C52_averaged_single_density :
  (forall pc dbg opc coef (lR hR : R) (lT hT : ER) NT gb n N m,
   MeanImpl pc dbg opc coef (Fin lR) (Fin hR) 1 lT hT NT gb n N <> Ok m) /\
  (forall pc coef dist ddist dbg opc (lR hR : R) (lT hT lY hY : ER) NT NY range m,
   (forall r N, range = Some (r, N) -> 0 < N) ->
   NuMeanOpacity pc coef dist ddist dbg opc (Fin lR) (Fin hR) 1 lT hT NT lY hY NY range <> Ok m /\
   NuMeanSOpacity pc coef dist ddist (Fin lR) (Fin hR) 1 lT hT NT lY hY NY range <> Ok m).
Proof. exact C52_averaged_single_density_proof. Qed.
Print Assumptions C52_averaged_single_density.

(** The number of species of a NuLib file is not compared with the three species of the
    library: asked for a species the file lacks, at or beyond the last nodes, the lookups
    read past the end of the storage. In any arithmetic. *)
Theorem C52_species :
  forall (T : Type) (O : Ops T) (pc : PhysConst T) (k : Z) (fresh : nat -> T) (f : NuLibFile T) (t : SpinerTables T) (NR NT NY NS NE : Z),
  LoadFromNuLib pc fresh (Some f) = Ok t ->
  nl_nrho f = Some NR -> nl_ntemp f = Some NT -> nl_nye f = Some NY -> nl_number_species f = Some NS -> nl_number_groups f = Some NE ->
  0 <= NS ->
  exists lR hR lT hT lY hY gR gT gY,
  ReadBounds (nl_rho_points f) NR = Ok (lR, hR) /\ ReadBounds (nl_temp_points f) NT = Ok (lT, hT) /\
  ReadBounds (nl_ye_points f) NY = Ok (lY, hY) /\
  mk_grid (Olog10 lR) (Olog10 hR) NR = Ok gR /\ mk_grid (Olog10 lT) (Olog10 hT) NT = Ok gT /\ mk_grid lY hY NY = Ok gY /\
  forall rho temp Ye type nu, NS <= RadType2Idx type ->
  beyond gR (sp_toLog rho) -> beyond gT (sp_toLog (Omul temp sp_K2MeV)) -> beyond gY Ye ->
  nu_Emissivity (SpinerOpacity k pc t) rho temp Ye type = UB /\ nu_NumberEmissivity (SpinerOpacity k pc t) rho temp Ye type = UB /\
  (2 <= NE -> nu_Absorption (SpinerOpacity k pc t) rho temp Ye type nu = UB /\
   nu_EmissivityPerNuOmega (SpinerOpacity k pc t) rho temp Ye type nu = UB).
Proof. exact C52_species_proof. Qed.
Print Assumptions C52_species.

(** One density, one group: accepted, and every lookup is undefined. *)
Theorem C52_single_density_refuted :
  exists (p : DataBox ER) (gb : list ER) (m : MeanTable ER),
  well_formed p /\ (exists g, mk_grid (Fin 0) (Fin 1) 1 = Ok g /\ nth 2 (db_ranges p) None = Some g) /\
  LoadTables p p gb = Ok m /\ forall rho temp gmode, mt_Coefficient m rho temp 0 gmode = UB.
Proof. exact C52_single_density_refuted_proof. Qed.
Print Assumptions C52_single_density_refuted.

(** Cells of 10^-8 decades and a density of 10^30: the number of cells in between is no int. *)
Theorem C52_far_state_refuted :
  exists (p : DataBox ER) (gb : list ER) (m : MeanTable ER) (g : rgrid),
  well_formed p /\ rg_ok g /\ nth 2 (db_ranges p) None = Some (grid_of g) /\
  LoadTables p p gb = Ok m /\ forall gmode, mt_Coefficient m (Fin (10 ^ 30)) (Fin 1) 0 gmode = UB.
Proof. exact C52_far_state_refuted_proof. Qed.
Print Assumptions C52_far_state_refuted.

Theorem C52_species_refuted :
  exists (b : nulib) (rho temp Ye nu : R), nulib_ok b /\ nb_NS b = 2%Z /\ (0 < rho)%R /\ (0 < temp)%R /\ (0 <= Ye <= 1)%R /\ (0 < nu)%R /\
  forall (k : Z) (fresh : nat -> ER) (t : SpinerTables ER), LoadFromNuLib (finpc cgsR) fresh (Some (file_of b)) = Ok t ->
  nu_Emissivity (SpinerOpacity k (finpc cgsR) t) (Fin rho) (Fin temp) (Fin Ye) NU_HEAVY = UB /\
  nu_Absorption (SpinerOpacity k (finpc cgsR) t) (Fin rho) (Fin temp) (Fin Ye) NU_HEAVY (Fin nu) = UB.
Proof. exact C52_species_refuted_proof. Qed.
Print Assumptions C52_species_refuted.

(** A table of one group with a constant opacity, 10 densities from 10^-6 and 7 temperatures
    from 100: it exists, and the lookup at density 1 and temperature 0 gives a value. *)
Example C52_photon_exact_example_holds :
  let gR := {| rg_lo := -6; rg_hi := 3; rg_n := 10 |} in let gT := {| rg_lo := 2; rg_hi := 8; rg_n := 7 |} in
  exists m v, rg_ok gR /\ rg_ok gT /\
  MeanImpl (finpc cgsR) false (RuntimePC_of (finpc cgsR)) (fun _ _ _ => Ok (Fin 1)) (Fin (rg_lo gR)) (Fin (rg_hi gR)) (rg_n gR)
    (Fin (rg_lo gT)) (Fin (rg_hi gT)) (rg_n gT) [Fin 0; PInf] 1 100 = Ok m /\
  mt_Coefficient m (Fin 1) (Fin 0) 0 Planck = Ok v.
Proof. exact C52_photon_exact_example. Qed.

(** The example tables of two groups, asked for their second group at density and
    temperature 0. *)
Example C52_loaded_example_holds :
  exists m v, LoadTables (ex_box [1; 2; 3; 4; 5; 6; 7; 8]%R) (ex_box [1; 2; 3; 4; 5; 6; 7; 8]%R) [Fin 0; Fin 1; PInf] = Ok m /\
  mt_PlanckGroup m (Fin 0) (Fin 0) 1 = Ok v.
Proof. exact C52_loaded_example. Qed.

(** A NuLib file with three species: loaded, and asked for the heavy one at its first node. *)
Example C52_nulib_example_holds :
  exists t v, LoadFromNuLib (finpc cgsR) (fun _ => Fin 7) (Some (file_of (flat_file 2 2 5))) = Ok t /\
  nu_Emissivity (SpinerOpacity 3 (finpc cgsR) t) (Fin 1) (Fin kelvin_per_MeV) (Fin 0) NU_HEAVY = Ok v.
Proof. exact C52_nulib_example. Qed.

(** A neutrino mean table of constant functions on 2 x 2 x 2 nodes, asked for the heavy
    species at its first density and temperature and Ye = 1/2. *)
Example C52_neutrino_example_holds :
  let g := ex_grid in
  exists m v, NuMeanOpacity (finpc cgsR) (fun _ _ _ _ _ => Ok (Fin 1)) (fun _ _ _ => Ok (Fin 1)) (fun _ _ _ => Ok (Fin 1))
    false (RuntimePC_of (finpc cgsR)) (Fin 0) (Fin 1) 2 (Fin 0) (Fin 1) 2 (Fin 0) (Fin 1) 2 (Some (Fin 0, Fin 1, 10)) = Ok m /\
  nm_Planck m (Fin 1) (Fin 1) (Fin (1 / 2)) NU_HEAVY = Ok v.
Proof. exact C52_neutrino_example. Qed.

(** A gray opacity tabulated on two nodes per axis, asked at its last node. *)
Example C52_tabulated_example_holds : let g := {| rg_lo := 0; rg_hi := 1; rg_n := 2 |} in
  exists t v T' nu', tabulated cgsR (NuGrayOpacity 3 (finpc cgsR) (Fin 2)) g g g g = Ok t /\
  nu_Absorption (SpinerOpacity 3 (finpc cgsR) t) (Fin (10 - tiny)) (Fin T') (Fin 1) NU_HEAVY (Fin nu') = Ok v.
Proof. exact C52_tabulated_example. Qed.
