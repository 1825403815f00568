(** C64: lookups in neutrino tables by energy, in double precision. *)
From Coquelicot Require Import Coquelicot.
From Coq Require Import Reals ZArith List Lra Lia Bool.
From Flocq Require Import Core IEEE754.BinarySingleNaN.
From Verif Require Import Proofs.C64 Base.Outcome Base.Ops Inst.B64 Model.RadTypes Model.Constants Model.NeutrinoApi Model.MeanUtils Model.Spiner Model.SpinerNeutrinos
  Spec.Tables Spec.Tabulated Spec.DoublePrecision Spec.DoubleTables Spec.DoubleSpiner Proofs.B64Facts
  Proofs.Near Proofs.NearConsts Proofs.NearRules Proofs.NarrowGroup Proofs.FillFacts Proofs.SpinerFacts Proofs.DoubleTables Proofs.DoubleLookup Proofs.DoubleSpiner Proofs.C63.
Import ListNotations.
Open Scope R_scope.

(** A table by energy. The coordinates are the logarithms of the density, of the temperature
    and of the energy of the neutrino in MeV, and the electron fraction; if they are coordinates
    of the table up to fourteen units of 2^-53 of their extent, the answer is ten to the
    interpolant there, up to roundings: 550 times the largest stored number times the numbers
    of cells. *)
Theorem C64_by_energy :
  forall (L : Libm) (F : R) (b : DataBox b64) (gR gT gY gE : rgrid) (f : list Z -> R) (rho temp Ye : b64) (type : RadiationType) (nu : b64)
    (yR yT yY yE r : R),
  let O := B64_ops L in
  let dims := [Axis gR; Axis gT; Axis gY; Index 3; Axis gE] in
  accurate_libm L -> accurate_log10 L -> 1 <= F <= 250 ->
  holds64 L F b dims f -> physical rho -> physical temp -> is_finite Ye = true -> physical nu ->
  coordinate 14 gR (log10 (B2R rho)) yR -> coordinate 14 gT (log10 (temp_MeV (B2R temp))) yT ->
  coordinate 14 gY (B2R Ye) yY -> coordinate 14 gE (log10 (energy_MeV (B2R nu))) yE ->
  interpolates [Pos yR; Pos yT; Pos yY; Num (RadType2Idx type); Pos yE] dims f r ->
  returns (@sp_lookup5 b64 O (@PhysicalConstantsCGS b64 O) b rho temp Ye type nu) (550 * F * (cells gR + cells gT + cells gY + cells gE)) (pow10 r).
Proof. exact C64_by_energy_proof. Qed.
Print Assumptions C64_by_energy.

(** A table of totals, the same without the energy. *)
Theorem C64_totals :
  forall (L : Libm) (F : R) (b : DataBox b64) (gR gT gY : rgrid) (f : list Z -> R) (rho temp Ye : b64) (type : RadiationType)
    (yR yT yY r : R),
  let O := B64_ops L in
  let dims := [Axis gR; Axis gT; Axis gY; Index 3] in
  accurate_libm L -> accurate_log10 L -> 1 <= F <= 250 ->
  holds64 L F b dims f -> physical rho -> physical temp -> is_finite Ye = true ->
  coordinate 14 gR (log10 (B2R rho)) yR -> coordinate 14 gT (log10 (temp_MeV (B2R temp))) yT -> coordinate 14 gY (B2R Ye) yY ->
  interpolates [Pos yR; Pos yT; Pos yY; Num (RadType2Idx type)] dims f r ->
  returns (@sp_lookup4 b64 O b rho temp Ye type) (550 * F * (cells gR + cells gT + cells gY)) (pow10 r).
Proof. exact C64_totals_proof. Qed.
Print Assumptions C64_totals.

(** The emissivity over all angles: four pi times as much, four more roundings. *)
Theorem C64_per_frequency :
  forall (L : Libm) (F : R) (t : SpinerTables b64) (gR gT gY gE : rgrid) (f : list Z -> R) (rho temp Ye : b64) (type : RadiationType) (nu : b64)
    (yR yT yY yE r : R),
  let O := B64_ops L in
  let dims := [Axis gR; Axis gT; Axis gY; Index 3; Axis gE] in
  accurate_libm L -> accurate_log10 L -> 1 <= F <= 250 ->
  holds64 L F (sp_jnu t) dims f -> physical rho -> physical temp -> is_finite Ye = true -> physical nu ->
  coordinate 14 gR (log10 (B2R rho)) yR -> coordinate 14 gT (log10 (temp_MeV (B2R temp))) yT ->
  coordinate 14 gY (B2R Ye) yY -> coordinate 14 gE (log10 (energy_MeV (B2R nu))) yE ->
  interpolates [Pos yR; Pos yT; Pos yY; Num (RadType2Idx type); Pos yE] dims f r ->
  returns (@sp_EmissivityPerNu b64 O (@PhysicalConstantsCGS b64 O) t rho temp Ye type nu) (550 * F * (cells gR + cells gT + cells gY + cells gE) + 4) (4 * PI * pow10 r).
Proof. exact C64_per_frequency_proof. Qed.
Print Assumptions C64_per_frequency.

(** Tabulating an opacity. If at the nodes the constructor asks the source answers numbers
    between 10^-F and 10^F, the table is built, and asked at its own nodes it gives back the
    answers of the source, up to roundings. The absorption coefficients are those of the source
    at the temperature in MeV instead of kelvin (finding C40). *)
Theorem C64_tabulated :
  forall (L : Libm) (o : NuOpac b64) (F : R) (lr0 lr1 lt0 lt1 y0 y1 le0 le1 : b64) (NR NT NY NE : Z) (gR gT gY ge : Grid b64)
    (A Jn : nat -> nat -> nat -> RadiationType -> nat -> b64) (J N : nat -> nat -> nat -> RadiationType -> b64),
  let O := B64_ops L in
  let pc := @PhysicalConstantsCGS b64 O in
  let t0 := @Oadd b64 O lt0 (@Olog10 b64 O (@sp_K2MeV b64 O)) in
  let t1 := @Oadd b64 O lt1 (@Olog10 b64 O (@sp_K2MeV b64 O)) in
  let rho := fun a => @sp_fromLog b64 O (@g_x b64 O gR (Z.of_nat a)) in
  let MeV := fun b => @sp_fromLog b64 O (@g_x b64 O gT (Z.of_nat b)) in
  let temp := fun b => @Omul b64 O (MeV b) (@sp_MeV2K b64 O) in
  let Ye := fun y => @g_x b64 O gY (Z.of_nat y) in
  let nu := fun e => @Omul b64 O (@sp_MeV2Hz b64 O pc) (@sp_fromLog b64 O (@g_x b64 O ge (Z.of_nat e))) in
  let total := cells (real_grid lr0 lr1 NR) + cells (real_grid t0 t1 NT) + cells (real_grid y0 y1 NY) in
  let all := total + cells (real_grid le0 le1 NE) in
  let inside := fun a b y (type : RadiationType) =>
    (Z.of_nat a < NR)%Z /\ (Z.of_nat b < NT)%Z /\ (Z.of_nat y < NY)%Z /\ (0 <= RadType2Idx type < 3)%Z in
  accurate_libm L -> accurate_log10 L -> 1 <= F <= 240 ->
  ordinary lr0 lr1 NR -> ordinary t0 t1 NT -> ordinary y0 y1 NY -> ordinary le0 le1 NE ->
  extent (real_grid lr0 lr1 NR) <= 29 -> extent (real_grid t0 t1 NT) <= 18 -> extent (real_grid le0 le1 NE) <= 8 ->
  @mk_grid b64 O lr0 lr1 NR = Ok gR -> @mk_grid b64 O t0 t1 NT = Ok gT -> @mk_grid b64 O y0 y1 NY = Ok gY -> @mk_grid b64 O le0 le1 NE = Ok ge ->
  (forall a b y type, inside a b y type ->
     (nu_Emissivity o (rho a) (temp b) (Ye y) type = Ok (J a b y type) /\ storable F (J a b y type)) /\
     (nu_NumberEmissivity o (rho a) (temp b) (Ye y) type = Ok (N a b y type) /\ storable F (N a b y type)) /\
     forall e, (Z.of_nat e < NE)%Z ->
     (nu_Absorption o (rho a) (MeV b) (Ye y) type (nu e) = Ok (A a b y type e) /\ storable F (A a b y type e)) /\
     (nu_EmissivityPerNuOmega o (rho a) (temp b) (Ye y) type (nu e) = Ok (Jn a b y type e) /\ storable F (Jn a b y type e))) ->
  exists t, @sp_tabulate b64 O pc o lr0 lr1 NR lt0 lt1 NT y0 y1 NY le0 le1 NE = Ok t /\
  forall a b y type, inside a b y type ->
    returns (@sp_Emissivity b64 O t (rho a) (temp b) (Ye y) type) (570 * F * total) (B2R (J a b y type)) /\
    returns (@sp_NumberEmissivity b64 O t (rho a) (temp b) (Ye y) type) (570 * F * total) (B2R (N a b y type)) /\
    forall e, (Z.of_nat e < NE)%Z ->
      returns (@sp_Absorption b64 O pc t (rho a) (temp b) (Ye y) type (nu e)) (570 * F * all) (B2R (A a b y type e)) /\
      returns (@sp_EmissivityPerNuOmega b64 O pc t (rho a) (temp b) (Ye y) type (nu e)) (570 * F * all) (B2R (Jn a b y type e)) /\
      returns (@sp_EmissivityPerNu b64 O pc t (rho a) (temp b) (Ye y) type (nu e)) (570 * F * all + 4) (4 * PI * B2R (Jn a b y type e)).
Proof. exact C64_tabulated_proof. Qed.
Print Assumptions C64_tabulated.

(** Forty-eight numbers on two densities, temperatures, electron fractions and energies, and the
    three species, asked at density 5, at 3*2^34 kelvin (4.4 MeV), electron fraction 1/4 and
    2^70 hertz (4.9 MeV), between the nodes: C64_by_energy, and C64_per_frequency for the tables
    holding this one. *)
Example C64_by_energy_example_holds :
  exists L F b gR gT gY gE f (rho temp Ye : b64) type (nu : b64) yR yT yY yE r,
  let dims := [Axis gR; Axis gT; Axis gY; Index 3; Axis gE] in
  accurate_libm L /\ accurate_log10 L /\ 1 <= F <= 250 /\
  holds64 L F b dims f /\ physical rho /\ physical temp /\ is_finite Ye = true /\ physical nu /\
  coordinate 14 gR (log10 (B2R rho)) yR /\ coordinate 14 gT (log10 (temp_MeV (B2R temp))) yT /\
  coordinate 14 gY (B2R Ye) yY /\ coordinate 14 gE (log10 (energy_MeV (B2R nu))) yE /\
  interpolates [Pos yR; Pos yT; Pos yY; Num (RadType2Idx type); Pos yE] dims f r /\
  B2R rho = 5 /\ B2R temp = 3 * 2 ^ 34 /\ B2R Ye = 1 / 4 /\ B2R nu = 2 ^ 70 /\ List.length (db_data b) = 48%nat.
Proof. exact C64_by_energy_example. Qed.

(** Twenty-four numbers, the same without the energy: C64_totals. *)
Example C64_totals_example_holds :
  exists L F b gR gT gY f (rho temp Ye : b64) type yR yT yY r,
  let dims := [Axis gR; Axis gT; Axis gY; Index 3] in
  accurate_libm L /\ accurate_log10 L /\ 1 <= F <= 250 /\
  holds64 L F b dims f /\ physical rho /\ physical temp /\ is_finite Ye = true /\
  coordinate 14 gR (log10 (B2R rho)) yR /\ coordinate 14 gT (log10 (temp_MeV (B2R temp))) yT /\ coordinate 14 gY (B2R Ye) yY /\
  interpolates [Pos yR; Pos yT; Pos yY; Num (RadType2Idx type)] dims f r /\
  B2R rho = 5 /\ B2R temp = 3 * 2 ^ 34 /\ B2R Ye = 1 / 4 /\ List.length (db_data b) = 24%nat.
Proof. exact C64_totals_example. Qed.

Example C64_tabulated_example_holds :
  exists (L : Libm) (o : NuOpac b64) (F : R) (lr0 lr1 lt0 lt1 y0 y1 le0 le1 : b64) (NR NT NY NE : Z) (gR gT gY ge : Grid b64)
    (A Jn : nat -> nat -> nat -> RadiationType -> nat -> b64) (J N : nat -> nat -> nat -> RadiationType -> b64),
  let O := B64_ops L in
  let pc := @PhysicalConstantsCGS b64 O in
  let t0 := @Oadd b64 O lt0 (@Olog10 b64 O (@sp_K2MeV b64 O)) in
  let t1 := @Oadd b64 O lt1 (@Olog10 b64 O (@sp_K2MeV b64 O)) in
  let rho := fun a => @sp_fromLog b64 O (@g_x b64 O gR (Z.of_nat a)) in
  let MeV := fun b => @sp_fromLog b64 O (@g_x b64 O gT (Z.of_nat b)) in
  let temp := fun b => @Omul b64 O (MeV b) (@sp_MeV2K b64 O) in
  let Ye := fun y => @g_x b64 O gY (Z.of_nat y) in
  let nu := fun e => @Omul b64 O (@sp_MeV2Hz b64 O pc) (@sp_fromLog b64 O (@g_x b64 O ge (Z.of_nat e))) in
  let inside := fun a b y (type : RadiationType) =>
    (Z.of_nat a < NR)%Z /\ (Z.of_nat b < NT)%Z /\ (Z.of_nat y < NY)%Z /\ (0 <= RadType2Idx type < 3)%Z in
  accurate_libm L /\ accurate_log10 L /\ 1 <= F <= 240 /\
  ordinary lr0 lr1 NR /\ ordinary t0 t1 NT /\ ordinary y0 y1 NY /\ ordinary le0 le1 NE /\
  extent (real_grid lr0 lr1 NR) <= 29 /\ extent (real_grid t0 t1 NT) <= 18 /\ extent (real_grid le0 le1 NE) <= 8 /\
  @mk_grid b64 O lr0 lr1 NR = Ok gR /\ @mk_grid b64 O t0 t1 NT = Ok gT /\ @mk_grid b64 O y0 y1 NY = Ok gY /\ @mk_grid b64 O le0 le1 NE = Ok ge /\
  (forall a b y type, inside a b y type ->
     (nu_Emissivity o (rho a) (temp b) (Ye y) type = Ok (J a b y type) /\ storable F (J a b y type)) /\
     (nu_NumberEmissivity o (rho a) (temp b) (Ye y) type = Ok (N a b y type) /\ storable F (N a b y type)) /\
     forall e, (Z.of_nat e < NE)%Z ->
     (nu_Absorption o (rho a) (MeV b) (Ye y) type (nu e) = Ok (A a b y type e) /\ storable F (A a b y type e)) /\
     (nu_EmissivityPerNuOmega o (rho a) (temp b) (Ye y) type (nu e) = Ok (Jn a b y type e) /\ storable F (Jn a b y type e))) /\
  B2R lt0 = 10 /\ B2R lt1 = 13 /\ (forall r t y ty n, nu_Absorption o r t y ty n = Ok r).
Proof. exact C64_tabulated_example. Qed.
