(** C63: lookups in tables of logarithms, in double precision. *)
From Coquelicot Require Import Coquelicot.
From Coq Require Import Reals ZArith List Lra Lia Bool.
From Flocq Require Import Core IEEE754.BinarySingleNaN.
From Verif Require Import Proofs.C63 Base.Outcome Base.Ops Inst.B64 Model.RadTypes Model.Constants Model.Indexers Model.MeanUtils Model.Spiner
  Model.MeanPhotons Model.MeanNeutrinos Spec.Physics Spec.Arrays Spec.Means Spec.Tables Spec.DoublePrecision Spec.DoubleMeans Spec.DoubleTables Proofs.B64Facts
  Proofs.MeanFacts Proofs.BuildTable Proofs.Near Proofs.NearRules Proofs.NearPhotons Proofs.DoubleMeans Proofs.Weights Proofs.C20 Proofs.NarrowGroup Proofs.DoubleTables Proofs.DoubleLookup Proofs.C56 Proofs.C62.
Import ListNotations.
Open Scope R_scope.

(** A photon mean opacity table. If the logarithms of density and temperature are coordinates
    of the table, up to sixteen units of 2^-53 of their extent, the answer is the density times
    ten to the interpolant there, up to roundings: 550 times the largest stored number times
    the numbers of cells. *)
Theorem C63_photon :
  forall (L : Libm) (F : R) (b : DataBox b64) (gR gT : rgrid) (ng : Z) (f : list Z -> R) (rho temp : b64) (group : Z) (yR yT r : R),
  accurate_libm L -> accurate_log10 L -> 1 <= F <= 250 ->
  holds64 L F b [Axis gR; Axis gT; Index ng] f -> physical rho -> physical temp ->
  coordinate 16 gR (log10 (B2R rho)) yR -> coordinate 16 gT (log10 (B2R temp)) yT ->
  interpolates [Pos yR; Pos yT; Num group] [Axis gR; Axis gT; Index ng] f r ->
  returns (@group_coefficient b64 (B64_ops L) b rho temp group) (550 * F * (cells gR + cells gT)) (B2R rho * pow10 r).
Proof. exact C63_photon_proof. Qed.
Print Assumptions C63_photon.

(** A neutrino mean opacity table, the same; the electron fraction is a coordinate. *)
Theorem C63_neutrino :
  forall (L : Libm) (F : R) (b : DataBox b64) (gR gT gY : rgrid) (f : list Z -> R) (rho temp Ye : b64) (type : RadiationType) (yR yT yY r : R),
  accurate_libm L -> accurate_log10 L -> 1 <= F <= 250 ->
  holds64 L F b [Axis gR; Axis gT; Axis gY; Index 3] f -> physical rho -> physical temp -> is_finite Ye = true ->
  coordinate 16 gR (log10 (B2R rho)) yR -> coordinate 16 gT (log10 (B2R temp)) yT -> coordinate 16 gY (B2R Ye) yY ->
  interpolates [Pos yR; Pos yT; Pos yY; Num (RadType2Idx type)] [Axis gR; Axis gT; Axis gY; Index 3] f r ->
  returns (@nm_lookup b64 (B64_ops L) b rho temp Ye type) (550 * F * (cells gR + cells gT + cells gY)) (B2R rho * pow10 r).
Proof. exact C63_neutrino_proof. Qed.
Print Assumptions C63_neutrino.

(** The answers between nodes: if the stored logarithms at the corners of the cell lie between
    [m] and [M], the answer lies between the density times the powers of ten. *)
Theorem C63_between :
  forall (L : Libm) (F : R) (b : DataBox b64) (gR gT : rgrid) (ng : Z) (f : list Z -> R) (rho temp : b64) (group : Z) (yR yT m M : R),
  accurate_libm L -> accurate_log10 L -> 1 <= F <= 250 ->
  holds64 L F b [Axis gR; Axis gT; Index ng] f -> physical rho -> physical temp -> (0 <= group < ng)%Z ->
  coordinate 16 gR (log10 (B2R rho)) yR -> coordinate 16 gT (log10 (B2R temp)) yT ->
  (forall is, Tables.near [Pos yR; Pos yT; Num group] [Axis gR; Axis gT; Index ng] is -> m <= f is <= M) ->
  exists x, @group_coefficient b64 (B64_ops L) b rho temp group = Ok x /\
    between (550 * F * (cells gR + cells gT)) (B2R rho * pow10 m) (B2R rho * pow10 M) x.
Proof. exact C63_between_proof. Qed.
Print Assumptions C63_between.

(** A photon table of logarithms of doubles between 10^-F and 10^F, asked at one of its nodes:
    the answer is the density times the double of the node. *)
Theorem C63_stored :
  forall (L : Libm) (F : R) (lr0 lr1 lt0 lt1 : b64) (NRho NT ng : Z) (gT gRho : Grid b64) (ps : list b64),
  let O := B64_ops L in
  accurate_libm L -> accurate_log10 L -> 1 <= F <= 240 ->
  ordinary lr0 lr1 NRho -> ordinary lt0 lt1 NT -> extent (real_grid lr0 lr1 NRho) <= 30 -> extent (real_grid lt0 lt1 NT) <= 30 ->
  @mk_grid b64 O lt0 lt1 NT = Ok gT -> @mk_grid b64 O lr0 lr1 NRho = Ok gRho ->
  Z.of_nat (List.length ps) = (NRho * NT * ng)%Z ->
  (forall p, In p ps -> is_finite p = true /\ 0 < B2R p /\ Rabs (log10 (B2R p)) <= F) ->
  forall a b c p, (0 <= a < NRho)%Z -> (0 <= b < NT)%Z -> (0 <= c < ng)%Z ->
  nth_error ps (Z.to_nat ((a * NT + b) * ng + c)) = Some p ->
  let rho := @FromLog b64 O (@g_x b64 O gRho a) in
  let temp := @FromLog b64 O (@g_x b64 O gT b) in
  returns (@group_coefficient b64 O
      {| db_dims := [ng; NT; NRho]; db_ranges := [None; Some gT; Some gRho]; db_data := map (@ToLog b64 O) ps |} rho temp c)
    (570 * F * (cells (real_grid lr0 lr1 NRho) + cells (real_grid lt0 lt1 NT))) (B2R rho * B2R p).
Proof. exact C63_stored_proof. Qed.
Print Assumptions C63_stored.

(** A photon table built by averaging, asked at its own nodes: if the samples of every group at
    every node are regular, it answers the density times the means of the sampled opacities. *)
Theorem C63_table :
  forall (L : Libm) (pc : PhysConst b64) (dbg : bool) (opc : RuntimePC b64) (coef : b64 -> b64 -> b64 -> result b64)
    (lr0 lr1 lt0 lt1 : b64) (NRho NT ng N : Z) (gb : list b64) (m : @MeanTable b64) (gT gRho : Grid b64)
    (alpha : nat -> nat -> nat -> nat -> b64),
  let O := B64_ops L in
  let n := Z.to_nat N in
  let rho := fun a => @FromLog b64 O (@g_x b64 O gRho (Z.of_nat a)) in
  let temp := fun b => @FromLog b64 O (@g_x b64 O gT (Z.of_nat b)) in
  let win := fun b lo hi => @sample_window b64 O pc (temp b) lo hi in
  let nu := fun b lo hi => @sample_nu b64 O (win b lo hi) N in
  let B := fun b lo hi i => fst (@ThermalWeightsAtNu b64 O pc (temp b) (nu b lo hi i)) in
  let D := fun b lo hi i => snd (@ThermalWeightsAtNu b64 O pc (temp b) (nu b lo hi i)) in
  let d := fun b lo hi i => @Omul b64 O (nu b lo hi i) (@sample_dlnu b64 O (win b lo hi) N) in
  let roundings := 35000 * (cells (real_grid lr0 lr1 NRho) + cells (real_grid lt0 lt1 NT)) + 2 * mean_roundings n in
  accurate_libm L -> accurate_log10 L ->
  ordinary lr0 lr1 NRho -> ordinary lt0 lt1 NT -> extent (real_grid lr0 lr1 NRho) <= 30 -> extent (real_grid lt0 lt1 NT) <= 30 ->
  @mk_grid b64 O lt0 lt1 NT = Ok gT -> @mk_grid b64 O lr0 lr1 NRho = Ok gRho ->
  @MeanImpl b64 O pc dbg opc coef lr0 lr1 NRho lt0 lt1 NT gb ng N = Ok m ->
  (forall a b c lo hi, (Z.of_nat a < NRho)%Z -> (Z.of_nat b < NT)%Z -> (Z.of_nat c < ng)%Z ->
     nth_error gb c = Some lo -> nth_error gb (S c) = Some hi ->
     (forall i, (i < n)%nat -> coef (rho a) (temp b) (nu b lo hi i) = Ok (alpha a b c i)) /\
     regular n (alpha a b c) (B b lo hi) (D b lo hi) (d b lo hi)) ->
  forall a b c, (Z.of_nat a < NRho)%Z -> (Z.of_nat b < NT)%Z -> (Z.of_nat c < ng)%Z ->
  exists lo hi, nth_error gb c = Some lo /\ nth_error gb (S c) = Some hi /\
    let k := fun i => B2R (alpha a b c i) / B2R (rho a) in
    returns (@mt_Coefficient b64 O m (rho a) (temp b) (Z.of_nat c) Planck) roundings
      (B2R (rho a) * arithmetic_mean n (fun i => B2R (B b lo hi i) * B2R (d b lo hi i)) k) /\
    returns (@mt_Coefficient b64 O m (rho a) (temp b) (Z.of_nat c) Rosseland) roundings
      (B2R (rho a) * harmonic_mean n (fun i => B2R (D b lo hi i) * B2R (d b lo hi i)) k).
Proof. exact C63_table_proof. Qed.
Print Assumptions C63_table.

(** If the group bounds are accepted and the samples of every group at every node are regular,
    the photon table is built. *)
Theorem C63_builds :
  forall (L : Libm) (pc : PhysConst b64) (dbg : bool) (opc : RuntimePC b64) (coef : b64 -> b64 -> b64 -> result b64)
    (lr0 lr1 lt0 lt1 : b64) (NRho NT ng N : Z) (gb : list b64) (gT gRho : Grid b64)
    (alpha : nat -> nat -> nat -> nat -> b64),
  let O := B64_ops L in
  let n := Z.to_nat N in
  let rho := fun a => @FromLog b64 O (@g_x b64 O gRho (Z.of_nat a)) in
  let temp := fun b => @FromLog b64 O (@g_x b64 O gT (Z.of_nat b)) in
  let win := fun b lo hi => @sample_window b64 O pc (temp b) lo hi in
  let nu := fun b lo hi => @sample_nu b64 O (win b lo hi) N in
  let B := fun b lo hi i => fst (@ThermalWeightsAtNu b64 O pc (temp b) (nu b lo hi i)) in
  let D := fun b lo hi i => snd (@ThermalWeightsAtNu b64 O pc (temp b) (nu b lo hi i)) in
  let d := fun b lo hi i => @Omul b64 O (nu b lo hi i) (@sample_dlnu b64 O (win b lo hi) N) in
  accurate_libm L -> accurate_log10 L -> (dbg = false \/ @RuntimePC_eqb b64 O (@RuntimePC_of b64 O pc) opc = true) -> (2 <= N)%Z -> @ValidateGroupBounds b64 O gb ng = Ok tt ->
  ordinary lr0 lr1 NRho -> extent (real_grid lr0 lr1 NRho) <= 30 ->
  @mk_grid b64 O lt0 lt1 NT = Ok gT -> @mk_grid b64 O lr0 lr1 NRho = Ok gRho ->
  (forall a b c lo hi, (Z.of_nat a < NRho)%Z -> (Z.of_nat b < NT)%Z -> (Z.of_nat c < ng)%Z ->
     nth_error gb c = Some lo -> nth_error gb (S c) = Some hi ->
     (forall i, (i < n)%nat -> coef (rho a) (temp b) (nu b lo hi i) = Ok (alpha a b c i)) /\
     regular n (alpha a b c) (B b lo hi) (D b lo hi) (d b lo hi)) ->
  exists m, @MeanImpl b64 O pc dbg opc coef lr0 lr1 NRho lt0 lt1 NT gb ng N = Ok m.
Proof. exact C63_builds_proof. Qed.
Print Assumptions C63_builds.

(** The same for neutrinos: the absorption table is built, and at its own nodes it answers the
    density times the means of the sampled opacities. *)
Theorem C63_nu_table :
  forall (L : Libm) (pc : PhysConst b64) (coef : b64 -> b64 -> b64 -> RadiationType -> b64 -> result b64)
    (dist ddist : b64 -> RadiationType -> b64 -> result b64) (lr0 lr1 lt0 lt1 y0 y1 : b64) (NRho NT NYe N : Z)
    (range : option (b64 * b64)) (gYe gT gRho : Grid b64)
    (alpha : nat -> nat -> nat -> RadiationType -> nat -> b64) (B D : nat -> RadiationType -> nat -> b64),
  let O := B64_ops L in
  let n := Z.to_nat N in
  let lims := match range with Some r => r | None => @auto_range b64 O pc lt0 lt1 end in
  let dl := @Odiv b64 O (@Osub b64 O (snd lims) (fst lims)) (@OofZ b64 O N) in
  let nu := fun i => @FromLog b64 O (@Oadd b64 O (fst lims) (@Omul b64 O (@Oadd b64 O (@OofZ b64 O (Z.of_nat i)) (@Odec b64 O 5 (-1))) dl)) in
  let rho := fun a => @FromLog b64 O (@g_x b64 O gRho (Z.of_nat a)) in
  let temp := fun b => @FromLog b64 O (@g_x b64 O gT (Z.of_nat b)) in
  let Ye := fun y => @g_x b64 O gYe (Z.of_nat y) in
  let roundings := 35000 * (cells (real_grid lr0 lr1 NRho) + cells (real_grid lt0 lt1 NT) + cells (real_grid y0 y1 NYe)) + 2 * mean_roundings n in
  accurate_libm L -> accurate_log10 L ->
  ordinary lr0 lr1 NRho -> ordinary lt0 lt1 NT -> ordinary y0 y1 NYe ->
  extent (real_grid lr0 lr1 NRho) <= 30 -> extent (real_grid lt0 lt1 NT) <= 30 ->
  @mk_grid b64 O y0 y1 NYe = Ok gYe -> @mk_grid b64 O lt0 lt1 NT = Ok gT -> @mk_grid b64 O lr0 lr1 NRho = Ok gRho ->
  (forall a b y type, (Z.of_nat a < NRho)%Z -> (Z.of_nat b < NT)%Z -> (Z.of_nat y < NYe)%Z -> (0 <= RadType2Idx type < 3)%Z ->
     (forall i, (i < n)%nat -> coef (rho a) (temp b) (Ye y) type (nu i) = Ok (alpha a b y type i) /\
        dist (temp b) type (nu i) = Ok (B b type i) /\ ddist (temp b) type (nu i) = Ok (D b type i)) /\
     nu_regular n (alpha a b y type) (B b type) (D b type) nu dl) ->
  exists m, @nu_impl b64 O pc coef dist ddist false lr0 lr1 NRho lt0 lt1 NT y0 y1 NYe range N = Ok m /\
  forall a b y type, (Z.of_nat a < NRho)%Z -> (Z.of_nat b < NT)%Z -> (Z.of_nat y < NYe)%Z -> (0 <= RadType2Idx type < 3)%Z ->
    let k := fun i => B2R (alpha a b y type i) / B2R (rho a) in
    returns (@nm_Planck b64 O m (rho a) (temp b) (Ye y) type) roundings
      (B2R (rho a) * arithmetic_mean n (fun i => B2R (B b type i) * B2R (nu i) * B2R dl) k) /\
    returns (@nm_Rosseland b64 O m (rho a) (temp b) (Ye y) type) roundings
      (B2R (rho a) * harmonic_mean n (fun i => B2R (D b type i) * B2R (nu i) * B2R dl) k).
Proof. exact C63_nu_table_proof. Qed.
Print Assumptions C63_nu_table.

(** A table with two densities, two temperatures and one group, asked at density 5 and
    temperature 2*10^7, between the nodes: C63_photon and C63_between. *)
Example C63_photon_example_holds :
  exists L F b gR gT ng f rho temp group yR yT r m M,
  accurate_libm L /\ accurate_log10 L /\ 1 <= F <= 250 /\ holds64 L F b [Axis gR; Axis gT; Index ng] f /\ physical rho /\ physical temp /\
  (0 <= group < ng)%Z /\ coordinate 16 gR (log10 (B2R rho)) yR /\ coordinate 16 gT (log10 (B2R temp)) yT /\
  interpolates [Pos yR; Pos yT; Num group] [Axis gR; Axis gT; Index ng] f r /\
  (forall is, Tables.near [Pos yR; Pos yT; Num group] [Axis gR; Axis gT; Index ng] is -> m <= f is <= M) /\
  B2R rho = 5 /\ B2R temp = 20000000.
Proof. exact C63_photon_example. Qed.

(** Four stored numbers 1, 10, 3 and 7 on that grid: C63_stored. *)
Example C63_stored_example_holds :
  exists L F lr0 lr1 lt0 lt1 NRho NT ng gT gRho ps,
  let O := B64_ops L in
  accurate_libm L /\ accurate_log10 L /\ 1 <= F <= 240 /\
  ordinary lr0 lr1 NRho /\ ordinary lt0 lt1 NT /\ extent (real_grid lr0 lr1 NRho) <= 30 /\ extent (real_grid lt0 lt1 NT) <= 30 /\
  @mk_grid b64 O lt0 lt1 NT = Ok gT /\ @mk_grid b64 O lr0 lr1 NRho = Ok gRho /\
  Z.of_nat (List.length ps) = (NRho * NT * ng)%Z /\
  (forall p, In p ps -> is_finite p = true /\ 0 < B2R p /\ Rabs (log10 (B2R p)) <= F) /\ map (fun p : b64 => B2R p) ps = [1; 10; 3; 7].
Proof. exact C63_stored_example. Qed.

(** Two densities, temperatures and electron fractions and the three species, asked at density
    5, temperature 2*10^7 and electron fraction 1/4: C63_neutrino. *)
Example C63_neutrino_example_holds :
  exists L F b gR gT gY f (rho temp Ye : b64) type yR yT yY r,
  accurate_libm L /\ accurate_log10 L /\ 1 <= F <= 250 /\
  holds64 L F b [Axis gR; Axis gT; Axis gY; Index 3] f /\ physical rho /\ physical temp /\ is_finite Ye = true /\
  coordinate 16 gR (log10 (B2R rho)) yR /\ coordinate 16 gT (log10 (B2R temp)) yT /\ coordinate 16 gY (B2R Ye) yY /\
  interpolates [Pos yR; Pos yT; Pos yY; Num (RadType2Idx type)] [Axis gR; Axis gT; Axis gY; Index 3] f r /\
  B2R rho = 5 /\ B2R temp = 20000000 /\ B2R Ye = 1 / 4 /\ List.length (db_data b) = 24%nat.
Proof. exact C63_neutrino_example. Qed.

(** Neutrino absorption averaged over two frequencies between 10^17 and 10^19 Hz, constant
    distributions, an opacity equal to the frequency: C63_nu_table. *)
Example C63_nu_table_example_holds :
  exists L coef dist ddist lr0 lr1 lt0 lt1 y0 y1 NRho NT NYe N l0 l1 gYe gT gRho alpha B D,
  let O := B64_ops L in
  let n := Z.to_nat N in
  let dl := @Odiv b64 O (@Osub b64 O l1 l0) (@OofZ b64 O N) in
  let nu := fun i => @FromLog b64 O (@Oadd b64 O l0 (@Omul b64 O (@Oadd b64 O (@OofZ b64 O (Z.of_nat i)) (@Odec b64 O 5 (-1))) dl)) in
  let rho := fun a => @FromLog b64 O (@g_x b64 O gRho (Z.of_nat a)) in
  let temp := fun b => @FromLog b64 O (@g_x b64 O gT (Z.of_nat b)) in
  let Ye := fun y => @g_x b64 O gYe (Z.of_nat y) in
  n = 2%nat /\ accurate_libm L /\ accurate_log10 L /\
  ordinary lr0 lr1 NRho /\ ordinary lt0 lt1 NT /\ ordinary y0 y1 NYe /\
  extent (real_grid lr0 lr1 NRho) <= 30 /\ extent (real_grid lt0 lt1 NT) <= 30 /\
  @mk_grid b64 O y0 y1 NYe = Ok gYe /\ @mk_grid b64 O lt0 lt1 NT = Ok gT /\ @mk_grid b64 O lr0 lr1 NRho = Ok gRho /\
  (forall a b y type, (Z.of_nat a < NRho)%Z -> (Z.of_nat b < NT)%Z -> (Z.of_nat y < NYe)%Z -> (0 <= RadType2Idx type < 3)%Z ->
     (forall i, (i < n)%nat -> coef (rho a) (temp b) (Ye y) type (nu i) = Ok (alpha a b y type i) /\
        dist (temp b) type (nu i) = Ok (B b type i) /\ ddist (temp b) type (nu i) = Ok (D b type i)) /\
     nu_regular n (alpha a b y type) (B b type) (D b type) nu dl).
Proof. exact C63_nu_table_example. Qed.

(** Two samples in the group from 10^17 to 10^19 Hz, densities 1 and 10, temperatures 10^7 and
    10^8 K, an opacity equal to the frequency: C63_builds and, with the table it builds,
    C63_table. *)
Example C63_builds_example_holds :
  exists L pc opc coef lr0 lr1 lt0 lt1 NRho NT ng N gb gT gRho alpha,
  let O := B64_ops L in
  let n := Z.to_nat N in
  let rho := fun a => @FromLog b64 O (@g_x b64 O gRho (Z.of_nat a)) in
  let temp := fun b => @FromLog b64 O (@g_x b64 O gT (Z.of_nat b)) in
  let win := fun b lo hi => @sample_window b64 O pc (temp b) lo hi in
  let nu := fun b lo hi => @sample_nu b64 O (win b lo hi) N in
  let B := fun b lo hi i => fst (@ThermalWeightsAtNu b64 O pc (temp b) (nu b lo hi i)) in
  let D := fun b lo hi i => snd (@ThermalWeightsAtNu b64 O pc (temp b) (nu b lo hi i)) in
  let d := fun b lo hi i => @Omul b64 O (nu b lo hi i) (@sample_dlnu b64 O (win b lo hi) N) in
  accurate_libm L /\ accurate_log10 L /\ @RuntimePC_eqb b64 O (@RuntimePC_of b64 O pc) opc = true /\ N = 2%Z /\ @ValidateGroupBounds b64 O gb ng = Ok tt /\
  ordinary lr0 lr1 NRho /\ ordinary lt0 lt1 NT /\ extent (real_grid lr0 lr1 NRho) <= 30 /\ extent (real_grid lt0 lt1 NT) <= 30 /\
  @mk_grid b64 O lt0 lt1 NT = Ok gT /\ @mk_grid b64 O lr0 lr1 NRho = Ok gRho /\
  (forall a b c lo hi, (Z.of_nat a < NRho)%Z -> (Z.of_nat b < NT)%Z -> (Z.of_nat c < ng)%Z ->
     nth_error gb c = Some lo -> nth_error gb (S c) = Some hi ->
     (forall i, (i < n)%nat -> coef (rho a) (temp b) (nu b lo hi i) = Ok (alpha a b c i)) /\
     regular n (alpha a b c) (B b lo hi) (D b lo hi) (d b lo hi)) /\
  exists m, @MeanImpl b64 O pc true opc coef lr0 lr1 NRho lt0 lt1 NT gb ng N = Ok m.
Proof. exact C63_builds_example. Qed.
