(** C66: the totals of NuLib files in double precision. *)
From Coquelicot Require Import Coquelicot.
From Coq Require Import Reals ZArith List Lra Lia Bool.
From Flocq Require Import Core IEEE754.BinarySingleNaN.
From Verif Require Import Proofs.C66 Base.Outcome Base.Ops Inst.B64 Model.RadTypes Model.Constants Model.NeutrinoApi Model.MeanUtils Model.Spiner Model.SpinerNeutrinos
  Spec.Means Spec.Tables Spec.Tabulated Spec.DoublePrecision Spec.DoubleTables Spec.DoubleSpiner Spec.DoubleNuLib Proofs.B64Facts Proofs.FillFacts
  Proofs.Near Proofs.NearConsts Proofs.NearRules Proofs.NarrowGroup Proofs.SpinerFacts Proofs.DoubleTables Proofs.DoubleLookup Proofs.DoubleSpiner Proofs.C63 Proofs.C64
  Proofs.NuLibFacts Proofs.C56 Proofs.DoubleMeans Proofs.DoubleNuLib.
Import ListNotations.
Open Scope R_scope.

(** Loading a NuLib file of three species in double precision. If the numbers of the dataset
    that the loader takes for the emissivities (the absorption dataset, finding C41) are
    between 10^-F and 10^F, the file is loaded, and at the nodes the emissivities are those
    numbers in the units of the opacity, and the totals their sums over the groups (which lack
    the factor ln 10, finding C41), up to roundings: one for each group in the sums, and those
    of a lookup. Nothing is said of the absorption coefficients, which are never read. *)
Theorem C66_load :
  forall (L : Libm) (fresh : nat -> b64) (F : R) (NR NT NY NE : Z) (rhos temps yes energies emissivities absorption : list b64)
    (r0 r1 T0 T1 y0 y1 e0 e1 : b64) (gR gT gY ge : Grid b64),
  let O := B64_ops L in
  let pc := @PhysicalConstantsCGS b64 O in
  let lg := @Olog10 b64 O in
  let rR := real_grid (lg r0) (lg r1) NR in
  let rT := real_grid (lg T0) (lg T1) NT in
  let rY := real_grid y0 y1 NY in
  let rE := real_grid (lg e0) (lg e1) NE in
  let rho := fun a => @sp_fromLog b64 O (@g_x b64 O gR (Z.of_nat a)) in
  let temp := fun b => @Omul b64 O (@sp_fromLog b64 O (@g_x b64 O gT (Z.of_nat b))) (@sp_MeV2K b64 O) in
  let Ye := fun y => @g_x b64 O gY (Z.of_nat y) in
  let nu := fun e => @Omul b64 O (@sp_MeV2Hz b64 O pc) (@sp_fromLog b64 O (@g_x b64 O ge (Z.of_nat e))) in
  let total := cells rR + cells rT + cells rY in
  let all := total + cells rE in
  let size := (NE * 3 * NY * NT * NR)%Z in
  let MeV := 10 ^ 6 * eV_cgs in
  accurate_libm L -> accurate_log10 L -> 1 <= F <= 170 ->
  spans rhos NR r0 r1 -> spans temps NT T0 T1 -> spans yes NY y0 y1 -> spans energies NE e0 e1 ->
  Z.of_nat (List.length emissivities) = size -> Z.of_nat (List.length absorption) = size -> (forall x, In x absorption -> storable F x) ->
  ordinary (lg r0) (lg r1) NR -> ordinary (lg T0) (lg T1) NT -> ordinary y0 y1 NY -> ordinary (lg e0) (lg e1) NE ->
  extent rR <= 29 -> extent rT <= 18 -> extent rE <= 8 ->
  @mk_grid b64 O (lg r0) (lg r1) NR = Ok gR -> @mk_grid b64 O (lg T0) (lg T1) NT = Ok gT ->
  @mk_grid b64 O y0 y1 NY = Ok gY -> @mk_grid b64 O (lg e0) (lg e1) NE = Ok ge ->
  exists t, @LoadFromNuLib b64 O pc fresh (Some (nulib64 NR NT NY NE rhos temps yes energies emissivities absorption)) = Ok t /\
  forall a b y type, (Z.of_nat a < NR)%Z -> (Z.of_nat b < NT)%Z -> (Z.of_nat y < NY)%Z -> (0 <= RadType2Idx type < 3)%Z ->
    let j := fun e => B2R (nth (where64 NR NT NY a b y (RadType2Idx type) e) absorption (b64_of_Z 0)) in
    returns (@sp_Emissivity b64 O t (rho a) (temp b) (Ye y) type) (600 * (F + 30) * total + 2 * IZR NE)
      (rg_dx rE * rsum (Z.to_nat NE) (fun e => 4 * PI * j e * pow10 (rg_node rE (Z.of_nat e)))) /\
    returns (@sp_NumberEmissivity b64 O t (rho a) (temp b) (Ye y) type) (600 * (F + 30) * total + 2 * IZR NE)
      (rg_dx rE * rsum (Z.to_nat NE) (fun e => 4 * PI * j e / MeV)) /\
    forall e, (Z.of_nat e < NE)%Z ->
      returns (@sp_EmissivityPerNuOmega b64 O pc t (rho a) (temp b) (Ye y) type (nu e)) (600 * (F + 30) * all) (h_cgs * j e / MeV) /\
      returns (@sp_EmissivityPerNu b64 O pc t (rho a) (temp b) (Ye y) type (nu e)) (600 * (F + 30) * all + 4) (4 * PI * (h_cgs * j e / MeV)).
Proof. exact C66_load_proof. Qed.
Print Assumptions C66_load.

(** A file of two densities, temperatures, electron fractions and groups, whose 48 numbers run
    1, 2, 3, 4, 1, 2, ... *)
Example C66_load_example_holds :
  exists (L : Libm) (fresh : nat -> b64) (F : R) (NR NT NY NE : Z) (rhos temps yes energies emissivities absorption : list b64)
    (r0 r1 T0 T1 y0 y1 e0 e1 : b64) (gR gT gY ge : Grid b64),
  let O := B64_ops L in
  let lg := @Olog10 b64 O in
  let size := (NE * 3 * NY * NT * NR)%Z in
  accurate_libm L /\ accurate_log10 L /\ 1 <= F <= 170 /\
  spans rhos NR r0 r1 /\ spans temps NT T0 T1 /\ spans yes NY y0 y1 /\ spans energies NE e0 e1 /\
  Z.of_nat (List.length emissivities) = size /\ Z.of_nat (List.length absorption) = size /\ (forall x, In x absorption -> storable F x) /\
  ordinary (lg r0) (lg r1) NR /\ ordinary (lg T0) (lg T1) NT /\ ordinary y0 y1 NY /\ ordinary (lg e0) (lg e1) NE /\
  extent (real_grid (lg r0) (lg r1) NR) <= 29 /\ extent (real_grid (lg T0) (lg T1) NT) <= 18 /\ extent (real_grid (lg e0) (lg e1) NE) <= 8 /\
  @mk_grid b64 O (lg r0) (lg r1) NR = Ok gR /\ @mk_grid b64 O (lg T0) (lg T1) NT = Ok gT /\
  @mk_grid b64 O y0 y1 NY = Ok gY /\ @mk_grid b64 O (lg e0) (lg e1) NE = Ok ge /\
  (forall k, (k < 48)%nat -> B2R (nth k absorption r0) = 1 + INR (k mod 4)).
Proof. exact C66_load_example. Qed.
