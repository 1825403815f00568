(** Model of photons/mean_opacity_photons.hpp (MeanOpacity) and
    photons/mean_s_opacity_photons.hpp (MeanSOpacity). The two classes have the same
    code up to names and the monochromatic call averaged (AbsorptionCoefficient /
    TotalScatteringCoefficient); it is modelled once, the citations are
    "absorption lines / scattering lines". Not modelled: PrintParams, Finalize, lambda,
    default-constructed objects. *)
From Coq Require Import ZArith List Bool.
From Verif Require Import Base.Outcome Base.Ops Model.Constants Model.Robust
  Model.ThermalPhotons Model.Spiner Model.MeanUtils.
Import ListNotations.
Open Scope ops_scope.

Section MeanPhotons.
  Context {T : Type} {O : Ops T} (pc : PhysConst T).

  (** data members, 404-407 / 346-349 *)
  Record MeanTable := {
    mt_lPlanck : DataBox T;
    mt_lRosseland : DataBox T;
    mt_bounds : list T;
    mt_ngroups : Z;
  }.

  (** ** Lookup *)

  (** GroupAbsorptionCoefficient_, 256-262 / 198-204 *)
  Definition group_coefficient (l : DataBox T) (rho temp : T) (group : Z) : result T :=
    let lRho := ToLog rho in
    let lT := ToLog temp in
    v <- interpToReal l [Along lRho; Along lT; At group] ;;
    Ok (rho * FromLog v).

  (** PlanckGroupAbsorptionCoefficient, 192-196 / 148-152 *)
  Definition mt_PlanckGroup (m : MeanTable) := group_coefficient (mt_lPlanck m).
  (** RosselandGroupAbsorptionCoefficient, 198-202 / 154-158 *)
  Definition mt_RosselandGroup (m : MeanTable) := group_coefficient (mt_lRosseland m).
  (** AbsorptionCoefficient(rho, temp, group, gmode), 204-210 / 160-166 *)
  Definition mt_Coefficient (m : MeanTable) (rho temp : T) (group gmode : Z) : result T :=
    if (gmode =? Planck)%Z then mt_PlanckGroup m rho temp group
    else mt_RosselandGroup m rho temp group.

  (** GroupOfNu, 226-233 / 168-175; both bounds are read only if the first comparison holds *)
  Definition mt_GroupOfNu (m : MeanTable) (nu : T) : result Z :=
    b0 <- GroupBoundAt (mt_bounds m) 0 ;;
    inside <- (if Ogeb nu b0 then
                 bn <- GroupBoundAt (mt_bounds m) (mt_ngroups m) ;; Ok (nu <=? bn)
               else Ok false) ;;
    if negb inside then Error
    else GroupOfNuImpl (mt_bounds m) (mt_ngroups m) nu.

  (** AbsorptionCoefficientFromNu, 248-253 / 190-195 *)
  Definition mt_CoefficientFromNu (m : MeanTable) (rho temp nu : T) (gmode : Z) : result T :=
    g <- mt_GroupOfNu m nu ;; mt_Coefficient m rho temp g gmode.
  (** PlanckGroupAbsorptionCoefficientFromNu, 235-239 / 177-181 *)
  Definition mt_PlanckFromNu (m : MeanTable) (rho temp nu : T) : result T :=
    mt_CoefficientFromNu m rho temp nu Planck.
  (** RosselandGroupAbsorptionCoefficientFromNu, 241-246 / 183-188 *)
  Definition mt_RosselandFromNu (m : MeanTable) (rho temp nu : T) : result T :=
    mt_CoefficientFromNu m rho temp nu Rosseland.

  (** ** Gray calls, absorption only. [dbg]: PORTABLE_REQUIRE is active (not NDEBUG). *)

  (** PlanckMeanAbsorptionCoefficient, 170-178 *)
  Definition mt_PlanckMean (dbg : bool) (m : MeanTable) (rho temp : T) : result T :=
    if dbg && negb (mt_ngroups m =? 1)%Z then Error else mt_PlanckGroup m rho temp 0.
  (** RosselandMeanAbsorptionCoefficient, 181-190 *)
  Definition mt_RosselandMean (dbg : bool) (m : MeanTable) (rho temp : T) : result T :=
    if dbg && negb (mt_ngroups m =? 1)%Z then Error else mt_RosselandGroup m rho temp 0.
  (** Emissivity, 215-224 *)
  Definition mt_Emissivity (m : MeanTable) (rho temp : T) (gmode : Z) : result T :=
    if negb (mt_ngroups m =? 1)%Z then Error else
    let B := planck_T pc temp in
    a <- mt_Coefficient m rho temp 0 gmode ;;
    Ok (a * B).
  (** GetGroupBounds, 156-162 *)
  Definition mt_GetGroupBounds (m : MeanTable) : result (list T) :=
    SetGroupBounds (mt_bounds m) (mt_ngroups m).
  (** GetRuntimePhysicalConstants, 145-148 / 137-140 *)
  Definition mt_RPC : RuntimePC T := RuntimePC_of pc.
  (** GetOnDevice, 130-137 / 122-129: a copy *)
  Definition mt_GetOnDevice (m : MeanTable) : MeanTable :=
    {| mt_lPlanck := mt_lPlanck m; mt_lRosseland := mt_lRosseland m;
       mt_bounds := mt_bounds m; mt_ngroups := mt_ngroups m |}.

  (** ** Construction from tables *)

  (** ValidateOpacityTables_, 264-281 / 206-223 *)
  Definition validate_tables (p r : DataBox T) : result unit :=
    if negb (db_rank p =? 3)%Z || negb (db_rank r =? 3)%Z then Error else
    if negb (db_dim p 1 =? db_dim r 1)%Z || negb (db_dim p 2 =? db_dim r 2)%Z ||
       negb (db_dim p 3 =? db_dim r 3)%Z then Error else
    if (db_dim p 1 <=? 0)%Z then Error else
    if range_neqb (db_range p 1) (db_range r 1) || range_neqb (db_range p 2) (db_range r 2)
    then Error else Ok tt.

  (** the copy loops 293-296, 303-306 / 235-238, 245-248: [n] elements of each table *)
  Definition map_tables (f : T -> T) (n : Z) (p r : list T) : result (list T * list T) :=
    for_int n (fun i acc =>
      a <- at_flat p (Z.of_nat i) ;;
      b <- at_flat r (Z.of_nat i) ;;
      Ok (fst acc ++ [f a], snd acc ++ [f b])) ([], []).

  (** copyMetadata: same dimensions and ranges *)
  Definition with_data (b : DataBox T) (d : list T) : DataBox T :=
    {| db_dims := db_dims b; db_ranges := db_ranges b; db_data := d |}.

  (** LoadOpacityTables_, 283-297 / 225-239; also the constructor 62-69 / 60-64 *)
  Definition LoadTables (p r : DataBox T) (gb : list T) : result MeanTable :=
    _ <- validate_tables p r ;;
    let ng := db_dim p 1 in
    _ <- ValidateGroupBounds gb ng ;;
    bounds <- SetGroupBounds gb ng ;;
    d <- map_tables ToLog (db_size p) (db_data p) (db_data r) ;;
    Ok {| mt_lPlanck := with_data p (fst d); mt_lRosseland := with_data r (snd d);
          mt_bounds := bounds; mt_ngroups := ng |}.

  (** ExportOpacityTables_, 299-307 / 241-249, and ExportGroupBounds: what Save writes *)
  Definition ExportTables (m : MeanTable) : result (DataBox T * DataBox T * list T) :=
    d <- map_tables FromLog (db_size (mt_lPlanck m)) (db_data (mt_lPlanck m))
           (db_data (mt_lRosseland m)) ;;
    bounds <- SetGroupBounds (mt_bounds m) (mt_ngroups m) ;;
    Ok (with_data (mt_lPlanck m) (fst d), with_data (mt_lRosseland m) (snd d), bounds).

  (** ** Files. An HDF5 file holds named datasets; [None]: loadHDF/saveHDF/H5Fopen report
      a non-zero status. Only the three datasets of the class are modelled. *)
  Record MeanFile := {
    mf_planck : option (DataBox T);
    mf_rosseland : option (DataBox T);
    mf_bounds : option (list T);
  }.

  (** constructor from a file, 72-96 / 67-88; [None]: the file cannot be opened. The
      statuses are added and tested once, at the end; with a failed status nothing of
      the loaded boxes is used. *)
  Definition LoadFile (f : option MeanFile) : result MeanTable :=
    match f with
    | Some {| mf_planck := Some p; mf_rosseland := Some r; mf_bounds := Some gb |} =>
      LoadTables p r gb
    | _ => Error
    end.

  (** Save, 98-122 / 90-114; [io]: all HDF5 calls succeeded *)
  Definition Save (io : bool) (m : MeanTable) : result MeanFile :=
    e <- ExportTables m ;;
    let '(p, r, b) := e in
    if io then Ok {| mf_planck := Some p; mf_rosseland := Some r; mf_bounds := Some b |}
    else Error.

  (** ** Construction by averaging, 309-402 / 251-344 *)

  (** first pass, 342-358 / 284-300: the two denominators of a group *)
  Definition group_denoms (temp nuMin nuMax : T) (N : Z) : result (T * T) :=
    ForEachGroupFrequencySample pc temp nuMin nuMax N (fun nu dnu acc =>
      let w := ThermalWeightsAtNu pc temp nu in
      Ok (fst acc + fst w * dnu, snd acc + snd w * dnu)) (#0, #0).

  (** second pass, 365-382 / 307-324: the two numerators; [coef] is the monochromatic
      coefficient of the averaged opacity *)
  Definition group_nums (coef : T -> T -> T -> result T) (rho temp nuMin nuMax : T) (N : Z)
    : result (T * T) :=
    ForEachGroupFrequencySample pc temp nuMin nuMax N (fun nu dnu acc =>
      alpha <- coef rho temp nu ;;
      let w := ThermalWeightsAtNu pc temp nu in
      let pn := fst acc + alpha / rho * fst w * dnu in
      let rn := if Ogtb alpha SMALL then snd acc + ratio rho alpha * snd w * dnu
                else snd acc in
      Ok (pn, rn)) (#0, #0).

  (** 384-391 / 326-333 *)
  Definition planck_mean (num denom : T) : T := ratio num denom.
  Definition rosseland_mean (num denom : T) : T :=
    if Ogtb denom SMALL && Ogtb num SMALL then ratio denom num else #0.

  (** lkappa(iRho, iT, group) *)
  Definition cell (NT ngroups : Z) (iRho iT g : nat) : Z :=
    ((Z.of_nat iRho * NT + Z.of_nat iT) * ngroups + Z.of_nat g)%Z.

  (** the body of the innermost loop, 364-399 / 306-341 *)
  Definition fill_cell (coef : T -> T -> T -> result T) (gb : list T) (NT ngroups N : Z)
    (denoms : list (T * T)) (rho temp : T) (iRho iT g : nat) (st : list T * list T)
    : result (list T * list T) :=
    nuMin <- GroupBoundAt gb (Z.of_nat g) ;;
    nuMax <- GroupBoundAt gb (Z.of_nat g + 1) ;;
    n <- group_nums coef rho temp nuMin nuMax N ;;
    d <- load denoms g ;;
    let lp := ToLog (planck_mean (fst n) (fst d)) in
    let lr := ToLog (rosseland_mean (snd n) (snd d)) in
    p <- set_flat (fst st) (cell NT ngroups iRho iT g) lp ;;
    r <- set_flat (snd st) (cell NT ngroups iRho iT g) lr ;;
    if Oisnan lp || Oisnan lr then Error else Ok (p, r).

  (** the fill loops 338-401 / 280-343 on the data of the two tables *)
  Definition fill_tables (coef : T -> T -> T -> result T) (gb : list T) (gRho gT : Grid T)
    (NRho NT ngroups N : Z) (st : list T * list T) : result (list T * list T) :=
    for_int NT (fun iT st =>
      let temp := FromLog (g_x gT (Z.of_nat iT)) in
      denoms <- for_int ngroups (fun g ds =>
        nuMin <- GroupBoundAt gb (Z.of_nat g) ;;
        nuMax <- GroupBoundAt gb (Z.of_nat g + 1) ;;
        d <- group_denoms temp nuMin nuMax N ;;
        Ok (ds ++ [d])) [] ;;
      for_int NRho (fun iRho st =>
        let rho := FromLog (g_x gRho (Z.of_nat iRho)) in
        for_int ngroups (fun g st =>
          fill_cell coef gb NT ngroups N denoms rho temp iRho iT g st) st) st) st.

  (** MeanOpacityImpl_, with the constructor 53-60 / 51-58. [opc] are the runtime
      constants of the averaged opacity, compared in debug builds only. Freshly resized
      storage is modelled as zeros; every cell is written before the object exists. *)
  Definition MeanImpl (dbg : bool) (opc : RuntimePC T) (coef : T -> T -> T -> result T)
    (lRhoMin lRhoMax : T) (NRho : Z) (lTMin lTMax : T) (NT : Z)
    (gb : list T) (ngroups N : Z) : result MeanTable :=
    if dbg && negb (RuntimePC_eqb (RuntimePC_of pc) opc) then Error else
    if (N <? 2)%Z then Error else
    _ <- ValidateGroupBounds gb ngroups ;;
    bounds <- SetGroupBounds gb ngroups ;;
    gT <- mk_grid lTMin lTMax NT ;;
    gRho <- mk_grid lRhoMin lRhoMax NRho ;;
    let z := repeat #0 (Z.to_nat (NRho * NT * ngroups)) in
    d <- fill_tables coef gb gRho gT NRho NT ngroups N (z, z) ;;
    let box := fun data => {| db_dims := [ngroups; NT; NRho];
                              db_ranges := [None; Some gT; Some gRho];
                              db_data := data |} in
    Ok {| mt_lPlanck := box (fst d); mt_lRosseland := box (snd d);
          mt_bounds := bounds; mt_ngroups := ngroups |}.
End MeanPhotons.

Arguments MeanTable : clear implicits.
Arguments MeanFile : clear implicits.
