(** Model of neutrinos/mean_opacity_neutrinos.hpp (MeanOpacity) and
    neutrinos/mean_s_opacity_neutrinos.hpp (MeanSOpacity). Citations are
    "absorption lines / scattering lines". Not modelled: PrintParams, Finalize, lambda,
    filename_, default-constructed objects. *)
From Coq Require Import ZArith List Bool.
From Verif Require Import Base.Outcome Base.Ops Model.Constants Model.Robust Model.RadTypes
  Model.Spiner Model.MeanUtils.
Import ListNotations.
Open Scope ops_scope.

Section MeanNeutrinos.
  Context {T : Type} {O : Ops T} (pc : PhysConst T).

  (** data members, 224-225 / 214-215 *)
  Record NuMeanTable := { nm_lPlanck : DataBox T; nm_lRosseland : DataBox T }.

  (** ** Lookup. toLog_ / fromLog_, 218-223 / 208-213, are ToLog / FromLog of MeanUtils. *)
  Definition nm_lookup (l : DataBox T) (rho temp Ye : T) (type : RadiationType) : result T :=
    let lRho := ToLog rho in
    let lT := ToLog temp in
    let idx := RadType2Idx type in
    v <- interpToReal l [Along lRho; Along lT; Along Ye; At idx] ;;
    Ok (rho * FromLog v).
  (** PlanckMean..., 116-124 / 111-119; RosselandMean..., 126-134 / 121-129 *)
  Definition nm_Planck (m : NuMeanTable) := nm_lookup (nm_lPlanck m).
  Definition nm_Rosseland (m : NuMeanTable) := nm_lookup (nm_lRosseland m).
  (** GetOnDevice, 99-104 / 99-104 *)
  Definition nm_GetOnDevice (m : NuMeanTable) : NuMeanTable :=
    {| nm_lPlanck := nm_lPlanck m; nm_lRosseland := nm_lRosseland m |}.
  (** GetRuntimePhysicalConstants, 111-114 (absorption only) *)
  Definition nm_RPC : RuntimePC T := RuntimePC_of pc.

  (** ** Files: constructor 67-78 / 67-78 and Save 80-92 / 80-92. The log tables
      themselves are written and read, nothing is checked but the HDF5 statuses. *)
  Record NuMeanFile := { nf_planck : option (DataBox T); nf_rosseland : option (DataBox T) }.
  Definition NuLoadFile (f : option NuMeanFile) : result NuMeanTable :=
    match f with
    | Some {| nf_planck := Some p; nf_rosseland := Some r |} =>
      Ok {| nm_lPlanck := p; nm_lRosseland := r |}
    | _ => Error
    end.
  Definition NuSave (io : bool) (m : NuMeanTable) : result NuMeanFile :=
    if io then Ok {| nf_planck := Some (nm_lPlanck m); nf_rosseland := Some (nm_lRosseland m) |}
    else Error.

  (** ** Construction by averaging, 137-217 / 132-207 *)

  (** default frequency range, 173-176 / 164-167 *)
  Definition auto_range (lTMin lTMax : T) : T * T :=
    (ToLog (Odec 1 (-3) * pc_kb pc * FromLog lTMin / pc_h pc),
     ToLog (#1000 * pc_kb pc * FromLog lTMax / pc_h pc)).

  (** the monochromatic quantities averaged: coefficient (rho temp Ye type nu), thermal
      distribution and its derivative (temp type nu). Absorption takes all three from the
      opacity, scattering the last two from its own template argument *)
  Context (coef : T -> T -> T -> RadiationType -> T -> result T)
          (dist ddist : T -> RadiationType -> T -> result T).

  (** num Planck, denom Planck, num Rosseland, denom Rosseland *)
  Record sums := { s_pn : T; s_pd : T; s_rn : T; s_rd : T }.

  (** one frequency, 180-195 / 171-185 *)
  Definition nu_step (rho temp Ye : T) (type : RadiationType) (lNuMin dlnu : T) (inu : nat)
    (a : sums) : result sums :=
    let lnu := lNuMin + (#(Z.of_nat inu) + Odec 5 (-1)) * dlnu in
    let nu := FromLog lnu in
    alpha <- coef rho temp Ye type nu ;;
    B <- dist temp type nu ;;
    dBdT <- ddist temp type nu ;;
    let pn := s_pn a + alpha / rho * B * nu * dlnu in
    let pd := s_pd a + B * nu * dlnu in
    Ok (if Ogtb alpha SMALL then
          {| s_pn := pn; s_pd := pd;
             s_rn := s_rn a + ratio rho alpha * dBdT * nu * dlnu;
             s_rd := s_rd a + dBdT * nu * dlnu |}
        else {| s_pn := pn; s_pd := pd; s_rn := s_rn a; s_rd := s_rd a |}).

  (** 198-205 / 187-194 *)
  Definition nu_means (a : sums) : T * T :=
    let kP := ratio (s_pn a) (s_pd a) in
    (kP, if Ogtb kP SMALL && Ogtb (s_rn a) SMALL then ratio (s_rd a) (s_rn a) else #0).

  (** lkappa(iRho, iT, iYe, idx) *)
  Definition nu_cell (NT NYe : Z) (iRho iT iYe idx : nat) : Z :=
    (((Z.of_nat iRho * NT + Z.of_nat iT) * NYe + Z.of_nat iYe) * NEUTRINO_NTYPES
     + Z.of_nat idx)%Z.

  (** 207-212 / 195-201 *)
  Definition nu_store (c : Z) (a : sums) (st : list T * list T) : result (list T * list T) :=
    let lp := ToLog (fst (nu_means a)) in
    let lr := ToLog (snd (nu_means a)) in
    p <- set_flat (fst st) c lp ;;
    r <- set_flat (snd st) c lr ;;
    if Oisnan lp || Oisnan lr then Error else Ok (p, r).

  Definition zero_sums : sums := {| s_pn := #0; s_pd := #0; s_rn := #0; s_rd := #0 |}.

  (** the body of the loop over species. [inside] = false: absorption, 166-213, the means
      are formed after the frequency loop. [inside] = true: scattering, 157-203, they are
      formed and stored inside it, after every frequency. *)
  Definition nu_fill (inside : bool) (rho temp Ye lNuMin lNuMax : T) (NNu NT NYe : Z)
    (iRho iT iYe idx : nat) (st : list T * list T) : result (list T * list T) :=
    type <- Idx2RadType (Z.of_nat idx) ;;
    let dlnu := (lNuMax - lNuMin) / #NNu in
    let c := nu_cell NT NYe iRho iT iYe idx in
    if inside then
      e <- for_int NNu (fun inu e =>
             a <- nu_step rho temp Ye type lNuMin dlnu inu (fst e) ;;
             st <- nu_store c a (snd e) ;;
             Ok (a, st)) (zero_sums, st) ;;
      Ok (snd e)
    else
      a <- for_int NNu (nu_step rho temp Ye type lNuMin dlnu) zero_sums ;;
      nu_store c a st.

  (** the loops 157-216 / 148-206 *)
  Definition nu_fill_tables (inside : bool) (gRho gT gYe : Grid T) (NRho NT NYe : Z)
    (lNuMin lNuMax : T) (NNu : Z) (st : list T * list T) : result (list T * list T) :=
    for_int NRho (fun iRho st =>
      let rho := FromLog (g_x gRho (Z.of_nat iRho)) in
      for_int NT (fun iT st =>
        let temp := FromLog (g_x gT (Z.of_nat iT)) in
        for_int NYe (fun iYe st =>
          let Ye := g_x gYe (Z.of_nat iYe) in
          for_int NEUTRINO_NTYPES (fun idx st =>
            nu_fill inside rho temp Ye lNuMin lNuMax NNu NT NYe iRho iT iYe idx st) st) st) st) st.

  (** MeanOpacityImpl_ / MeanSOpacityImpl_. [range] = None: AUTOFREQ. Freshly resized
      storage is modelled as zeros. *)
  Definition nu_impl (inside : bool) (lRhoMin lRhoMax : T) (NRho : Z) (lTMin lTMax : T) (NT : Z)
    (YeMin YeMax : T) (NYe : Z) (range : option (T * T)) (NNu : Z) : result NuMeanTable :=
    gYe <- mk_grid YeMin YeMax NYe ;;
    gT <- mk_grid lTMin lTMax NT ;;
    gRho <- mk_grid lRhoMin lRhoMax NRho ;;
    let z := repeat #0 (Z.to_nat (NRho * NT * NYe * NEUTRINO_NTYPES)) in
    let r := match range with Some r => r | None => auto_range lTMin lTMax end in
    d <- nu_fill_tables inside gRho gT gYe NRho NT NYe (fst r) (snd r) NNu (z, z) ;;
    let box := fun data => {| db_dims := [NEUTRINO_NTYPES; NYe; NT; NRho];
                              db_ranges := [None; Some gYe; Some gT; Some gRho];
                              db_data := data |} in
    Ok {| nm_lPlanck := box (fst d); nm_lRosseland := box (snd d) |}.

  (** MeanOpacity constructors, 46-64: with and without a frequency range; in debug builds
      the constants of the opacity are compared, 143-147 *)
  Definition NuMeanOpacity (dbg : bool) (opc : RuntimePC T)
    (lRhoMin lRhoMax : T) (NRho : Z) (lTMin lTMax : T) (NT : Z) (YeMin YeMax : T) (NYe : Z)
    (range : option (T * T * Z)) : result NuMeanTable :=
    if dbg && negb (RuntimePC_eqb (RuntimePC_of pc) opc) then Error else
    match range with
    | None => nu_impl false lRhoMin lRhoMax NRho lTMin lTMax NT YeMin YeMax NYe None 100
    | Some (r, NNu) =>
      nu_impl false lRhoMin lRhoMax NRho lTMin lTMax NT YeMin YeMax NYe (Some r) NNu
    end.

  (** MeanSOpacity constructors, 45-64: the second passes the literal 100, 63, and not its
      argument NNu *)
  Definition NuMeanSOpacity
    (lRhoMin lRhoMax : T) (NRho : Z) (lTMin lTMax : T) (NT : Z) (YeMin YeMax : T) (NYe : Z)
    (range : option (T * T * Z)) : result NuMeanTable :=
    match range with
    | None => nu_impl true lRhoMin lRhoMax NRho lTMin lTMax NT YeMin YeMax NYe None 100
    | Some (r, _) =>
      nu_impl true lRhoMin lRhoMax NRho lTMin lTMax NT YeMin YeMax NYe (Some r) 100
    end.
End MeanNeutrinos.

Arguments NuMeanTable : clear implicits.
Arguments NuMeanFile : clear implicits.
Arguments sums : clear implicits.
