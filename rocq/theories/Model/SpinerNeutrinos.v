(** Model of neutrinos/spiner_opac_neutrinos.hpp (SpinerOpacity). Not modelled: filename_,
    memoryStatus_, PrintParams, Finalize, default-constructed objects. *)
From Coq Require Import ZArith List Bool.
From Verif Require Import Base.Outcome Base.Ops Model.Constants Model.RadTypes Model.PhotonApi
  Model.NeutrinoApi Model.ThermalNeutrinos Model.OpacNeutrinos Model.Spiner.
Import ListNotations.
Open Scope ops_scope.

(** data members, 557 *)
Record SpinerTables (T : Type) := {
  sp_alpha : DataBox T; sp_jnu : DataBox T; sp_J : DataBox T; sp_JYe : DataBox T;
}.
Arguments sp_alpha {T}. Arguments sp_jnu {T}. Arguments sp_J {T}. Arguments sp_JYe {T}.

Section SpinerNu.
  Context {T : Type} {O : Ops T} (NSPECIES : Z) (pc : PhysConst T).

  (** constants, 68-75 *)
  Definition sp_MEV : T := Odec 1 6 * pc_eV pc.
  Definition sp_EPS : T := #10 * Onum_min.
  Definition sp_Hz2MeV : T := pc_h pc / (Odec 1 6 * pc_eV pc).
  Definition sp_MeV2Hz : T := #1 / sp_Hz2MeV.
  Definition sp_MeV2GK : T := Odec 11604525006 (-9).
  Definition sp_MeV2K : T := Odec 1 9 * sp_MeV2GK.
  Definition sp_K2MeV : T := #1 / sp_MeV2K.

  (** toLog_, 533-538 and fromLog_, 539-545, with offset 0 *)
  Definition sp_toLog (x : T) : T := Olog10 (Oabs (Omax x (- #0) + #0) + sp_EPS).
  Definition sp_fromLog (lx : T) : T := Opow #10 lx - #0.

  (** ** Lookup *)
  Section Lookup.
    Context (t : SpinerTables T).

    (** toLogs_, 546-552, and a lookup by energy *)
    Definition sp_lookup5 (b : DataBox T) (rho temp Ye : T) (type : RadiationType) (nu : T)
      : result T :=
      let lRho := sp_toLog rho in
      let lT := sp_toLog (temp * sp_K2MeV) in
      let idx := RadType2Idx type in
      let le := sp_toLog (sp_Hz2MeV * nu) in
      v <- interpToReal b [Along lRho; Along lT; Along Ye; At idx; Along le] ;;
      Ok (sp_fromLog v).
    Definition sp_lookup4 (b : DataBox T) (rho temp Ye : T) (type : RadiationType) : result T :=
      let lRho := sp_toLog rho in
      let lT := sp_toLog (temp * sp_K2MeV) in
      let idx := RadType2Idx type in
      v <- interpToReal b [Along lRho; Along lT; Along Ye; At idx] ;;
      Ok (sp_fromLog v).

    (** AbsorptionCoefficient, 199-209; AngleAveraged..., 230-243 *)
    Definition sp_Absorption := sp_lookup5 (sp_alpha t).
    (** EmissivityPerNuOmega, 262-271 *)
    Definition sp_EmissivityPerNuOmega := sp_lookup5 (sp_jnu t).
    (** EmissivityPerNu, 289-293 *)
    Definition sp_EmissivityPerNu (rho temp Ye : T) (type : RadiationType) (nu : T) : result T :=
      j <- sp_EmissivityPerNuOmega rho temp Ye type nu ;; Ok (#4 * Opi * j).
    (** Emissivity, 312-320; NumberEmissivity, 323-329 *)
    Definition sp_Emissivity := sp_lookup4 (sp_J t).
    Definition sp_NumberEmissivity := sp_lookup4 (sp_JYe t).

    (** The class. The array overloads, 213-226, 247-259, 273-286, 295-309, compute lRho, lT
        and idx once, before the loop; thermal functions 331-371; constants 373-376;
        nlambda 175. *)
    Definition SpinerOpacity : NuOpac T := {|
      nu_Absorption := sp_Absorption;
      nu_Absorption_v := fun rho temp Ye type =>
        array_loop (fun nu => sp_Absorption rho temp Ye type nu);
      nu_AngleAvgAbsorption := sp_Absorption;
      nu_AngleAvgAbsorption_v := fun rho temp Ye type =>
        array_loop (fun nu => sp_Absorption rho temp Ye type nu);
      nu_EmissivityPerNuOmega := sp_EmissivityPerNuOmega;
      nu_EmissivityPerNuOmega_v := fun rho temp Ye type =>
        array_loop (fun nu => sp_EmissivityPerNuOmega rho temp Ye type nu);
      nu_EmissivityPerNu := sp_EmissivityPerNu;
      nu_EmissivityPerNu_v := fun rho temp Ye type =>
        array_loop (fun nu => sp_EmissivityPerNu rho temp Ye type nu);
      nu_Emissivity := sp_Emissivity;
      nu_NumberEmissivity := sp_NumberEmissivity;
      nu_ThermalDistributionOfTNu := fun temp type nu => Ok (fd_nu NSPECIES pc temp type nu);
      nu_DThermalDistributionOfTNuDT := fun temp type nu =>
        Ok (fd_dT NSPECIES pc temp type nu);
      nu_ThermalDistributionOfT := fun temp type => Ok (fd_T NSPECIES pc temp type);
      nu_ThermalNumberDistributionOfT := fun temp type =>
        Ok (fd_number_T NSPECIES pc temp type);
      nu_EnergyDensityFromTemperature := fun temp type =>
        Ok (fd_energy_density NSPECIES pc temp type);
      nu_TemperatureFromEnergyDensity := fun er type =>
        Ok (fd_temperature NSPECIES pc er type);
      nu_NumberDensityFromTemperature := fun temp type =>
        Ok (fd_number_density NSPECIES pc temp type);
      nu_RuntimePC := RuntimePC_of pc;
      nu_nlambda := 0%Z |}.

    (** GetOnDevice, 181-189: copies of the four boxes *)
    Definition sp_GetOnDevice : SpinerTables T :=
      {| sp_alpha := sp_alpha t; sp_jnu := sp_jnu t; sp_J := sp_J t; sp_JYe := sp_JYe t |}.
  End Lookup.

  (** ** Data of the four tables while they are filled *)
  Record sp_data := { d_alpha : list T; d_jnu : list T; d_J : list T; d_JYe : list T }.

  (** flat indices of lJ_(iRho, iT, iYe, idx) and lalphanu_(iRho, iT, iYe, idx, ie) *)
  Definition sp_cell4 (NT NYe NTYPE : Z) (iRho iT iYe idx : nat) : Z :=
    (((Z.of_nat iRho * NT + Z.of_nat iT) * NYe + Z.of_nat iYe) * NTYPE + Z.of_nat idx)%Z.
  Definition sp_cell5 (NT NYe NTYPE Ne : Z) (iRho iT iYe idx ie : nat) : Z :=
    (sp_cell4 NT NYe NTYPE iRho iT iYe idx * Ne + Z.of_nat ie)%Z.

  (** metadata, 90-103 and 434-447: resize, setRange and copyMetadata *)
  Definition sp_boxes (NRho NT NYe NTYPE Ne : Z) (gR gT gY ge : Grid T) (d : sp_data)
    : SpinerTables T :=
    let box5 := fun l => {| db_dims := [Ne; NTYPE; NYe; NT; NRho];
                            db_ranges := [Some ge; None; Some gY; Some gT; Some gR];
                            db_data := l |} in
    let box4 := fun l => {| db_dims := [NTYPE; NYe; NT; NRho];
                            db_ranges := [None; Some gY; Some gT; Some gR];
                            db_data := l |} in
    {| sp_alpha := box5 (d_alpha d); sp_jnu := box5 (d_jnu d);
       sp_J := box4 (d_J d); sp_JYe := box4 (d_JYe d) |}.
  (** freshly resized storage is modelled as zeros; every cell is written *)
  Definition sp_zeros (NRho NT NYe NTYPE Ne : Z) : sp_data :=
    let n4 := Z.to_nat (NRho * NT * NYe * NTYPE) in
    let n5 := Z.to_nat (NRho * NT * NYe * NTYPE * Ne) in
    {| d_alpha := repeat #0 n5; d_jnu := repeat #0 n5;
       d_J := repeat #0 n4; d_JYe := repeat #0 n4 |}.

  (** ** Testing constructor, 82-137 *)
  Section Build.
    Context (o : NuOpac T).

    (** the loop over energies, 122-132: the absorption coefficient is asked at T, all
        else at T * MeV2K *)
    Definition sp_fill_energy (rho temp Ye : T) (type : RadiationType) (ge : Grid T)
      (NT NYe Ne : Z) (iRho iT iYe idx : nat) (ie : nat) (d : sp_data) : result sp_data :=
      let E := sp_fromLog (g_x ge (Z.of_nat ie)) in
      let nu := sp_MeV2Hz * E in
      let c := sp_cell5 NT NYe NEUTRINO_NTYPES Ne iRho iT iYe idx ie in
      alpha <- nu_Absorption o rho temp Ye type nu ;;
      da <- set_flat (d_alpha d) c (sp_toLog (Omax alpha #0)) ;;
      j <- nu_EmissivityPerNuOmega o rho (temp * sp_MeV2K) Ye type nu ;;
      dj <- set_flat (d_jnu d) c (sp_toLog (Omax j #0)) ;;
      Ok {| d_alpha := da; d_jnu := dj; d_J := d_J d; d_JYe := d_JYe d |}.

    (** the body of the loop over species, 114-133 *)
    Definition sp_fill_species (rho temp Ye : T) (ge : Grid T) (NT NYe Ne : Z)
      (iRho iT iYe idx : nat) (d : sp_data) : result sp_data :=
      type <- Idx2RadType (Z.of_nat idx) ;;
      let c := sp_cell4 NT NYe NEUTRINO_NTYPES iRho iT iYe idx in
      J <- nu_Emissivity o rho (temp * sp_MeV2K) Ye type ;;
      dJ <- set_flat (d_J d) c (sp_toLog (Omax J #0)) ;;
      JYe <- nu_NumberEmissivity o rho (temp * sp_MeV2K) Ye type ;;
      dJYe <- set_flat (d_JYe d) c (sp_toLog (Omax JYe #0)) ;;
      for_int Ne (sp_fill_energy rho temp Ye type ge NT NYe Ne iRho iT iYe idx)
        {| d_alpha := d_alpha d; d_jnu := d_jnu d; d_J := dJ; d_JYe := dJYe |}.

    (** 106-136 *)
    Definition sp_fill (gR gT gY ge : Grid T) (NRho NT NYe Ne : Z) (d : sp_data)
      : result sp_data :=
      for_int NRho (fun iRho d =>
        let rho := sp_fromLog (g_x gR (Z.of_nat iRho)) in
        for_int NT (fun iT d =>
          let temp := sp_fromLog (g_x gT (Z.of_nat iT)) in
          for_int NYe (fun iYe d =>
            let Ye := g_x gY (Z.of_nat iYe) in
            for_int NEUTRINO_NTYPES (fun idx d =>
              sp_fill_species rho temp Ye ge NT NYe Ne iRho iT iYe idx d) d) d) d) d.

    Definition sp_tabulate (lRhoMin lRhoMax : T) (NRho : Z) (lTMin lTMax : T) (NT : Z)
      (YeMin YeMax : T) (NYe : Z) (leMin leMax : T) (Ne : Z) : result (SpinerTables T) :=
      let lTMin := lTMin + Olog10 sp_K2MeV in
      let lTMax := lTMax + Olog10 sp_K2MeV in
      ge <- mk_grid leMin leMax Ne ;;
      gY <- mk_grid YeMin YeMax NYe ;;
      gT <- mk_grid lTMin lTMax NT ;;
      gR <- mk_grid lRhoMin lRhoMax NRho ;;
      d <- sp_fill gR gT gY ge NRho NT NYe Ne (sp_zeros NRho NT NYe NEUTRINO_NTYPES Ne) ;;
      Ok (sp_boxes NRho NT NYe NEUTRINO_NTYPES Ne gR gT gY ge d).
  End Build.

  (** ** ComputeIntegrals, 494-529. The two sums are kept in locals instead of the table
      cells they are added to; [j] is the flat data of ljnu *)
  Definition sp_integral_step (ge : Grid T) (j : list T) (base : Z) (ie : nat) (a : T * T)
    : result (T * T) :=
    let le := g_x ge (Z.of_nat ie) in
    let e := Opow #10 le in
    lj <- at_flat j (base * g_N ge + Z.of_nat ie)%Z ;;
    let j := Opow #10 lj * sp_MEV / pc_h pc in
    let integrand := #4 * Opi * j * e in
    Ok (fst a + integrand, snd a + integrand / (sp_MEV * e)).
  Definition sp_integral (ge : Grid T) (j : list T) (base : Z) : result (T * T) :=
    for_int (g_N ge) (sp_integral_step ge j base) (#0, #0).
  Definition sp_integral_cell (ge : Grid T) (c : Z) (d : sp_data) : result sp_data :=
    a <- sp_integral ge (d_jnu d) c ;;
    dJ <- set_flat (d_J d) c (sp_toLog (fst a * g_dx ge)) ;;
    dJYe <- set_flat (d_JYe d) c (sp_toLog (snd a * g_dx ge)) ;;
    Ok {| d_alpha := d_alpha d; d_jnu := d_jnu d; d_J := dJ; d_JYe := dJYe |}.
  Definition ComputeIntegrals (gR gT gY ge : Grid T) (NTYPE : Z) (d : sp_data) : result sp_data :=
    for_int (g_N gR) (fun iRho d =>
      for_int (g_N gT) (fun iT d =>
        for_int (g_N gY) (fun iYe d =>
          for_int NTYPE (fun itp d =>
            sp_integral_cell ge (sp_cell4 (g_N gT) (g_N gY) NTYPE iRho iT iYe itp) d) d) d) d) d.

  (** ** NuLib files, 394-470. A dataset that cannot be read is [None]. *)
  Record NuLibFile := {
    nl_nrho : option Z; nl_ntemp : option Z; nl_nye : option Z;
    nl_number_groups : option Z; nl_number_species : option Z;
    nl_rho_points : option (list T); nl_temp_points : option (list T);
    nl_neutrino_energies : option (list T); nl_ye_points : option (list T);
    nl_emissivities : option (list T); nl_absorption_opacity : option (list T);
  }.
  (** ReadInt_, 472-479 *)
  Definition ReadInt (d : option Z) : result Z :=
    match d with Some z => Ok z | None => Error end.
  (** H5LTread_dataset_double copies the whole dataset to the buffer *)
  Definition read_into (buf : list T) (d : option (list T)) : result (list T) :=
    match d with
    | None => Error
    | Some l => if Nat.leb (length l) (length buf) then Ok (l ++ skipn (length l) buf) else UB
    end.
  (** ReadBounds_, 481-492; a vector of negative size throws *)
  Definition ReadBounds (d : option (list T)) (size : Z) : result (T * T) :=
    if (size <? 0)%Z then Error else
    table <- read_into (repeat #0 (Z.to_nat size)) d ;;
    lo <- at_flat table 0 ;;
    hi <- at_flat table (size - 1) ;;
    Ok (lo, hi).

  (** the body of the fill loop, 455-463; [kappa], [j] are the data of kappa_file and
      jnu_file, dimensions (NE, NTYPE, NY, NT, NR) *)
  Definition nl_cell (NTYPE NY NT NR : Z) (ie idx iY iT iR : nat) : Z :=
    ((((Z.of_nat ie * NTYPE + Z.of_nat idx) * NY + Z.of_nat iY) * NT + Z.of_nat iT) * NR
     + Z.of_nat iR)%Z.
  Definition nl_fill_cell (kappa j : list T) (NR NT NY NTYPE NE : Z) (iR iT iY idx ie : nat)
    (d : sp_data) : result sp_data :=
    let c := sp_cell5 NT NY NTYPE NE iR iT iY idx ie in
    k <- at_flat kappa (nl_cell NTYPE NY NT NR ie idx iY iT iR) ;;
    da <- set_flat (d_alpha d) c (Olog10 k) ;;
    j <- at_flat j (nl_cell NTYPE NY NT NR ie idx iY iT iR) ;;
    dj <- set_flat (d_jnu d) c (Olog10 (pc_h pc * j / sp_MEV)) ;;
    Ok {| d_alpha := da; d_jnu := dj; d_J := d_J d; d_JYe := d_JYe d |}.
  Definition nl_fill (kappa j : list T) (NR NT NY NTYPE NE : Z) (d : sp_data) : result sp_data :=
    for_int NR (fun iR d => for_int NT (fun iT d => for_int NY (fun iY d =>
      for_int NTYPE (fun idx d => for_int NE (fun ie d =>
        nl_fill_cell kappa j NR NT NY NTYPE NE iR iT iY idx ie d) d) d) d) d) d.

  (** LoadFromNuLib_, 394-470. [fresh] is what newly allocated memory happens to hold (in
      strict C++ reading it is undefined; see DESIGN.md). Both datasets are read into
      jnu_file, 418 and 424; kappa_file is never written. *)
  Definition LoadFromNuLib (fresh : nat -> T) (file : option NuLibFile)
    : result (SpinerTables T) :=
    match file with
    | None => Error
    | Some f =>
      NR <- ReadInt (nl_nrho f) ;;
      NT <- ReadInt (nl_ntemp f) ;;
      NY <- ReadInt (nl_nye f) ;;
      NE <- ReadInt (nl_number_groups f) ;;
      NTYPE <- ReadInt (nl_number_species f) ;;
      br <- ReadBounds (nl_rho_points f) NR ;;
      bT <- ReadBounds (nl_temp_points f) NT ;;
      be <- ReadBounds (nl_neutrino_energies f) NE ;;
      by_ <- ReadBounds (nl_ye_points f) NY ;;
      let storage := map fresh (seq 0 (Z.to_nat (NE * NTYPE * NY * NT * NR))) in
      jnu_file <- read_into storage (nl_emissivities f) ;;
      let kappa_file := storage in
      jnu_file <- read_into jnu_file (nl_absorption_opacity f) ;;
      ge <- mk_grid (Olog10 (fst be)) (Olog10 (snd be)) NE ;;
      gY <- mk_grid (fst by_) (snd by_) NY ;;
      gT <- mk_grid (Olog10 (fst bT)) (Olog10 (snd bT)) NT ;;
      gR <- mk_grid (Olog10 (fst br)) (Olog10 (snd br)) NR ;;
      d <- nl_fill kappa_file jnu_file NR NT NY NTYPE NE (sp_zeros NR NT NY NTYPE NE) ;;
      d <- ComputeIntegrals gR gT gY ge NTYPE d ;;
      Ok (sp_boxes NR NT NY NTYPE NE gR gT gY ge d)
    end.
End SpinerNu.
Arguments sp_data : clear implicits.
Arguments NuLibFile : clear implicits.
