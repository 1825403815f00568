(** The objects each variant may hold, in the order of its template arguments, said without
    the variant: opac_photons.hpp 30-38, s_opac_photons.hpp 29-36, opac_neutrinos.hpp 34-44,
    s_opac_neutrinos.hpp 27-30. The scale-free ones have all constants equal to one. *)
From Coq Require Import ZArith.
From Verif Require Import Base.Outcome Base.Ops Model.Constants Model.RadTypes Model.PhotonApi Model.NeutrinoApi
  Model.GrayPhotons Model.PowerLawPhotons Model.EPBremsPhotons Model.NonCGSPhotons Model.ScatteringPhotons
  Model.OpacNeutrinos Model.NonCGSNeutrinos Model.SpinerNeutrinos.

Section Alternatives.
  Context {T : Type} {O : Ops T}.
  Let cgs : PhysConst T := PhysicalConstantsCGS.
  Let one : PhysConst T := PhysicalConstantsUnity.

  Inductive photon_alternative : nat -> PhotonOpac T -> Prop :=
    | pa0 kappa : photon_alternative 0 (GrayOpacity one kappa)
    | pa1 kappa : photon_alternative 1 (GrayOpacity cgs kappa)
    | pa2 p : photon_alternative 2 (PowerLawOpacity one p)
    | pa3 p : photon_alternative 3 (PowerLawOpacity cgs p)
    | pa4 : photon_alternative 4 (EPBremsstrahlungOpacity cgs)
    | pa5 kappa t m l k : photon_alternative 5 (NonCGSUnits cgs (GrayOpacity cgs kappa) (mk_units t m l k))
    | pa6 p t m l k : photon_alternative 6 (NonCGSUnits cgs (PowerLawOpacity cgs p) (mk_units t m l k))
    | pa7 t m l k : photon_alternative 7 (NonCGSUnits cgs (EPBremsstrahlungOpacity cgs) (mk_units t m l k)).

  Inductive photon_s_alternative : nat -> SOpac T -> Prop :=
    | psa0 sigma apm : photon_s_alternative 0 (GraySOpacity sigma apm)
    | psa1 sigma apm : photon_s_alternative 1 (GraySOpacity sigma apm)
    | psa2 apm : photon_s_alternative 2 (ThomsonSOpacity cgs apm)
    | psa3 p apm : photon_s_alternative 3 (PowerLawSOpacity p apm)
    | psa4 sigma apm t m l k : photon_s_alternative 4 (NonCGSUnitsS (GraySOpacity sigma apm) (mk_units t m l k))
    | psa5 apm t m l k : photon_s_alternative 5 (NonCGSUnitsS (ThomsonSOpacity cgs apm) (mk_units t m l k))
    | psa6 p apm t m l k : photon_s_alternative 6 (NonCGSUnitsS (PowerLawSOpacity p apm) (mk_units t m l k)).

  Inductive neutrino_alternative : nat -> NuOpac T -> Prop :=
    | na0 kappa : neutrino_alternative 0 (NuGrayOpacity 3 one kappa)
    | na1 : neutrino_alternative 1 (BRTOpacity 3 cgs)
    | na2 kappa : neutrino_alternative 2 (NuGrayOpacity 3 cgs kappa)
    | na3 C a b : neutrino_alternative 3 (TophatEmissivity 3 cgs C a b)
    | na4 s : neutrino_alternative 4 (SpinerOpacity 3 cgs s)
    | na5 t m l k : neutrino_alternative 5 (NuNonCGSUnits cgs (BRTOpacity 3 cgs) (mk_units t m l k))
    | na6 kappa t m l k : neutrino_alternative 6 (NuNonCGSUnits cgs (NuGrayOpacity 3 cgs kappa) (mk_units t m l k))
    | na7 C a b t m l k : neutrino_alternative 7 (NuNonCGSUnits cgs (TophatEmissivity 3 cgs C a b) (mk_units t m l k))
    | na8 s t m l k : neutrino_alternative 8 (NuNonCGSUnits cgs (SpinerOpacity 3 cgs s) (mk_units t m l k)).

  Inductive neutrino_s_alternative : nat -> NuSOpac T -> Prop :=
    | nsa0 sigma apm : neutrino_s_alternative 0 (NuGraySOpacity sigma apm)
    | nsa1 sigma apm : neutrino_s_alternative 1 (NuGraySOpacity sigma apm)
    | nsa2 sigma apm t m l k : neutrino_s_alternative 2 (NuNonCGSUnitsS (NuGraySOpacity sigma apm) (mk_units t m l k)).
End Alternatives.
