(** What a scattering model must satisfy. *)
From Coq Require Import Reals ZArith Lra.
From Coquelicot Require Import Coquelicot.
From Verif Require Import Base.Outcome Base.Ops Inst.ER Model.RadTypes Model.ScatteringPhotons Model.NonCGSNeutrinos.
Open Scope R_scope.

(** [scatters o D n sigma]: at every state in [D] the total cross section is
    [sigma], the differential cross section is the same at every angle and its
    integral over the sphere (2 pi times the integral over the cosine [mu]) is
    [sigma], and the scattering coefficient is the number density [n] of
    scatterers times [sigma]. *)
Definition scatters (o : SOpac ER) (D : R -> R -> R -> Prop) (n : R -> R) (sigma : R -> R -> R -> R) : Prop :=
  forall rho temp nu : R, D rho temp nu ->
  exists ds : R,
    s_TotalCrossSection o (Fin rho) (Fin temp) (Fin nu) = Ok (Fin (sigma rho temp nu)) /\
    (forall mu : ER, s_DifferentialCrossSection o (Fin rho) (Fin temp) (Fin nu) mu = Ok (Fin ds)) /\
    is_RInt (fun mu : R => 2 * PI * ds) (-1) 1 (sigma rho temp nu) /\
    s_TotalScatteringCoefficient o (Fin rho) (Fin temp) (Fin nu) =
      Ok (Fin (n rho * sigma rho temp nu)).

(** A neutrino scattering model at a fixed electron fraction and species. *)
Definition at_species (o : NuSOpac ER) (Ye : ER) (type : RadiationType) : SOpac ER := {|
  s_TotalCrossSection := fun rho temp nu => nus_TotalCrossSection o rho temp Ye type nu;
  s_DifferentialCrossSection := fun rho temp nu mu => nus_DifferentialCrossSection o rho temp Ye type nu mu;
  s_TotalScatteringCoefficient := fun rho temp nu => nus_TotalScatteringCoefficient o rho temp Ye type nu;
  s_nlambda := nus_nlambda o |}.

Lemma iso_RInt s : is_RInt (fun _ : R => 2 * PI * (s / (4 * PI))) (-1) 1 s.
Proof.
  assert (P := PI_neq0).
  assert (E : (1 - -1) * (2 * PI * (s / (4 * PI))) = s) by (field; exact P).
  pose proof (is_RInt_const (V := R_NormedModule) (-1) 1 (2 * PI * (s / (4 * PI)))) as H.
  change (is_RInt (fun _ : R => 2 * PI * (s / (4 * PI))) (-1) 1 ((1 - -1) * (2 * PI * (s / (4 * PI))))) in H.
  rewrite E in H. exact H.
Qed.
