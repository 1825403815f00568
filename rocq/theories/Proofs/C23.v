(** C23. Reported runtime constants describe the wrapped opacity. *)
From Coq Require Import Reals ZArith Lra.
From Verif Require Import Base.Outcome Base.Ops Inst.ER Inst.ERTac Inst.RConsts Model.Constants Model.RadTypes
  Model.PhotonApi Model.GrayPhotons Model.PowerLawPhotons Model.EPBremsPhotons Model.NeutrinoApi
  Model.OpacNeutrinos Model.NonCGSPhotons Model.NonCGSNeutrinos Spec.Physics Spec.Integral
  Spec.Units Spec.Opacities Proofs.PlanckFacts Proofs.UnitFacts Proofs.C07 Proofs.C20.
Open Scope R_scope.

Lemma rpc_hkc pc s : positive_system s ->
  r_h (RuntimePC_units (finpc pc) (Fin (us_time s)) (Fin (us_mass s)) (Fin (us_length s)) (Fin (us_temp s)))
    = Fin (pc_h pc * us_time s / us_mass s / us_length s ^ 2) /\
  r_kb (RuntimePC_units (finpc pc) (Fin (us_time s)) (Fin (us_mass s)) (Fin (us_length s)) (Fin (us_temp s)))
    = Fin (pc_kb pc * us_time s ^ 2 / us_mass s / us_length s ^ 2 * us_temp s) /\
  r_c (RuntimePC_units (finpc pc) (Fin (us_time s)) (Fin (us_mass s)) (Fin (us_length s)) (Fin (us_temp s)))
    = Fin (pc_c pc * us_time s / us_length s).
Proof.
  intros (A & B & C & D). unfold RuntimePC_units; cbn [r_h r_kb r_c].
  repeat split; er; f_equal; field; nz.
Qed.

(** The Planck law written with the reported h, k and c gives exactly the wrapper's
    spectrum, at all temperatures and frequencies in code units. *)
Lemma C23_photons_proof :
  forall pc o s, positive_hkc pc -> photon_opacity (finpc pc) o -> positive_system s ->
  let w := NonCGSUnits (finpc pc) o (mk_units (Fin (us_time s)) (Fin (us_mass s))
                                              (Fin (us_length s)) (Fin (us_temp s))) in
  exists h k c,
    r_h (ph_RuntimePC w) = Fin h /\ r_kb (ph_RuntimePC w) = Fin k /\
    r_c (ph_RuntimePC w) = Fin c /\ 0 < h /\ 0 < k /\ 0 < c /\
    forall T nu, 0 < T -> 0 < nu ->
      returns (ph_ThermalDistributionOfTNu w (Fin T) (Fin nu)) (Planck_B h k c T nu).
Proof.
  intros pc o s Hp Ho Hs w.
  destruct (rpc_hkc pc s Hs) as (E1 & E2 & E3).
  pose proof Hp as (Hh & Hk & Hc). pose proof Hs as (A & B & C & D).
  do 3 eexists. split; [exact E1|]. split; [exact E2|]. split; [exact E3|].
  split; [pos|]. split; [pos|]. split; [pos|].
  intros T nu HT Hn. unfold returns.
  pose proof (wrapper_spectrum pc o s nu Hp Ho Hs Hn T HT) as E. unfold returns in E.
  change (mk_units _ _ _ _) with (sys_units s) in w. unfold w. rewrite E. do 2 f_equal.
  unfold Planck_B.
  replace (pc_h pc * us_time s / us_mass s / us_length s ^ 2 * nu /
    (pc_kb pc * us_time s ^ 2 / us_mass s / us_length s ^ 2 * us_temp s * T))
    with (pc_h pc * (nu * (1 / us_time s)) / (pc_kb pc * (T * us_temp s))) by (field; repeat split; nz).
  assert (Hx : 0 < pc_h pc * (nu * (1 / us_time s)) / (pc_kb pc * (T * us_temp s))) by pos.
  pose proof (expm1_pos _ Hx). field. repeat split; nz.
Qed.

(** The Fermi-Dirac law with the reported constants, for neutrinos. *)
Lemma C23_neutrinos_proof :
  forall ns pc o s type, positive_hkc pc -> neutrino_opacity ns (finpc pc) o -> positive_system s ->
  let w := NuNonCGSUnits (finpc pc) o (mk_units (Fin (us_time s)) (Fin (us_mass s))
                                                (Fin (us_length s)) (Fin (us_temp s))) in
  exists h k c,
    r_h (nu_RuntimePC w) = Fin h /\ r_kb (nu_RuntimePC w) = Fin k /\
    r_c (nu_RuntimePC w) = Fin c /\ 0 < h /\ 0 < k /\ 0 < c /\
    forall T nu, 0 < T -> 0 < nu ->
      returns (nu_ThermalDistributionOfTNu w (Fin T) type (Fin nu)) (FermiDirac_B (IZR ns) h k c T nu).
Proof.
  intros ns pc o s type Hp Ho Hs w.
  destruct (rpc_hkc pc s Hs) as (E1 & E2 & E3).
  pose proof Hp as (Hh & Hk & Hc). pose proof Hs as (A & B & C & D).
  do 3 eexists. split; [exact E1|]. split; [exact E2|]. split; [exact E3|].
  split; [pos|]. split; [pos|]. split; [pos|].
  intros T nu HT Hn. unfold returns.
  pose proof (nu_wrapper_spectrum ns pc o s nu type Hp Ho Hs Hn T HT) as E. unfold returns in E.
  change (mk_units _ _ _ _) with (sys_units s) in w. unfold w. rewrite E. do 2 f_equal.
  unfold FermiDirac_B.
  replace (pc_h pc * us_time s / us_mass s / us_length s ^ 2 * nu /
    (pc_kb pc * us_time s ^ 2 / us_mass s / us_length s ^ 2 * us_temp s * T))
    with (pc_h pc * (nu * (1 / us_time s)) / (pc_kb pc * (T * us_temp s))) by (field; repeat split; nz).
  pose proof (exp_pos (pc_h pc * (nu * (1 / us_time s)) / (pc_kb pc * (T * us_temp s)))).
  field. repeat split; nz.
Qed.

(** An unwrapped opacity reports the constants it computes with. *)
Lemma C23_unwrapped_proof :
  forall T (O : Ops T) pc o, photon_opacity pc o ->
  r_h (ph_RuntimePC o) = pc_h pc /\ r_kb (ph_RuntimePC o) = pc_kb pc /\
  r_c (ph_RuntimePC o) = pc_c pc /\ ph_RuntimePC o = RuntimePC_of pc.
Proof.
  intros T O pc o [[kap ->]|[[p ->]| ->]]; repeat split; reflexivity.
Qed.

Lemma C23_example :
  positive_hkc cgsR /\ photon_opacity (finpc cgsR) (GrayOpacity (finpc cgsR) (Fin 1)) /\
  positive_system {| us_time := 60; us_mass := 1000; us_length := 100; us_temp := 11604 |}.
Proof.
  split; [exact cgs_hkc|]. split; [left; eauto|]. unfold positive_system; cbn; lra.
Qed.
