(** C38. Constructors accept exactly the documented parameters. *)
From Coq Require Import Reals ZArith Lra Lia Bool.
From Flocq Require Import Core IEEE754.BinarySingleNaN.
From Verif Require Import Base.Outcome Base.Ops Inst.ER Inst.ERTac Inst.B64 Model.Constants
  Model.PowerLawPhotons Model.ScatteringPhotons Spec.Parameters.
Open Scope R_scope.

Lemma gt0_er x : Ogtb x (OofZ 0) = true <-> positive_er x.
Proof.
  unfold Ogtb. destruct x as [r| | |]; cbn; try (split; intros; auto; discriminate).
  unfold Rltb. destruct (Rlt_dec 0 r); split; intros; auto; discriminate || contradiction.
Qed.
Lemma lt0_er x : Oltb x (OofZ 0) = true <-> negative_er x.
Proof.
  destruct x as [r| | |]; cbn; try (split; intros; auto; discriminate || contradiction).
  unfold Rltb. destruct (Rlt_dec r 0); split; intros; auto; discriminate || contradiction.
Qed.

Section B64.
Variable L : Libm.
Lemma gt0_b64 x : @Ogtb _ (B64_ops L) x (@OofZ _ (B64_ops L) 0) = true <-> positive_b64 x.
Proof.
  unfold Ogtb, positive_b64. cbn [Oltb OofZ B64_ops].
  destruct x as [s|[|]| |s m e H].
  - change (b64_of_Z 0) with (B754_zero (prec:=53) (emax:=1024) false). cbn.
    split; [discriminate|intros C; destruct C as [C|C]; [discriminate|lra]].
  - cbn. split; [discriminate|intros [C|[C _]]; discriminate].
  - cbn. split; [now left|reflexivity].
  - cbn. split; [discriminate|intros [C|[C _]]; discriminate].
  - rewrite (Bltb_correct 53 1024); try reflexivity.
    change (B2R (b64_of_Z 0)) with 0. split.
    + intros C. right. split; [reflexivity|]. revert C. now case Rlt_bool_spec.
    + intros [C|[_ C]]; [discriminate|]. now apply Rlt_bool_true.
Qed.
Lemma lt0_b64 x : @Oltb _ (B64_ops L) x (@OofZ _ (B64_ops L) 0) = true <-> negative_b64 x.
Proof.
  unfold negative_b64. cbn [Oltb OofZ B64_ops].
  destruct x as [s|[|]| |s m e H].
  - change (b64_of_Z 0) with (B754_zero (prec:=53) (emax:=1024) false). cbn.
    split; [discriminate|intros C; destruct C as [C|C]; [discriminate|lra]].
  - cbn. split; [now left|reflexivity].
  - cbn. split; [discriminate|intros [C|[C _]]; discriminate].
  - cbn. split; [discriminate|intros [C|[C _]]; discriminate].
  - rewrite (Bltb_correct 53 1024); try reflexivity.
    change (B2R (b64_of_Z 0)) with 0. split.
    + intros C. right. split; [reflexivity|]. revert C. now case Rlt_bool_spec.
    + intros [C|[_ C]]; [discriminate|]. now apply Rlt_bool_true.
Qed.
End B64.

Section Ctor.
Context {T : Type} {O : Ops T} (pos neg : T -> Prop)
  (Hp : forall x, Ogtb x (OofZ 0) = true <-> pos x)
  (Hn : forall x, Oltb x (OofZ 0) = true <-> neg x).

Lemma ctor_iff p :
  (powerlaw_ctor p = Ok p <-> accepted pos neg p) /\
  (powerlaw_ctor p = Error <-> ~ accepted pos neg p).
Proof.
  unfold accepted. rewrite <- !Hp, <- !Hn. unfold powerlaw_ctor.
  destruct (Ogtb (pl_rho_ref p) (OofZ 0)); cbn [negb];
  [|split; split; intros H; try discriminate; try tauto; try (intros C; decompose [and] C; discriminate);
    decompose [and] H; discriminate].
  destruct (Ogtb (pl_temp_ref p) (OofZ 0)); cbn [negb];
  [|split; split; intros H; try discriminate; try tauto; try (intros C; decompose [and] C; discriminate);
    decompose [and] H; discriminate].
  destruct (Ogtb (pl_nu_ref p) (OofZ 0)); cbn [negb];
  [|split; split; intros H; try discriminate; try tauto; try (intros C; decompose [and] C; discriminate);
    decompose [and] H; discriminate].
  destruct (Oltb (pl_rho_off p) (OofZ 0)); 
  [split; split; intros H; try discriminate; try tauto; decompose [and] H; congruence|].
  destruct (Oltb (pl_temp_off p) (OofZ 0)); 
  [split; split; intros H; try discriminate; try tauto; decompose [and] H; congruence|].
  destruct (Oltb (pl_nu_off p) (OofZ 0)); 
  [split; split; intros H; try discriminate; try tauto; decompose [and] H; congruence|].
  split; split; intros H; try reflexivity; try discriminate.
  - repeat split; discriminate.
  - exfalso. apply H. repeat split; discriminate.
Qed.

Lemma s_ctor_iff p apm :
  (powerlaw_s_ctor p apm = Ok (p, apm) <-> accepted_s pos neg p) /\
  (powerlaw_s_ctor p apm = Error <-> ~ accepted_s pos neg p).
Proof.
  unfold accepted_s. rewrite <- !Hp, <- !Hn. unfold powerlaw_s_ctor.
  destruct (Ogtb (pl_nu_ref p) (OofZ 0)); cbn [negb];
  [|split; split; intros H; try discriminate; try tauto; try (intros C; decompose [and] C; discriminate);
    decompose [and] H; discriminate].
  destruct (Ogtb (pl_temp_ref p) (OofZ 0)); cbn [negb];
  [|split; split; intros H; try discriminate; try tauto; try (intros C; decompose [and] C; discriminate);
    decompose [and] H; discriminate].
  destruct (Oltb (pl_rho_off p) (OofZ 0)); 
  [split; split; intros H; try discriminate; try tauto; decompose [and] H; congruence|].
  destruct (Oltb (pl_temp_off p) (OofZ 0)); 
  [split; split; intros H; try discriminate; try tauto; decompose [and] H; congruence|].
  destruct (Oltb (pl_nu_off p) (OofZ 0)); 
  [split; split; intros H; try discriminate; try tauto; decompose [and] H; congruence|].
  split; split; intros H; try reflexivity; try discriminate.
  - repeat split; discriminate.
  - exfalso. apply H. repeat split; discriminate.
Qed.
End Ctor.

(** PowerLaw absorption, doubles (any libm) and exact numbers: constructed exactly
    when the three references are positive (NaN refused) and no offset is negative;
    an error in every other case. *)
Lemma C38_powerlaw_proof :
  (forall (L : Libm) (p : PowerLawParams b64),
     (@powerlaw_ctor _ (B64_ops L) p = Ok p <-> accepted positive_b64 negative_b64 p) /\
     (@powerlaw_ctor _ (B64_ops L) p = Error <-> ~ accepted positive_b64 negative_b64 p)) /\
  (forall p : PowerLawParams ER,
     (powerlaw_ctor p = Ok p <-> accepted positive_er negative_er p) /\
     (powerlaw_ctor p = Error <-> ~ accepted positive_er negative_er p)).
Proof.
  split.
  - intros L p. apply (@ctor_iff _ (B64_ops L)); [apply gt0_b64|apply lt0_b64].
  - intros p. apply ctor_iff; [apply gt0_er|apply lt0_er].
Qed.

(** PowerLaw scattering: the same, except that the density reference is not looked
    at. *)
Lemma C38_powerlaw_scattering_partial_proof :
  (forall (L : Libm) (p : PowerLawParams b64) (apm : b64),
     (@powerlaw_s_ctor _ (B64_ops L) p apm = Ok (p, apm) <-> accepted_s positive_b64 negative_b64 p) /\
     (@powerlaw_s_ctor _ (B64_ops L) p apm = Error <-> ~ accepted_s positive_b64 negative_b64 p)) /\
  (forall (p : PowerLawParams ER) (apm : ER),
     (powerlaw_s_ctor p apm = Ok (p, apm) <-> accepted_s positive_er negative_er p) /\
     (powerlaw_s_ctor p apm = Error <-> ~ accepted_s positive_er negative_er p)).
Proof.
  split.
  - intros L p apm. apply (@s_ctor_iff _ (B64_ops L)); [apply gt0_b64|apply lt0_b64].
  - intros p apm. apply s_ctor_iff; [apply gt0_er|apply lt0_er].
Qed.

Definition pl_with (rho_ref rho_off : ER) : PowerLawParams ER :=
  {| pl_kappa0 := Fin 1; pl_rho_exp := Fin 1; pl_temp_exp := Fin 0;
     pl_rho_ref := rho_ref; pl_rho_off := rho_off; pl_temp_ref := Fin 1; pl_temp_off := Fin 0;
     pl_nu_exp := Fin 0; pl_nu_ref := Fin 1; pl_nu_off := Fin 0; pl_do_stim_emit := false |}.

(** The full claim is false of scattering: a zero or negative density reference is
    accepted, and the cross section at a positive state is then infinite or
    negative. *)
Lemma C38_scattering_rho_ref_refuted_proof :
  exists (p q : PowerLawParams ER) (apm : ER) (s : R),
  ~ positive_er (pl_rho_ref p) /\ powerlaw_s_ctor p apm = Ok (p, apm) /\
  s_TotalCrossSection (PowerLawSOpacity p apm) (Fin 1) (Fin 1) (Fin 1) = Ok PInf /\
  ~ positive_er (pl_rho_ref q) /\ powerlaw_s_ctor q apm = Ok (q, apm) /\
  s_TotalCrossSection (PowerLawSOpacity q apm) (Fin 1) (Fin 1) (Fin 1) = Ok (Fin s) /\ s < 0.
Proof.
  assert (Acc : forall r, powerlaw_s_ctor (pl_with (Fin r) (Fin 0)) (Fin 1) = Ok (pl_with (Fin r) (Fin 0), Fin 1)).
  { intros r. apply (s_ctor_iff positive_er negative_er gt0_er lt0_er).
    unfold accepted_s; cbn. repeat split; try lra. }
  exists (pl_with (Fin 0) (Fin 0)), (pl_with (Fin (-1)) (Fin 0)), (Fin 1), (-1).
  split; [cbn; lra|]. split; [apply Acc|]. split.
  { cbn [s_TotalCrossSection PowerLawSOpacity]. unfold powerlaw_s_scale, powerlaw_prefactor.
    cbn [pl_with pl_kappa0 pl_rho_exp pl_temp_exp pl_rho_ref pl_rho_off pl_temp_ref pl_temp_off pl_nu_exp pl_nu_ref pl_nu_off].
    rewrite !fin_add. rewrite !(fin_div _ 1) by lra.
    cbn -[Rdiv Rplus Rmult IZR Rpower]. 
    destruct (Req_EM_T 0 0); [|lra]. unfold inf_of_sign.
    destruct (Rlt_dec 0 (1 + 0)); [|lra]. cbn -[Rdiv Rplus Rmult IZR Rpower].
    destruct (Req_EM_T 1 0); [lra|]. destruct (Rlt_dec 0 1); [|lra].
    cbn -[Rdiv Rplus Rmult IZR Rpower]. unfold inf_of_sign. destruct (Rlt_dec 0 1); [|lra]. 
    cbn -[Rdiv Rplus Rmult IZR Rpower]. unfold inf_of_sign. destruct (Rlt_dec 0 1); [|lra].
    cbn -[Rdiv Rplus Rmult IZR Rpower]. unfold inf_of_sign. destruct (Rlt_dec 0 1); [|lra]. reflexivity. }
  split; [cbn; lra|]. split; [apply Acc|]. split; [|lra].
  cbn [s_TotalCrossSection PowerLawSOpacity]. unfold powerlaw_s_scale, powerlaw_prefactor.
  cbn [pl_with pl_kappa0 pl_rho_exp pl_temp_exp pl_rho_ref pl_rho_off pl_temp_ref pl_temp_off pl_nu_exp pl_nu_ref pl_nu_off].
  rewrite !fin_add. rewrite !fin_div by lra. rewrite (fin_powpF _ 1).
  rewrite !fin_pow by lra. rewrite !Rpower_O by lra. rewrite !fin_mul. change (Pos.to_nat 1) with 1%nat. rewrite pow_1.
  do 2 f_equal. lra.
Qed.

(** Offsets: a NaN offset is accepted, and makes every coefficient NaN. *)
Lemma C38_nan_offset_refuted_proof :
  exists p : PowerLawParams ER,
  pl_rho_off p = NaN /\ powerlaw_ctor p = Ok p /\
  forall pc, powerlaw_alpha pc p (Fin 1) (Fin 1) (Fin 1) = NaN.
Proof.
  exists (pl_with (Fin 1) NaN). split; [reflexivity|]. split.
  - apply (ctor_iff positive_er negative_er gt0_er lt0_er). unfold accepted; cbn. repeat split; try lra; auto.
  - intros pc. unfold powerlaw_alpha, powerlaw_scale, powerlaw_prefactor.
    cbn -[Rdiv Rplus Rmult IZR Rpower]. destruct (Req_EM_T 1 0); [lra|]. reflexivity.
Qed.

Lemma C38_powerlaw_example : accepted positive_er negative_er (pl_with (Fin 1) (Fin 0)).
Proof.
  unfold accepted; cbn; repeat split; lra.
Qed.
