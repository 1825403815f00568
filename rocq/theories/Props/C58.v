(** C58. Array calls that run at once do not disturb one another. *)
From Coq Require Import Reals List ZArith Lia Lra Bool.
From Verif Require Import Proofs.C58 Base.Outcome Base.Ops Inst.ER Inst.ERTac Model.Constants Model.RadTypes Model.PhotonApi Model.GrayPhotons
  Model.PowerLawPhotons Model.EPBremsPhotons Model.NeutrinoApi Model.OpacNeutrinos Model.SpinerNeutrinos
  Model.NonCGSPhotons Model.NonCGSNeutrinos Model.Variants Model.Threads Spec.Opacities Spec.Arrays Spec.Races
  Proofs.ArrayFacts Proofs.C17 Proofs.Interleave.
Import ListNotations.

(** Any number of calls, any arithmetic, any texts (tabulated and unit-converting ones
    included) that succeed alone: if no call may write a cell that another may use, running
    them at once in any order of their accesses is harmless. *)
Theorem C58_as_if_alone :
  forall (T : Type) (O : Ops T) (cs : list (Call T)) (m : mem T), no_conflict cs ->
  (forall c, In c cs -> exists m', alone c m = Ok m') -> as_if_alone cs m.
Proof. exact C58_as_if_alone_proof. Qed.
Print Assumptions C58_as_if_alone.

(** Exactly which calls race: for calls whose scalar call never fails and whose buffers exist,
    some order of the accesses is a data race if and only if one call may write a cell that
    another one may use. *)
Theorem C58_race_exactly :
  forall (T : Type) (O : Ops T) (cs : list (Call T)) (m : mem T),
  (forall c, In c cs -> never_fails (c_text c) /\ fits c m) ->
  ((exists n s, steps n (map thread cs, m) s /\ racy s) <->
   (exists i j c d, i <> j /\ nth_error cs i = Some c /\ nth_error cs j = Some d /\ conflict c d)).
Proof. exact C58_race_exactly_proof. Qed.
Print Assumptions C58_race_exactly.

(** The texts of the array overloads, any arithmetic: the plain classes loop around their own
    scalar call, which never fails for the closed forms; the unit wrappers convert around the
    overload they wrap; the variant holds one of these. *)
Theorem C58_texts_photon :
  forall (T : Type) (O : Ops T) (pc : PhysConst T) (o : PhotonOpac T) (rho temp : T),
  (photon_opacity pc o ->
   ph_Absorption_v o rho temp = text_call (Plain (ph_Absorption o rho temp)) /\
   ph_AngleAvgAbsorption_v o rho temp = text_call (Plain (ph_AngleAvgAbsorption o rho temp)) /\
   ph_EmissivityPerNuOmega_v o rho temp = text_call (Plain (ph_EmissivityPerNuOmega o rho temp)) /\
   ph_EmissivityPerNu_v o rho temp = text_call (Plain (ph_EmissivityPerNu o rho temp)) /\
   never_fails (Plain (ph_Absorption o rho temp)) /\ never_fails (Plain (ph_AngleAvgAbsorption o rho temp)) /\
   never_fails (Plain (ph_EmissivityPerNuOmega o rho temp)) /\ never_fails (Plain (ph_EmissivityPerNu o rho temp))) /\
  (forall (u : Units T) (t : array_text T), let w := NonCGSUnits pc o u in
   (ph_Absorption_v o (Omul rho (un_rho u)) (Omul temp (un_temp u)) = text_call t ->
      ph_Absorption_v w rho temp = text_call (Converting u (un_length u) t)) /\
   (ph_AngleAvgAbsorption_v o (Omul rho (un_rho u)) (Omul temp (un_temp u)) = text_call t ->
      ph_AngleAvgAbsorption_v w rho temp = text_call (Converting u (un_length u) t)) /\
   (ph_EmissivityPerNuOmega_v o (Omul rho (un_rho u)) (Omul temp (un_temp u)) = text_call t ->
      ph_EmissivityPerNuOmega_v w rho temp = text_call (Converting u (un_inv_emiss u) t)) /\
   (ph_EmissivityPerNu_v o (Omul rho (un_rho u)) (Omul temp (un_temp u)) = text_call t ->
      ph_EmissivityPerNu_v w rho temp = text_call (Converting u (un_inv_emiss u) t))) /\
  (forall v : @PhotonAlt T,
   ph_Absorption_v (ph_variant v) rho temp = ph_Absorption_v (ph_held v) rho temp /\
   ph_AngleAvgAbsorption_v (ph_variant v) rho temp = ph_AngleAvgAbsorption_v (ph_held v) rho temp /\
   ph_EmissivityPerNuOmega_v (ph_variant v) rho temp = ph_EmissivityPerNuOmega_v (ph_held v) rho temp /\
   ph_EmissivityPerNu_v (ph_variant v) rho temp = ph_EmissivityPerNu_v (ph_held v) rho temp).
Proof. exact C58_texts_photon_proof. Qed.
Print Assumptions C58_texts_photon.

Theorem C58_texts_neutrino :
  forall (T : Type) (O : Ops T) (ns : Z) (pc : PhysConst T) (o : NuOpac T) (rho temp Ye : T) (type : RadiationType),
  (neutrino_opacity ns pc o \/ (exists tables, o = SpinerOpacity ns pc tables) ->
   nu_Absorption_v o rho temp Ye type = text_call (Plain (nu_Absorption o rho temp Ye type)) /\
   nu_AngleAvgAbsorption_v o rho temp Ye type = text_call (Plain (nu_AngleAvgAbsorption o rho temp Ye type)) /\
   nu_EmissivityPerNuOmega_v o rho temp Ye type = text_call (Plain (nu_EmissivityPerNuOmega o rho temp Ye type)) /\
   nu_EmissivityPerNu_v o rho temp Ye type = text_call (Plain (nu_EmissivityPerNu o rho temp Ye type))) /\
  (neutrino_opacity ns pc o ->
   never_fails (Plain (nu_Absorption o rho temp Ye type)) /\ never_fails (Plain (nu_AngleAvgAbsorption o rho temp Ye type)) /\
   never_fails (Plain (nu_EmissivityPerNuOmega o rho temp Ye type)) /\ never_fails (Plain (nu_EmissivityPerNu o rho temp Ye type))) /\
  (forall (u : Units T) (t : array_text T), let w := NuNonCGSUnits pc o u in
   (nu_Absorption_v o (Omul rho (un_rho u)) (Omul temp (un_temp u)) Ye type = text_call t ->
      nu_Absorption_v w rho temp Ye type = text_call (Converting u (un_length u) t)) /\
   (nu_AngleAvgAbsorption_v o (Omul rho (un_rho u)) (Omul temp (un_temp u)) Ye type = text_call t ->
      nu_AngleAvgAbsorption_v w rho temp Ye type = text_call (Converting u (un_length u) t)) /\
   (nu_EmissivityPerNuOmega_v o (Omul rho (un_rho u)) (Omul temp (un_temp u)) Ye type = text_call t ->
      nu_EmissivityPerNuOmega_v w rho temp Ye type = text_call (Converting u (un_inv_emiss u) t)) /\
   (nu_EmissivityPerNu_v o (Omul rho (un_rho u)) (Omul temp (un_temp u)) Ye type = text_call t ->
      nu_EmissivityPerNu_v w rho temp Ye type = text_call (Converting u (un_inv_emiss u) t))) /\
  (forall v : @NuAlt T,
   nu_Absorption_v (nu_variant v) rho temp Ye type = nu_Absorption_v (nu_held v) rho temp Ye type /\
   nu_AngleAvgAbsorption_v (nu_variant v) rho temp Ye type = nu_AngleAvgAbsorption_v (nu_held v) rho temp Ye type /\
   nu_EmissivityPerNuOmega_v (nu_variant v) rho temp Ye type = nu_EmissivityPerNuOmega_v (nu_held v) rho temp Ye type /\
   nu_EmissivityPerNu_v (nu_variant v) rho temp Ye type = nu_EmissivityPerNu_v (nu_held v) rho temp Ye type).
Proof. exact C58_texts_neutrino_proof. Qed.
Print Assumptions C58_texts_neutrino.

(** Calls of plain classes may share their frequency bins: with outputs apart from one another
    and from all bins, any number of them at once leaves in every output the scalar results at
    the bins, and everything else as it was. *)
Theorem C58_shared_bins :
  forall (T : Type) (O : Ops T) (cs : list (Call T)) (m : mem T),
  (forall c, In c cs -> fits c m /\ exists F, c_text c = Plain F /\ never_fails (c_text c)) ->
  (forall i j c d, i <> j -> nth_error cs i = Some c -> nth_error cs j = Some d ->
     forall a, in_buffer (c_out c) (c_n c) a -> ~ in_buffer (c_out d) (c_n d) a) ->
  (forall c d, In c cs -> In d cs -> forall a, in_buffer (c_out c) (c_n c) a -> ~ in_buffer (c_bins d) (c_n d) a) ->
  as_if_alone cs m /\
  forall n s, steps n (map thread cs, m) s -> finished s ->
    (forall c F, In c cs -> c_text c = Plain F -> forall i nu, (i < Z.to_nat (c_n c))%nat -> nth_error m (c_bins c + i) = Some nu ->
       exists v, F nu = Ok v /\ nth_error (snd s) (c_out c + i) = Some v) /\
    (forall a, (forall c, In c cs -> ~ in_buffer (c_out c) (c_n c) a) -> nth_error (snd s) a = nth_error m a).
Proof. exact C58_shared_bins_proof. Qed.
Print Assumptions C58_shared_bins.

(** Unit-converting calls must not share bins: whatever the class, the units, the density and
    the temperature, two calls with a common frequency array race, however far apart their
    outputs are. *)
Theorem C58_converting_race_refuted :
  forall (T : Type) (O : Ops T) (pc : PhysConst T) (o : PhotonOpac T), photon_opacity pc o ->
  forall (u : Units T) (rho1 temp1 rho2 temp2 : T) (bins out1 out2 : nat) (n : Z) (m : mem T),
  (0 < n)%Z -> (bins + Z.to_nat n <= length m)%nat -> (out1 + Z.to_nat n <= length m)%nat -> (out2 + Z.to_nat n <= length m)%nat ->
  exists c1 c2, c_bins c1 = bins /\ c_out c1 = out1 /\ c_n c1 = n /\ c_bins c2 = bins /\ c_out c2 = out2 /\ c_n c2 = n /\
    ph_Absorption_v (NonCGSUnits pc o u) rho1 temp1 = text_call (c_text c1) /\
    ph_Absorption_v (NonCGSUnits pc o u) rho2 temp2 = text_call (c_text c2) /\
    exists k s, steps k (map thread [c1; c2], m) s /\ racy s.
Proof. exact C58_converting_race_refuted_proof. Qed.
Print Assumptions C58_converting_race_refuted.

(** And what comes of it, in any arithmetic: two calls on one bin whose updates of the bin
    cross leave it multiplied by the time unit once too often; and calls that convert the bin
    before either uses it evaluate the opacity at a frequency converted twice. *)
Theorem C58_converting_results_refuted :
  forall (T : Type) (O : Ops T) (F : T -> result T) (u : Units T) (out x y1 y2 : T), (forall v, exists w, F v = Ok w) ->
  let call a := {| c_text := Converting u out (Plain F); c_bins := 0; c_out := a; c_n := 1 |} in
  let start := (map thread [call 1%nat; call 2%nat], [x; y1; y2]) in
  (exists k s, steps k start s /\ finished s /\
     nth_error (snd s) 0 = Some (Omul (Omul (Omul x (un_freq u)) (un_time u)) (un_time u))) /\
  (exists k s v, steps k start s /\ finished s /\ F (Omul (Omul x (un_freq u)) (un_freq u)) = Ok v /\
     nth_error (snd s) 1 = Some (Omul v out) /\ nth_error (snd s) 2 = Some (Omul v out)).
Proof. exact C58_converting_results_refuted_proof. Qed.
Print Assumptions C58_converting_results_refuted.

(** Three gray calls on the same two bins, one output buffer each. *)
Example C58_shared_bins_example_holds :
  let o := GrayOpacity (T := ER) PhysicalConstantsUnity (OofZ 1) in
  let call rho a := {| c_text := Plain (ph_Absorption o rho (OofZ 1)); c_bins := 0; c_out := a; c_n := 2 |} in
  let cs := [call (OofZ 1) 2%nat; call (OofZ 2) 4%nat; call (OofZ 3) 6%nat] in let m := repeat (OofZ 5 : ER) 8 in
  (forall c, In c cs -> fits c m /\ exists F, c_text c = Plain F /\ never_fails (c_text c)) /\
  (forall i j c d, i <> j -> nth_error cs i = Some c -> nth_error cs j = Some d ->
     forall a, in_buffer (c_out c) (c_n c) a -> ~ in_buffer (c_out d) (c_n d) a) /\
  (forall c d, In c cs -> In d cs -> forall a, in_buffer (c_out c) (c_n c) a -> ~ in_buffer (c_bins d) (c_n d) a) /\
  no_conflict cs /\ (forall c, In c cs -> exists m', alone c m = Ok m').
Proof. exact C58_shared_bins_example. Qed.

(** Two unit-converting calls with bins of their own do not conflict; with common bins they do,
    and with a time unit of 2 the crossed updates turn the frequency 1 into 2. *)
Example C58_converting_example_holds :
  let u := mk_units (T := ER) (Fin 2) (Fin 1) (Fin 1) (Fin 1) in
  let F := ph_Absorption (GrayOpacity (T := ER) PhysicalConstantsUnity (OofZ 1)) (OofZ 1) (OofZ 1) in
  let call b a := {| c_text := Converting u (un_length u) (Plain F); c_bins := b; c_out := a; c_n := 1 |} in
  never_fails (c_text (call 0%nat 1%nat)) /\
  no_conflict [call 0%nat 1%nat; call 2%nat 3%nat] /\ conflict (call 0%nat 1%nat) (call 0%nat 2%nat) /\
  (forall v, exists w, F v = Ok w) /\
  Omul (Omul (Omul (Fin 1) (un_freq u)) (un_time u)) (un_time u) = Fin 2.
Proof. exact C58_converting_example. Qed.
