(** C58. Array calls that run at once do not disturb one another. *)
From Coq Require Import Reals List ZArith Lia Lra Bool.
From Verif Require Import Base.Outcome Base.Ops Inst.ER Inst.ERTac Model.Constants Model.RadTypes Model.PhotonApi Model.GrayPhotons
  Model.PowerLawPhotons Model.EPBremsPhotons Model.NeutrinoApi Model.OpacNeutrinos Model.SpinerNeutrinos
  Model.NonCGSPhotons Model.NonCGSNeutrinos Model.Variants Model.Threads Spec.Opacities Spec.Arrays Spec.Races
  Proofs.ArrayFacts Proofs.C17 Proofs.Interleave.
Import ListNotations.

(** a text whose scalar call always returns *)
Fixpoint never_fails {T} (t : array_text T) : Prop :=
  match t with Plain F => forall x, exists v, F x = Ok v | Converting _ _ t => never_fails t end.
(** the buffers of a call lie in the memory *)
Definition fits {T} (c : Call T) (m : mem T) : Prop :=
  (c_bins c + Z.to_nat (c_n c) <= length m)%nat /\ (c_out c + Z.to_nat (c_n c) <= length m)%nat.

Section Reach.
  Context {T : Type} {O : Ops T}.
  Inductive solo : code T -> mem T -> code T -> mem T -> Prop :=
  | solo_none p m : solo p m p m
  | solo_read a k m v q m' : nth_error m a = Some v -> solo (k v) m q m' -> solo (Rd a k) m q m'
  | solo_write a v k m q m' : (a < length m)%nat -> solo k (upd m a v) q m' -> solo (Wr a v k) m q m'.
  Lemma solo_trans p m q m1 r m2 : solo p m q m1 -> solo q m1 r m2 -> solo p m r m2.
  Proof. induction 1; intros H2; [exact H2|eapply solo_read; eauto|eapply solo_write; eauto]. Qed.
  Lemma solo_length p m q m' : solo p m q m' -> length m' = length m.
  Proof. induction 1; [reflexivity|assumption|]. rewrite upd_length in IHsolo. assumption. Qed.
  Lemma solo_exec p m q m' : solo p m q m' -> exec p m = exec q m'.
  Proof.
    induction 1; [reflexivity| |]; cbn [exec].
    - rewrite (load_some _ _ _ H). exact IHsolo.
    - rewrite store_ok by assumption. exact IHsolo.
  Qed.
  Lemma upd_nth {A} (l : list A) i x : nth_error l i = Some x -> upd l i x = l.
  Proof. revert i. induction l as [|y l IH]; intros [|i] H; cbn in *; try discriminate; [congruence|f_equal; now apply IH]. Qed.
  Lemma upd_upd {A} (l : list A) i x y : upd (upd l i x) i y = upd l i y.
  Proof. revert i. induction l as [|z l IH]; intros [|i]; cbn; try reflexivity. f_equal. apply IH. Qed.
  (** one thread of several moves, the others wait *)
  Lemma solo_steps p m q m' : solo p m q m' -> forall ps i, nth_error ps i = Some p -> exists n, steps n (ps, m) (upd ps i q, m').
  Proof.
    induction 1 as [p m|a k m v q m' Hv _ IH|a v k m q m' Ha _ IH]; intros ps i Hi.
    - exists 0%nat. rewrite upd_nth by exact Hi. constructor.
    - destruct (IH (upd ps i (k v)) i) as (n & Hn); [apply nth_upd_same; exact (length_some _ _ _ Hi)|]. rewrite upd_upd in Hn.
      exists (S n). eapply steps_more; [eapply step_read; eassumption|exact Hn].
    - destruct (IH (upd ps i k) i) as (n & Hn); [apply nth_upd_same; exact (length_some _ _ _ Hi)|]. rewrite upd_upd in Hn.
      exists (S n). eapply steps_more; [eapply step_write; eassumption|exact Hn].
  Qed.
  Lemma steps_trans n (s s1 : state T) n' s2 : steps n s s1 -> steps n' s1 s2 -> steps (n + n') s s2.
  Proof. induction 1; intros H2; [exact H2|]. cbn. eapply steps_more; eauto. Qed.

  (** a body that always passes control on *)
  Definition passes (L : nat) (f : code T -> code T) : Prop := forall k m, length m = L -> exists m', solo (f k) m k m'.
  Lemma loop_passes L body n : forall i, (forall j, (i <= j < i + n)%nat -> passes L (body j)) -> passes L (loop_from n i body).
  Proof.
    induction n as [|n IH]; intros i H k m Hm; cbn [loop_from]; [exists m; constructor|].
    destruct (H i ltac:(lia) (loop_from n (S i) body k) m Hm) as (m1 & S1).
    destruct (IH (S i) ltac:(intros j Hj; apply H; lia) k m1) as (m2 & S2); [rewrite (solo_length _ _ _ _ S1); exact Hm|].
    exists m2. eapply solo_trans; eauto.
  Qed.
  Lemma loop_reaches L body n : forall i, (forall j, (i <= j < i + n)%nat -> passes L (body j)) ->
    forall j, (i <= j < i + n)%nat -> forall k m, length m = L -> exists k' m', solo (loop_from n i body k) m (body j k') m'.
  Proof.
    induction n as [|n IH]; intros i H j Hj k m Hm; [lia|]. cbn [loop_from]. destruct (Nat.eq_dec i j) as [<-|N]; [do 2 eexists; constructor|].
    destruct (H i ltac:(lia) (loop_from n (S i) body k) m Hm) as (m1 & S1).
    destruct (IH (S i) ltac:(intros l Hl; apply H; lia) j ltac:(lia) k m1) as (k' & m2 & S2); [rewrite (solo_length _ _ _ _ S1); exact Hm|].
    exists k', m2. eapply solo_trans; eauto.
  Qed.
  Lemma fill_passes F nu co i L : (forall x, exists v, F x = Ok v) -> (nu + i < L)%nat -> (co + i < L)%nat -> passes L (fill F nu co i).
  Proof.
    intros HF H1 H2 k m Hm. destruct (load_ok m (nu + i)) as (x & _ & Hx); [lia|]. destruct (HF x) as (v & Ev).
    eexists. unfold fill. eapply solo_read; [exact Hx|]. rewrite Ev. cbn [scalar_call]. eapply solo_write; [lia|constructor].
  Qed.
  Lemma scale_passes a f i L : (a + i < L)%nat -> passes L (scale a f i).
  Proof.
    intros H1 k m Hm. destruct (load_ok m (a + i)) as (x & _ & Hx); [lia|].
    eexists. unfold scale. eapply solo_read; [exact Hx|]. eapply solo_write; [lia|constructor].
  Qed.
  Lemma back_passes a f b g i L : (a + i < L)%nat -> (b + i < L)%nat -> passes L (fun k => scale a f i (scale b g i k)).
  Proof.
    intros H1 H2 k m Hm. destruct (scale_passes a f i L H1 (scale b g i k) m Hm) as (m1 & S1).
    destruct (scale_passes b g i L H2 k m1) as (m2 & S2); [rewrite (solo_length _ _ _ _ S1); exact Hm|]. exists m2. eapply solo_trans; eauto.
  Qed.
  Lemma text_passes t nu co n L : never_fails t -> (nu + Z.to_nat n <= L)%nat -> (co + Z.to_nat n <= L)%nat -> passes L (text_code t nu co n).
  Proof.
    intros Ht H1 H2. induction t as [F|u out t IH]; intros k m Hm; cbn [text_code].
    - apply (loop_passes L); [|exact Hm]. intros j Hj. apply fill_passes; [exact Ht|lia|lia].
    - destruct (loop_passes L (scale nu (un_freq u)) (Z.to_nat n) 0 ltac:(intros j Hj; apply scale_passes; lia)
        (text_code t nu co n (loop_int n (fun i k => scale nu (un_time u) i (scale co out i k)) k)) m Hm) as (m1 & S1).
      destruct (IH Ht (loop_int n (fun i k => scale nu (un_time u) i (scale co out i k)) k) m1) as (m2 & S2); [rewrite (solo_length _ _ _ _ S1); exact Hm|].
      destruct (loop_passes L (fun i k => scale nu (un_time u) i (scale co out i k)) (Z.to_nat n) 0 ltac:(intros j Hj; apply back_passes; lia) k m2) as (m3 & S3).
      { rewrite (solo_length _ _ _ _ S2), (solo_length _ _ _ _ S1). exact Hm. }
      exists m3. eapply solo_trans; [exact S1|]. eapply solo_trans; [exact S2|exact S3].
  Qed.
  (** every cell a call may write it does come to write; every cell it may use it does come to use *)
  Lemma reach_write c m : never_fails (c_text c) -> fits c m -> forall a, overwrites c a -> exists p m', solo (thread c) m p m' /\ next p = Some (true, a).
  Proof.
    intros Ht (H1 & H2) a Ha. destruct c as [t nu co n]. unfold thread; cbn [c_text c_bins c_out c_n] in *. unfold overwrites, in_buffer in Ha; cbn [c_text c_bins c_out c_n] in Ha.
    destruct t as [F|u out t]; cbn [text_code].
    - destruct Ha as [Ha|[]]. destruct (loop_reaches (length m) (fill F nu co) (Z.to_nat n) 0 ltac:(intros j Hj; apply fill_passes; [exact Ht|lia|lia]) (a - co) ltac:(lia) (Halt (Ok tt)) m eq_refl) as (k & m1 & S1).
      destruct (load_ok m1 (nu + (a - co))) as (x & _ & Hx); [rewrite (solo_length _ _ _ _ S1); lia|]. destruct (Ht x) as (v & Ev).
      exists (Wr (co + (a - co)) v k), m1. split; [|cbn; do 2 f_equal; lia]. eapply solo_trans; [exact S1|]. unfold fill. eapply solo_read; [exact Hx|]. rewrite Ev. constructor.
    - destruct Ha as [Ha|Ha].
      + set (back := fun i k => scale nu (un_time u) i (scale co out i k)). set (rest := loop_int n back (Halt (Ok tt))).
        destruct (loop_passes (length m) (scale nu (un_freq u)) (Z.to_nat n) 0 ltac:(intros j Hj; apply scale_passes; lia) (text_code t nu co n rest) m eq_refl) as (m1 & S1).
        pose proof (solo_length _ _ _ _ S1) as L1. destruct (text_passes t nu co n (length m) Ht H1 H2 rest m1 L1) as (m2 & S2). pose proof (solo_length _ _ _ _ S2) as L2.
        destruct (loop_reaches (length m) back (Z.to_nat n) 0 ltac:(intros j Hj; apply back_passes; lia) (a - co) ltac:(lia) (Halt (Ok tt)) m2 ltac:(lia)) as (k & m3 & S3).
        pose proof (solo_length _ _ _ _ S3) as L3. destruct (scale_passes nu (un_time u) (a - co) (length m) ltac:(lia) (scale co out (a - co) k) m3 ltac:(lia)) as (m4 & S4).
        pose proof (solo_length _ _ _ _ S4) as L4. destruct (load_ok m4 (co + (a - co))) as (x & _ & Hx); [lia|].
        exists (Wr (co + (a - co)) (Omul x out) k), m4. split; [|cbn; do 2 f_equal; lia].
        eapply solo_trans; [exact S1|]. eapply solo_trans; [exact S2|]. eapply solo_trans; [exact S3|]. eapply solo_trans; [exact S4|]. unfold scale. eapply solo_read; [exact Hx|constructor].
      + match goal with |- exists p m', solo (loop_int n _ ?K) m p m' /\ _ => set (K0 := K) end.
        destruct (loop_reaches (length m) (scale nu (un_freq u)) (Z.to_nat n) 0 ltac:(intros j Hj; apply scale_passes; lia) (a - nu) ltac:(lia) K0 m eq_refl) as (k & m1 & S1).
        destruct (load_ok m1 (nu + (a - nu))) as (x & _ & Hx); [rewrite (solo_length _ _ _ _ S1); lia|].
        exists (Wr (nu + (a - nu)) (Omul x (un_freq u)) k), m1. split; [|cbn; do 2 f_equal; lia]. eapply solo_trans; [exact S1|]. unfold scale. eapply solo_read; [exact Hx|constructor].
  Qed.
  Lemma reach_access c m : never_fails (c_text c) -> fits c m -> forall a, accesses c a -> exists p m' w, solo (thread c) m p m' /\ next p = Some (w, a).
  Proof.
    intros Ht Hf a [Ha|Ha]; [|destruct (reach_write c m Ht Hf a (or_introl Ha)) as (p & m' & H); eauto].
    destruct c as [t nu co n]. destruct Hf as (H1 & H2). unfold thread; cbn [c_text c_bins c_out c_n] in *. unfold in_buffer in Ha.
    destruct t as [F|u out t]; cbn [text_code].
    - destruct (loop_reaches (length m) (fill F nu co) (Z.to_nat n) 0 ltac:(intros j Hj; apply fill_passes; [exact Ht|lia|lia]) (a - nu) ltac:(lia) (Halt (Ok tt)) m eq_refl) as (k & m1 & S1).
      eexists _, m1, false. split; [exact S1|]. cbn. do 2 f_equal. lia.
    - match goal with |- exists p m' w, solo (loop_int n _ ?K) m p m' /\ _ => set (K0 := K) end.
      destruct (loop_reaches (length m) (scale nu (un_freq u)) (Z.to_nat n) 0 ltac:(intros j Hj; apply scale_passes; lia) (a - nu) ltac:(lia) K0 m eq_refl) as (k & m1 & S1).
      eexists _, m1, false. split; [exact S1|]. cbn. do 2 f_equal. lia.
  Qed.
  Lemma alone_ok c m : never_fails (c_text c) -> fits c m -> exists m', alone c m = Ok m'.
  Proof.
    intros Ht (H1 & H2). destruct (text_passes (c_text c) (c_bins c) (c_out c) (c_n c) (length m) Ht H1 H2 (Halt (Ok tt)) m eq_refl) as (m' & S1).
    exists m'. rewrite <- exec_thread. apply (solo_exec _ _ _ _ S1).
  Qed.
  (** whatever runs, each thread keeps to the cells of its call *)
  Lemma steps_within (cs : list (Call T)) n (s s' : state T) : steps n s s' ->
    (forall i p, nth_error (fst s) i = Some p -> exists c, nth_error cs i = Some c /\ within (accesses c) (overwrites c) p) ->
    (forall i p, nth_error (fst s') i = Some p -> exists c, nth_error cs i = Some c /\ within (accesses c) (overwrites c) p).
  Proof.
    induction 1 as [s|n s s1 s2 H1 H2 IH]; intros H; [exact H|]. apply IH. clear IH H2.
    destruct H1 as [ps m i a k x Hp Hx|ps m i a x k Hp Ha]; cbn [fst] in *; intros j q Hq; (destruct (nth_upd_cases _ _ _ _ _ Hq) as [(<- & <- & Hi)|(N & Hq')]; [|now apply H]);
      destruct (H i _ Hp) as (c & Hc & Hw); exists c; (split; [exact Hc|]); inversion Hw; subst; auto.
  Qed.
End Reach.

(** Any number of calls, any arithmetic, any texts (tabulated and unit-converting ones
    included) that succeed alone: if no call may write a cell that another may use, running
    them at once in any order of their accesses is harmless. *)
Lemma C58_as_if_alone_proof :
  forall (T : Type) (O : Ops T) (cs : list (Call T)) (m : mem T), no_conflict cs ->
  (forall c, In c cs -> exists m', alone c m = Ok m') -> as_if_alone cs m.
Proof.
  intros T O cs m Hnc Hok. set (A := fun i a => exists c, nth_error cs i = Some c /\ accesses c a). set (W := fun i a => exists c, nth_error cs i = Some c /\ overwrites c a).
  assert (sub : forall i a, W i a -> A i a).
  { intros i a (c & Hc & Ha). exists c. split; [exact Hc|]. destruct Ha as [Ha|Ha]; [now right|]. destruct (c_text c); [destruct Ha|now left]. }
  assert (apart : forall i j a, i <> j -> W i a -> A j a -> False).
  { intros i j a N (c & Hc & Ha) (d & Hd & Hb). apply (Hnc i j c d N Hc Hd). exists a. now split. }
  assert (R : exists res, length res = length cs /\ forall i c, nth_error cs i = Some c -> exists m', nth_error res i = Some m' /\ alone c m = Ok m').
  { clear Hnc A W sub apart. induction cs as [|c cs IH]; [exists []; split; [reflexivity|intros [|i] c; discriminate]|].
    destruct IH as (res & L & H); [intros d Hd; apply Hok; now right|]. destruct (Hok c (or_introl eq_refl)) as (m' & E). exists (m' :: res). split; [cbn; lia|].
    intros [|i] d; cbn; [intros [= <-]; eauto|apply H]. }
  destruct R as (res & Lres & Hres).
  assert (I0 : inv A W m res (map thread cs, m) (map (fun _ => m) cs)).
  { split; [cbn [fst]; rewrite map_length; lia|]. split; [rewrite map_length; lia|]. split; [reflexivity|]. cbn [fst snd]. split; [|reflexivity].
    intros i p Hp. rewrite nth_error_map in Hp. destruct (nth_error cs i) as [c|] eqn:Ec; [|discriminate]. injection Hp as <-.
    destruct (Hres i c Ec) as (m' & E1 & E2). exists m, m'. split; [rewrite nth_error_map, Ec; reflexivity|]. split; [exact E1|]. split.
    - assert (Hw := within_thread c). clear - Hw Ec. subst A W. induction Hw; constructor; eauto.
    - split; [rewrite exec_thread; exact E2|]. split; reflexivity. }
  split.
  - exists (total (map thread cs) (map (fun _ => m) cs)). intros n s Hs. destruct (inv_steps A W m res apart _ _ _ _ Hs I0) as (vs & _ & E). cbn [fst] in E. lia.
  - intros n s Hs. destruct (inv_steps A W m res apart _ _ _ _ Hs I0) as (vs & I & _). split; [exact (inv_racy A W m res sub apart _ _ I)|].
    split; [exact (inv_stray A W m res _ _ I)|]. split; [exact (inv_progress A W m res _ _ I)|]. intros F. split; [apply I|]. split.
    + intros c m' Hc Ha a Hw. destruct (In_nth_error _ _ Hc) as (i & Hi). destruct (Hres i c Hi) as (m2 & E1 & E2). replace m' with m2 by congruence.
      apply (inv_finished A W m res _ _ I F i m2 E1). apply sub. exists c. now split.
    + intros a Ha. apply I. intros i Hi (c & Hc & Hw). exact (Ha c (nth_error_In _ _ Hc) Hw).
Qed.

(** Exactly which calls race: for calls whose scalar call never fails and whose buffers exist,
    some order of the accesses is a data race if and only if one call may write a cell that
    another one may use. *)
Lemma C58_race_exactly_proof :
  forall (T : Type) (O : Ops T) (cs : list (Call T)) (m : mem T),
  (forall c, In c cs -> never_fails (c_text c) /\ fits c m) ->
  ((exists n s, steps n (map thread cs, m) s /\ racy s) <->
   (exists i j c d, i <> j /\ nth_error cs i = Some c /\ nth_error cs j = Some d /\ conflict c d)).
Proof.
  intros T O cs m H. split.
  - intros (n & s & Hs & (i & j & p & q & w & w' & a & N & Hi & Hj & Ni & Nj & Hw)).
    assert (K := steps_within cs n _ _ Hs). cbn [fst] in K. specialize (K ltac:(intros l r Hl; rewrite nth_error_map in Hl; destruct (nth_error cs l) as [c|] eqn:Ec; [|discriminate]; injection Hl as <-; exists c; split; [reflexivity|apply within_thread])).
    destruct (K i p Hi) as (c & Hc & Wc). destruct (K j q Hj) as (d & Hd & Wd).
    assert (HA : forall (c : Call T) (p : code T) b, within (accesses c) (overwrites c) p -> next p = Some (b, a) -> accesses c a /\ (b = true -> overwrites c a)).
    { clear. intros c p b Hc Hn. destruct Hc as [r|a' k Ha Hk|a' x k Ha Hk]; cbn in Hn; [discriminate|injection Hn as <- <-; split; [exact Ha|discriminate]|].
      injection Hn as <- <-. split; [|intros _; exact Ha]. destruct Ha as [Ha|Ha]; [now right|]. destruct (c_text c); [destruct Ha|now left]. }
    destruct (HA c p w Wc Ni) as (A1 & B1). destruct (HA d q w' Wd Nj) as (A2 & B2).
    destruct Hw as [E|E]; [exists i, j, c, d|exists j, i, d, c]; (split; [congruence|]); (split; [assumption|]); (split; [assumption|]); exists a; split; auto.
  - intros (i & j & c & d & N & Hc & Hd & (a & Ha & Hb)). destruct (H c (nth_error_In _ _ Hc)) as (Tc & Fc). destruct (H d (nth_error_In _ _ Hd)) as (Td & Fd).
    destruct (reach_write c m Tc Fc a Ha) as (p & m1 & S1 & N1). pose proof (solo_length _ _ _ _ S1) as L1.
    destruct (reach_access d m1 Td ltac:(unfold fits; rewrite L1; exact Fd) a Hb) as (q & m2 & w & S2 & N2).
    assert (Hi : nth_error (map thread cs) i = Some (thread c)) by (rewrite nth_error_map, Hc; reflexivity).
    assert (Hj : nth_error (map thread cs) j = Some (thread d)) by (rewrite nth_error_map, Hd; reflexivity).
    destruct (solo_steps _ _ _ _ S1 (map thread cs) i Hi) as (n1 & P1). destruct (solo_steps _ _ _ _ S2 (upd (map thread cs) i p) j) as (n2 & P2); [rewrite nth_upd_other by exact N; exact Hj|].
    exists (n1 + n2)%nat. eexists. split; [eapply steps_trans; [exact P1|exact P2]|]. exists i, j, p, q, true, w, a. cbn [fst].
    split; [exact N|]. split; [rewrite nth_upd_other by congruence; apply nth_upd_same; exact (length_some _ _ _ Hi)|].
    split; [apply nth_upd_same; rewrite upd_length; exact (length_some _ _ _ Hj)|]. split; [exact N1|]. split; [exact N2|now left].
Qed.

(** The texts of the array overloads, any arithmetic: the plain classes loop around their own
    scalar call, which never fails for the closed forms; the unit wrappers convert around the
    overload they wrap; the variant holds one of these. *)
Lemma C58_texts_photon_proof :
  forall (T : Type) (O : Ops T) (pc : PhysConst T) (o : PhotonOpac T) (rho temp : T),
  (photon_opacity pc o ->
   ph_Absorption_v o rho temp = text_call (Plain (ph_Absorption o rho temp)) /\
   ph_AngleAvgAbsorption_v o rho temp = text_call (Plain (ph_AngleAvgAbsorption o rho temp)) /\
   ph_EmissivityPerNuOmega_v o rho temp = text_call (Plain (ph_EmissivityPerNuOmega o rho temp)) /\
   ph_EmissivityPerNu_v o rho temp = text_call (Plain (ph_EmissivityPerNu o rho temp)) /\
   never_fails (Plain (ph_Absorption o rho temp)) /\ never_fails (Plain (ph_AngleAvgAbsorption o rho temp)) /\
   never_fails (Plain (ph_EmissivityPerNuOmega o rho temp)) /\ never_fails (Plain (ph_EmissivityPerNu o rho temp))) /\
  (forall (u : Units T) (t : array_text T), let w := NonCGSUnits pc o u in
   (ph_Absorption_v o (Omul rho (un_rho u)) (Omul temp (un_temp u)) = text_call t ->
      ph_Absorption_v w rho temp = text_call (Converting u (un_length u) t)) /\
   (ph_AngleAvgAbsorption_v o (Omul rho (un_rho u)) (Omul temp (un_temp u)) = text_call t ->
      ph_AngleAvgAbsorption_v w rho temp = text_call (Converting u (un_length u) t)) /\
   (ph_EmissivityPerNuOmega_v o (Omul rho (un_rho u)) (Omul temp (un_temp u)) = text_call t ->
      ph_EmissivityPerNuOmega_v w rho temp = text_call (Converting u (un_inv_emiss u) t)) /\
   (ph_EmissivityPerNu_v o (Omul rho (un_rho u)) (Omul temp (un_temp u)) = text_call t ->
      ph_EmissivityPerNu_v w rho temp = text_call (Converting u (un_inv_emiss u) t))) /\
  (forall v : @PhotonAlt T,
   ph_Absorption_v (ph_variant v) rho temp = ph_Absorption_v (ph_held v) rho temp /\
   ph_AngleAvgAbsorption_v (ph_variant v) rho temp = ph_AngleAvgAbsorption_v (ph_held v) rho temp /\
   ph_EmissivityPerNuOmega_v (ph_variant v) rho temp = ph_EmissivityPerNuOmega_v (ph_held v) rho temp /\
   ph_EmissivityPerNu_v (ph_variant v) rho temp = ph_EmissivityPerNu_v (ph_held v) rho temp).
Proof.
  intros T O pc o rho temp. split; [|split].
  - intros [[kap ->]|[[p ->]| ->]]; repeat split; intros x; eexists; reflexivity.
  - intros u t w. repeat split; intros E; cbn [text_call]; rewrite <- E; reflexivity.
  - intros v. repeat split.
Qed.

Lemma C58_texts_neutrino_proof :
  forall (T : Type) (O : Ops T) (ns : Z) (pc : PhysConst T) (o : NuOpac T) (rho temp Ye : T) (type : RadiationType),
  (neutrino_opacity ns pc o \/ (exists tables, o = SpinerOpacity ns pc tables) ->
   nu_Absorption_v o rho temp Ye type = text_call (Plain (nu_Absorption o rho temp Ye type)) /\
   nu_AngleAvgAbsorption_v o rho temp Ye type = text_call (Plain (nu_AngleAvgAbsorption o rho temp Ye type)) /\
   nu_EmissivityPerNuOmega_v o rho temp Ye type = text_call (Plain (nu_EmissivityPerNuOmega o rho temp Ye type)) /\
   nu_EmissivityPerNu_v o rho temp Ye type = text_call (Plain (nu_EmissivityPerNu o rho temp Ye type))) /\
  (neutrino_opacity ns pc o ->
   never_fails (Plain (nu_Absorption o rho temp Ye type)) /\ never_fails (Plain (nu_AngleAvgAbsorption o rho temp Ye type)) /\
   never_fails (Plain (nu_EmissivityPerNuOmega o rho temp Ye type)) /\ never_fails (Plain (nu_EmissivityPerNu o rho temp Ye type))) /\
  (forall (u : Units T) (t : array_text T), let w := NuNonCGSUnits pc o u in
   (nu_Absorption_v o (Omul rho (un_rho u)) (Omul temp (un_temp u)) Ye type = text_call t ->
      nu_Absorption_v w rho temp Ye type = text_call (Converting u (un_length u) t)) /\
   (nu_AngleAvgAbsorption_v o (Omul rho (un_rho u)) (Omul temp (un_temp u)) Ye type = text_call t ->
      nu_AngleAvgAbsorption_v w rho temp Ye type = text_call (Converting u (un_length u) t)) /\
   (nu_EmissivityPerNuOmega_v o (Omul rho (un_rho u)) (Omul temp (un_temp u)) Ye type = text_call t ->
      nu_EmissivityPerNuOmega_v w rho temp Ye type = text_call (Converting u (un_inv_emiss u) t)) /\
   (nu_EmissivityPerNu_v o (Omul rho (un_rho u)) (Omul temp (un_temp u)) Ye type = text_call t ->
      nu_EmissivityPerNu_v w rho temp Ye type = text_call (Converting u (un_inv_emiss u) t))) /\
  (forall v : @NuAlt T,
   nu_Absorption_v (nu_variant v) rho temp Ye type = nu_Absorption_v (nu_held v) rho temp Ye type /\
   nu_AngleAvgAbsorption_v (nu_variant v) rho temp Ye type = nu_AngleAvgAbsorption_v (nu_held v) rho temp Ye type /\
   nu_EmissivityPerNuOmega_v (nu_variant v) rho temp Ye type = nu_EmissivityPerNuOmega_v (nu_held v) rho temp Ye type /\
   nu_EmissivityPerNu_v (nu_variant v) rho temp Ye type = nu_EmissivityPerNu_v (nu_held v) rho temp Ye type).
Proof.
  intros T O ns pc o rho temp Ye ty. split; [|split; [|split]].
  - intros [[[kap ->]|[->|[C [n1 [n2 ->]]]]]|[tb ->]]; repeat split.
  - intros [[kap ->]|[->|[C [n1 [n2 ->]]]]]; repeat split; intros x; eexists; reflexivity.
  - intros u t w. repeat split; intros E; cbn [text_call]; rewrite <- E; reflexivity.
  - intros v. repeat split.
Qed.

(** Calls of plain classes may share their frequency bins: with outputs apart from one another
    and from all bins, any number of them at once leaves in every output the scalar results at
    the bins, and everything else as it was. *)
Lemma C58_shared_bins_proof :
  forall (T : Type) (O : Ops T) (cs : list (Call T)) (m : mem T),
  (forall c, In c cs -> fits c m /\ exists F, c_text c = Plain F /\ never_fails (c_text c)) ->
  (forall i j c d, i <> j -> nth_error cs i = Some c -> nth_error cs j = Some d ->
     forall a, in_buffer (c_out c) (c_n c) a -> ~ in_buffer (c_out d) (c_n d) a) ->
  (forall c d, In c cs -> In d cs -> forall a, in_buffer (c_out c) (c_n c) a -> ~ in_buffer (c_bins d) (c_n d) a) ->
  as_if_alone cs m /\
  forall n s, steps n (map thread cs, m) s -> finished s ->
    (forall c F, In c cs -> c_text c = Plain F -> forall i nu, (i < Z.to_nat (c_n c))%nat -> nth_error m (c_bins c + i) = Some nu ->
       exists v, F nu = Ok v /\ nth_error (snd s) (c_out c + i) = Some v) /\
    (forall a, (forall c, In c cs -> ~ in_buffer (c_out c) (c_n c) a) -> nth_error (snd s) a = nth_error m a).
Proof.
  intros T O cs m Hc Hoo Hob.
  assert (P : as_if_alone cs m).
  { apply C58_as_if_alone_proof.
    - intros i j c d N Hi Hj (a & Wa & Aa). destruct (Hc c (nth_error_In _ _ Hi)) as (_ & F & E & _). unfold overwrites in Wa. rewrite E in Wa. destruct Wa as [Wa|[]].
      destruct Aa as [Aa|Aa]; [exact (Hob c d (nth_error_In _ _ Hi) (nth_error_In _ _ Hj) a Wa Aa)|exact (Hoo i j c d N Hi Hj a Wa Aa)].
    - intros c Hin. destruct (Hc c Hin) as (Hf & F & E & Hn). now apply alone_ok. }
  split; [exact P|]. intros n s Hs Hfin. destruct P as (_ & P). destruct (P n s Hs) as (_ & _ & _ & P4). destruct (P4 Hfin) as (L & P5 & P6). split.
  - intros c F Hin E i nu Hi Hnu. destruct (Hc c Hin) as (Hf & F' & E' & Hn). rewrite E in E'. injection E' as <-. destruct (alone_ok c m Hn Hf) as (m' & Em).
    pose proof Em as Em2. unfold alone in Em2. rewrite E in Em2, Hn. cbn [text_call] in Em2.
    destruct (array_loop_or_fail F (c_bins c) (c_out c) (c_n c) m) as (_ & B). destruct Hf as (F1 & F2).
    assert (Ap : (c_out c <= c_bins c \/ c_bins c + Z.to_nat (c_n c) <= c_out c)%nat).
    { destruct (le_lt_dec (c_out c) (c_bins c)); [now left|]. right. destruct (le_lt_dec (c_bins c + Z.to_nat (c_n c)) (c_out c)); [assumption|].
      exfalso. apply (Hob c c Hin Hin (c_out c)); unfold in_buffer; lia. }
    destruct (B ltac:(lia) F1 F2 Ap) as (B1 & _). destruct (B1 ltac:(intros k x _ _; apply Hn)) as (m2 & G1 & _ & G3 & _). rewrite Em2 in G1. injection G1 as <-.
    destruct (G3 i nu Hi Hnu) as (v & V1 & V2). exists v. split; [exact V1|]. rewrite (P5 c m' Hin Em (c_out c + i)%nat); [exact V2|]. left. unfold in_buffer. lia.
  - intros a Ha. apply P6. intros c Hin Wa. destruct (Hc c Hin) as (_ & F & E & _). unfold overwrites in Wa. rewrite E in Wa. destruct Wa as [Wa|[]]. exact (Ha c Hin Wa).
Qed.

(** Unit-converting calls must not share bins: whatever the class, the units, the density and
    the temperature, two calls with a common frequency array race, however far apart their
    outputs are. *)
Lemma C58_converting_race_refuted_proof :
  forall (T : Type) (O : Ops T) (pc : PhysConst T) (o : PhotonOpac T), photon_opacity pc o ->
  forall (u : Units T) (rho1 temp1 rho2 temp2 : T) (bins out1 out2 : nat) (n : Z) (m : mem T),
  (0 < n)%Z -> (bins + Z.to_nat n <= length m)%nat -> (out1 + Z.to_nat n <= length m)%nat -> (out2 + Z.to_nat n <= length m)%nat ->
  exists c1 c2, c_bins c1 = bins /\ c_out c1 = out1 /\ c_n c1 = n /\ c_bins c2 = bins /\ c_out c2 = out2 /\ c_n c2 = n /\
    ph_Absorption_v (NonCGSUnits pc o u) rho1 temp1 = text_call (c_text c1) /\
    ph_Absorption_v (NonCGSUnits pc o u) rho2 temp2 = text_call (c_text c2) /\
    exists k s, steps k (map thread [c1; c2], m) s /\ racy s.
Proof.
  intros T O pc o Ho u rho1 temp1 rho2 temp2 bins out1 out2 n m Hn H0 H1 H2.
  assert (E : forall rho temp, ph_Absorption_v o (Omul rho (un_rho u)) (Omul temp (un_temp u)) = text_call (Plain (ph_Absorption o (Omul rho (un_rho u)) (Omul temp (un_temp u)))) /\
    never_fails (Plain (ph_Absorption o (Omul rho (un_rho u)) (Omul temp (un_temp u))))).
  { intros rho temp. destruct (C58_texts_photon_proof T O pc o (Omul rho (un_rho u)) (Omul temp (un_temp u))) as (X & _). destruct (X Ho) as (X1 & _ & _ & _ & X5 & _). now split. }
  set (t := fun rho temp => Converting u (un_length u) (Plain (ph_Absorption o (Omul rho (un_rho u)) (Omul temp (un_temp u))))).
  exists {| c_text := t rho1 temp1; c_bins := bins; c_out := out1; c_n := n |}, {| c_text := t rho2 temp2; c_bins := bins; c_out := out2; c_n := n |}. cbn [c_bins c_out c_n c_text].
  do 6 (split; [reflexivity|]). split; [destruct (C58_texts_photon_proof T O pc o rho1 temp1) as (_ & X & _); apply X; apply E|].
  split; [destruct (C58_texts_photon_proof T O pc o rho2 temp2) as (_ & X & _); apply X; apply E|].
  apply C58_race_exactly_proof.
  - intros c [<-|[<-|[]]]; (split; [apply E|split; cbn; assumption]).
  - exists 0%nat, 1%nat. do 2 eexists. split; [discriminate|]. split; [reflexivity|]. split; [reflexivity|]. exists bins. split; [right|left]; cbn; unfold in_buffer; lia.
Qed.

(** And what comes of it, in any arithmetic: two calls on one bin whose updates of the bin
    cross leave it multiplied by the time unit once too often; and calls that convert the bin
    before either uses it evaluate the opacity at a frequency converted twice. *)
Lemma C58_converting_results_refuted_proof :
  forall (T : Type) (O : Ops T) (F : T -> result T) (u : Units T) (out x y1 y2 : T), (forall v, exists w, F v = Ok w) ->
  let call a := {| c_text := Converting u out (Plain F); c_bins := 0; c_out := a; c_n := 1 |} in
  let start := (map thread [call 1%nat; call 2%nat], [x; y1; y2]) in
  (exists k s, steps k start s /\ finished s /\
     nth_error (snd s) 0 = Some (Omul (Omul (Omul x (un_freq u)) (un_time u)) (un_time u))) /\
  (exists k s v, steps k start s /\ finished s /\ F (Omul (Omul x (un_freq u)) (un_freq u)) = Ok v /\
     nth_error (snd s) 1 = Some (Omul v out) /\ nth_error (snd s) 2 = Some (Omul v out)).
Proof.
  intros T O F u out x y1 y2 HF. cbv zeta. unfold thread; cbn [map c_text c_bins c_out c_n text_code]. unfold loop_int. change (Z.to_nat 1) with 1%nat. cbn [loop_from]. unfold fill, scale. cbn [Nat.add].
  split.
  - destruct (HF (Omul x (un_freq u))) as (v & Ev).
    assert (Fin : forall s : state T, fst s = [Halt (Ok tt); Halt (Ok tt)] -> finished s) by (intros s E p; rewrite E; intros [<-|[<-|[]]]; reflexivity).
    do 2 eexists. split; [|split].
    + eapply steps_more; [eapply (step_read _ _ 0); reflexivity|cbn [upd]]. eapply steps_more; [eapply (step_read _ _ 1); reflexivity|cbn [upd]].
      eapply steps_more; [eapply (step_write _ _ 0); [reflexivity|cbn; lia]|cbn [upd]]. eapply steps_more; [eapply (step_write _ _ 1); [reflexivity|cbn; lia]|cbn [upd]].
      eapply steps_more; [eapply (step_read _ _ 0); reflexivity|cbn [upd]]. rewrite Ev; cbn [scalar_call]. eapply steps_more; [eapply (step_write _ _ 0); [reflexivity|cbn; lia]|cbn [upd]].
      eapply steps_more; [eapply (step_read _ _ 1); reflexivity|cbn [upd]]. rewrite Ev; cbn [scalar_call]. eapply steps_more; [eapply (step_write _ _ 1); [reflexivity|cbn; lia]|cbn [upd]].
      do 2 (eapply steps_more; [eapply (step_read _ _ 0); reflexivity|cbn [upd]]; eapply steps_more; [eapply (step_write _ _ 0); [reflexivity|cbn; lia]|cbn [upd]]).
      do 2 (eapply steps_more; [eapply (step_read _ _ 1); reflexivity|cbn [upd]]; eapply steps_more; [eapply (step_write _ _ 1); [reflexivity|cbn; lia]|cbn [upd]]).
      apply steps_none.
    + apply Fin. reflexivity.
    + reflexivity.
  - destruct (HF (Omul (Omul x (un_freq u)) (un_freq u))) as (v & Ev).
    assert (Fin : forall s : state T, fst s = [Halt (Ok tt); Halt (Ok tt)] -> finished s) by (intros s E p; rewrite E; intros [<-|[<-|[]]]; reflexivity).
    do 2 eexists. exists v. split; [|split; [|split; [exact Ev|]]].
    + eapply steps_more; [eapply (step_read _ _ 0); reflexivity|cbn [upd]]. eapply steps_more; [eapply (step_write _ _ 0); [reflexivity|cbn; lia]|cbn [upd]].
      eapply steps_more; [eapply (step_read _ _ 1); reflexivity|cbn [upd]]. eapply steps_more; [eapply (step_write _ _ 1); [reflexivity|cbn; lia]|cbn [upd]].
      eapply steps_more; [eapply (step_read _ _ 0); reflexivity|cbn [upd]]. rewrite Ev; cbn [scalar_call]. eapply steps_more; [eapply (step_write _ _ 0); [reflexivity|cbn; lia]|cbn [upd]].
      eapply steps_more; [eapply (step_read _ _ 1); reflexivity|cbn [upd]]. rewrite Ev; cbn [scalar_call]. eapply steps_more; [eapply (step_write _ _ 1); [reflexivity|cbn; lia]|cbn [upd]].
      do 2 (eapply steps_more; [eapply (step_read _ _ 0); reflexivity|cbn [upd]]; eapply steps_more; [eapply (step_write _ _ 0); [reflexivity|cbn; lia]|cbn [upd]]).
      do 2 (eapply steps_more; [eapply (step_read _ _ 1); reflexivity|cbn [upd]]; eapply steps_more; [eapply (step_write _ _ 1); [reflexivity|cbn; lia]|cbn [upd]]).
      apply steps_none.
    + apply Fin. reflexivity.
    + split; reflexivity.
Qed.

(** Three gray calls on the same two bins, one output buffer each. *)
Lemma C58_shared_bins_example :
  let o := GrayOpacity (T := ER) PhysicalConstantsUnity (OofZ 1) in
  let call rho a := {| c_text := Plain (ph_Absorption o rho (OofZ 1)); c_bins := 0; c_out := a; c_n := 2 |} in
  let cs := [call (OofZ 1) 2%nat; call (OofZ 2) 4%nat; call (OofZ 3) 6%nat] in let m := repeat (OofZ 5 : ER) 8 in
  (forall c, In c cs -> fits c m /\ exists F, c_text c = Plain F /\ never_fails (c_text c)) /\
  (forall i j c d, i <> j -> nth_error cs i = Some c -> nth_error cs j = Some d ->
     forall a, in_buffer (c_out c) (c_n c) a -> ~ in_buffer (c_out d) (c_n d) a) /\
  (forall c d, In c cs -> In d cs -> forall a, in_buffer (c_out c) (c_n c) a -> ~ in_buffer (c_bins d) (c_n d) a) /\
  no_conflict cs /\ (forall c, In c cs -> exists m', alone c m = Ok m').
Proof.
  cbv zeta. match goal with |- ?A /\ ?B /\ ?C /\ _ => assert (HA : A); [|assert (HB : B); [|assert (HC : C)]] end.
  - intros c [<-|[<-|[<-|[]]]]; (split; [unfold fits; cbn; lia|eexists; split; [reflexivity|intros x; eexists; reflexivity]]).
  - intros [|[|[|i]]] [|[|[|j]]] c d N Hi Hj; try contradiction; cbn in Hi, Hj; try (destruct i; discriminate); try (destruct j; discriminate);
      injection Hi as <-; injection Hj as <-; unfold in_buffer; cbn; lia.
  - intros c d [<-|[<-|[<-|[]]]] [<-|[<-|[<-|[]]]]; unfold in_buffer; cbn; lia.
  - split; [exact HA|]. split; [exact HB|]. split; [exact HC|]. split.
    + intros i j c d N Hi Hj (a & Wa & Aa). destruct (HA c (nth_error_In _ _ Hi)) as (_ & F & E & _). unfold overwrites in Wa. rewrite E in Wa. destruct Wa as [Wa|[]].
      destruct Aa as [Aa|Aa]; [exact (HC c d (nth_error_In _ _ Hi) (nth_error_In _ _ Hj) a Wa Aa)|exact (HB i j c d N Hi Hj a Wa Aa)].
    + intros c Hin. destruct (HA c Hin) as (Hf & F & E & Hn). now apply alone_ok.
Qed.
(** Two unit-converting calls with bins of their own do not conflict; with common bins they do,
    and with a time unit of 2 the crossed updates turn the frequency 1 into 2. *)
Lemma C58_converting_example :
  let u := mk_units (T := ER) (Fin 2) (Fin 1) (Fin 1) (Fin 1) in
  let F := ph_Absorption (GrayOpacity (T := ER) PhysicalConstantsUnity (OofZ 1)) (OofZ 1) (OofZ 1) in
  let call b a := {| c_text := Converting u (un_length u) (Plain F); c_bins := b; c_out := a; c_n := 1 |} in
  never_fails (c_text (call 0%nat 1%nat)) /\
  no_conflict [call 0%nat 1%nat; call 2%nat 3%nat] /\ conflict (call 0%nat 1%nat) (call 0%nat 2%nat) /\
  (forall v, exists w, F v = Ok w) /\
  Omul (Omul (Omul (Fin 1) (un_freq u)) (un_time u)) (un_time u) = Fin 2.
Proof.
  cbv zeta. split; [intros x; eexists; reflexivity|]. split; [|split; [|split]].
  - intros [|[|i]] [|[|j]] c d N Hi Hj; try contradiction; cbn in Hi, Hj; try (destruct i; discriminate); try (destruct j; discriminate);
      injection Hi as <-; injection Hj as <-; intros (a & [Wa|Wa] & [Aa|Aa]); unfold in_buffer in *; cbn in *; lia.
  - exists 0%nat. split; [right|left]; unfold in_buffer; cbn; lia.
  - intros v. eexists. reflexivity.
  - cbn [un_freq un_time mk_units]. rewrite fin_ofZ, fin_div by lra. rewrite !fin_mul. f_equal. field.
Qed.
