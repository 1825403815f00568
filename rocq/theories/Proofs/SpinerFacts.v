(** The four tables of SpinerOpacity: what the fill loops leave in every cell. *)
From Coq Require Import Reals ZArith List Lia Lra Bool Classical_Prop.
From Verif Require Import Base.Outcome Base.Ops Inst.ER Inst.ERTac Model.Constants Model.RadTypes Model.NeutrinoApi
  Model.Spiner Model.SpinerNeutrinos Spec.Tables Proofs.ArrayFacts Proofs.InterpFacts Proofs.FillFacts Proofs.MeanTotal.
Import ListNotations.
Open Scope R_scope.

(** ** loops that write each cell at most once *)
Section Writes.
  Context {S K X : Type} (valid : K -> Prop) (get : S -> K -> option X) (V : K -> X) (P : S -> Prop).

  (** from a state satisfying [P], [b] succeeds, keeps [P], writes [V] in the cells [D] and
      leaves the other cells alone *)
  Definition writes (b : S -> result S) (D : K -> Prop) : Prop :=
    forall st, P st -> exists st', b st = Ok st' /\ P st' /\
      (forall k, valid k -> D k -> get st' k = Some (V k)) /\
      (forall k, valid k -> ~ D k -> get st' k = get st k).

  Lemma writes_iff b D D' : (forall k, D k <-> D' k) -> writes b D -> writes b D'.
  Proof.
    intros E H st Pst. destruct (H st Pst) as (st' & E1 & P1 & A & B). exists st'. split; [exact E1|].
    split; [exact P1|]. split; intros k Hk Dk; [apply A|apply B]; auto; now rewrite E.
  Qed.

  Lemma writes_then b c D D' : writes b D -> writes c D' ->
    writes (fun st => s <- b st ;; c s) (fun k => D k \/ D' k).
  Proof.
    intros H1 H2 st Pst. destruct (H1 st Pst) as (s1 & E1 & P1 & A1 & B1).
    destruct (H2 s1 P1) as (s2 & E2 & P2 & A2 & B2). exists s2. rewrite E1. cbn [bind]. split; [exact E2|].
    split; [exact P2|]. split.
    - intros k Hk [Dk|Dk]; [|now apply A2]. destruct (classic (D' k)) as [N|N]; [now apply A2|].
      rewrite B2 by auto. now apply A1.
    - intros k Hk N. rewrite B2, B1 by tauto. reflexivity.
  Qed.

  Lemma writes_for (n : Z) (body : nat -> S -> result S) (D : nat -> K -> Prop) :
    (forall k, (Z.of_nat k < n)%Z -> writes (body k) (D k)) ->
    writes (for_int n body) (fun c => exists k, (Z.of_nat k < n)%Z /\ D k c).
  Proof.
    intros H. unfold for_int, for_loop.
    assert (G : forall m, (Z.of_nat m <= n)%Z \/ m = 0%nat ->
      writes (for_from m 0 body) (fun i => exists k, (k < m)%nat /\ D k i)).
    { induction m as [|m IH]; intros Hm.
      - intros st Pst. exists st. split; [reflexivity|]. split; [exact Pst|].
        split; [intros i _ (k & K0 & _); lia|reflexivity].
      - assert (W : writes (fun st => s <- for_from m 0 body st ;; body m s)
          (fun i => (exists k, (k < m)%nat /\ D k i) \/ D m i)).
        { apply writes_then; [apply IH; lia|apply H; lia]. }
        intros st Pst. rewrite for_from_S_last, Nat.add_0_l.
        destruct (W st Pst) as (st' & E1 & P1 & A & B). exists st'. split; [exact E1|]. split; [exact P1|]. split.
        + intros c Hc (k & Hk & Dk). apply A; [exact Hc|]. destruct (Nat.eq_dec k m) as [->|N]; [now right|].
          left. exists k. split; [lia|exact Dk].
        + intros c Hc N. apply B; [exact Hc|]. intros [(k & Hk & Dk)|Dk]; apply N; [exists k|exists m]; split; auto. }
    apply (writes_iff _ (fun i => exists k, (k < Z.to_nat n)%nat /\ D k i)); [|apply G; lia].
    intros c. split; intros (k & Hk & Dk); exists k; (split; [lia|exact Dk]).
  Qed.
End Writes.

(** ** cells of the tables *)
Inductive cell := C4 (i j y s : nat) | C5 (i j y s e : nat).

Lemma flat_inj m i j i' j' : (0 <= j < m)%Z -> (0 <= j' < m)%Z -> (i * m + j = i' * m + j')%Z -> i = i' /\ j = j'.
Proof.
  intros H H' E. assert (i = i').
  { destruct (Z.lt_trichotomy i i') as [L|[L|L]]; [|exact L|]; exfalso; nia. }
  subst. lia.
Qed.

Section Cells.
  Context {T : Type} (NR NT NY NS NE : Z).

  Definition valid_cell (k : cell) : Prop :=
    match k with
    | C4 i j y s => (Z.of_nat i < NR /\ Z.of_nat j < NT /\ Z.of_nat y < NY /\ Z.of_nat s < NS)%Z
    | C5 i j y s e => (Z.of_nat i < NR /\ Z.of_nat j < NT /\ Z.of_nat y < NY /\ Z.of_nat s < NS /\ Z.of_nat e < NE)%Z
    end.
  Definition cell_index (k : cell) : Z :=
    match k with
    | C4 i j y s => sp_cell4 NT NY NS i j y s
    | C5 i j y s e => sp_cell5 NT NY NS NE i j y s e
    end.
  (** lJ and lJYe, or lalphanu and ljnu *)
  Definition get_cell (d : sp_data T) (k : cell) : option (T * T) :=
    match k with
    | C4 _ _ _ _ => get2 (d_J d, d_JYe d) (cell_index k)
    | C5 _ _ _ _ _ => get2 (d_alpha d, d_jnu d) (cell_index k)
    end.

  Definition sized (d : sp_data T) : Prop :=
    Z.of_nat (length (d_J d)) = (NR * NT * NY * NS)%Z /\ Z.of_nat (length (d_JYe d)) = (NR * NT * NY * NS)%Z /\
    Z.of_nat (length (d_alpha d)) = (NR * NT * NY * NS * NE)%Z /\ Z.of_nat (length (d_jnu d)) = (NR * NT * NY * NS * NE)%Z.

  Lemma cell4_range i j y s : valid_cell (C4 i j y s) -> (0 <= sp_cell4 NT NY NS i j y s < NR * NT * NY * NS)%Z.
  Proof. intros (A & B & C & D). unfold sp_cell4. repeat (apply flat_lt; [|lia]). lia. Qed.
  Lemma cell5_range i j y s e : valid_cell (C5 i j y s e) -> (0 <= sp_cell5 NT NY NS NE i j y s e < NR * NT * NY * NS * NE)%Z.
  Proof. intros (A & B & C & D & E). unfold sp_cell5. apply flat_lt; [|lia]. apply cell4_range. cbn. auto. Qed.
  Lemma cell4_inj i j y s i' j' y' s' : valid_cell (C4 i j y s) -> valid_cell (C4 i' j' y' s') ->
    sp_cell4 NT NY NS i j y s = sp_cell4 NT NY NS i' j' y' s' -> C4 i j y s = C4 i' j' y' s'.
  Proof.
    intros (A & B & C & D) (A' & B' & C' & D') E. unfold sp_cell4 in E.
    apply flat_inj in E; [|lia|lia]. destruct E as [E E1]. apply flat_inj in E; [|lia|lia]. destruct E as [E E2].
    apply flat_inj in E; [|lia|lia]. destruct E as [E E3].
    apply Nat2Z.inj in E, E1, E2, E3. congruence.
  Qed.
  Lemma cell5_inj i j y s e i' j' y' s' e' : valid_cell (C5 i j y s e) -> valid_cell (C5 i' j' y' s' e') ->
    sp_cell5 NT NY NS NE i j y s e = sp_cell5 NT NY NS NE i' j' y' s' e' -> C5 i j y s e = C5 i' j' y' s' e'.
  Proof.
    intros (A & B & C & D & F) (A' & B' & C' & D' & F') E. unfold sp_cell5 in E.
    apply flat_inj in E; [|lia|lia]. destruct E as [E E1].
    apply cell4_inj in E; [|cbn; auto|cbn; auto]. injection E as -> -> -> ->. apply Nat2Z.inj in E1. congruence.
  Qed.

  Lemma sized_zeros {O : Ops T} : (0 <= NR)%Z -> (0 <= NT)%Z -> (0 <= NY)%Z -> (0 <= NS)%Z -> (0 <= NE)%Z ->
    sized (sp_zeros NR NT NY NS NE).
  Proof.
    intros. unfold sized, sp_zeros. cbn [d_alpha d_jnu d_J d_JYe]. rewrite !repeat_length, !Z2Nat.id; [auto| |];
      repeat apply Z.mul_nonneg_nonneg; assumption.
  Qed.

  Lemma set4 {O : Ops T} (d : sp_data T) i j y s v w : sized d -> valid_cell (C4 i j y s) ->
    let c := sp_cell4 NT NY NS i j y s in
    exists dJ dY, set_flat (d_J d) c v = Ok dJ /\ set_flat (d_JYe d) c w = Ok dY /\
      let d' := {| d_alpha := d_alpha d; d_jnu := d_jnu d; d_J := dJ; d_JYe := dY |} in
      sized d' /\ get_cell d' (C4 i j y s) = Some (v, w) /\
      (forall k, valid_cell k -> k <> C4 i j y s -> get_cell d' k = get_cell d k).
  Proof.
    intros Z0 Hv c. pose proof (cell4_range _ _ _ _ Hv) as Rc. fold c in Rc. destruct Z0 as (L1 & L2 & L3 & L4).
    exists (upd (d_J d) (Z.to_nat c) v), (upd (d_JYe d) (Z.to_nat c) w). rewrite !set_flat_total by lia.
    split; [reflexivity|]. split; [reflexivity|]. cbv zeta.
    destruct (get2_set (d_J d, d_JYe d) c v w) as [G1 G2]; [cbn; lia|cbn; lia|]. cbn [fst snd] in G1, G2.
    split; [unfold sized; cbn [d_alpha d_jnu d_J d_JYe]; rewrite !upd_length; auto|]. split; [exact G1|].
    intros [i' j' y' s'|i' j' y' s' e'] Hk N; cbn [get_cell cell_index d_alpha d_jnu d_J d_JYe]; [|reflexivity].
    apply G2. intros E. apply N. now apply cell4_inj.
  Qed.

  Lemma set5 {O : Ops T} (d : sp_data T) i j y s e v w : sized d -> valid_cell (C5 i j y s e) ->
    let c := sp_cell5 NT NY NS NE i j y s e in
    exists da dj, set_flat (d_alpha d) c v = Ok da /\ set_flat (d_jnu d) c w = Ok dj /\
      let d' := {| d_alpha := da; d_jnu := dj; d_J := d_J d; d_JYe := d_JYe d |} in
      sized d' /\ get_cell d' (C5 i j y s e) = Some (v, w) /\
      (forall k, valid_cell k -> k <> C5 i j y s e -> get_cell d' k = get_cell d k).
  Proof.
    intros Z0 Hv c. pose proof (cell5_range _ _ _ _ _ Hv) as Rc. fold c in Rc. destruct Z0 as (L1 & L2 & L3 & L4).
    exists (upd (d_alpha d) (Z.to_nat c) v), (upd (d_jnu d) (Z.to_nat c) w). rewrite !set_flat_total by lia.
    split; [reflexivity|]. split; [reflexivity|]. cbv zeta.
    destruct (get2_set (d_alpha d, d_jnu d) c v w) as [G1 G2]; [cbn; lia|cbn; lia|]. cbn [fst snd] in G1, G2.
    split; [unfold sized; cbn [d_alpha d_jnu d_J d_JYe]; rewrite !upd_length; auto|]. split; [exact G1|].
    intros [i' j' y' s'|i' j' y' s' e'] Hk N; cbn [get_cell cell_index d_alpha d_jnu d_J d_JYe]; [reflexivity|].
    apply G2. intros E. apply N. now apply cell5_inj.
  Qed.
End Cells.

(** ** the testing constructor *)
Section Tabulate.
  Context {T : Type} {O : Ops T} (pc : PhysConst T) (o : NuOpac T) (gR gT gY ge : Grid T) (NR NT NY NE : Z).
  Let xR (i : nat) : T := sp_fromLog (g_x gR (Z.of_nat i)).
  Let xT (i : nat) : T := sp_fromLog (g_x gT (Z.of_nat i)).
  Let xY (i : nat) : T := g_x gY (Z.of_nat i).
  Let xE (i : nat) : T := (sp_MeV2Hz pc * sp_fromLog (g_x ge (Z.of_nat i)))%o.
  Context (A Jn : nat -> nat -> nat -> RadiationType -> nat -> T) (J N : nat -> nat -> nat -> RadiationType -> T).

  (** the source answers at every node the constructor asks *)
  Hypothesis HS : forall i j y s type e, Idx2RadType (Z.of_nat s) = Ok type ->
    valid_cell NR NT NY NEUTRINO_NTYPES NE (C5 i j y s e) ->
    nu_Absorption o (xR i) (xT j) (xY y) type (xE e) = Ok (A i j y type e) /\
    nu_EmissivityPerNuOmega o (xR i) (xT j * sp_MeV2K)%o (xY y) type (xE e) = Ok (Jn i j y type e).
  Hypothesis HS4 : forall i j y s type, Idx2RadType (Z.of_nat s) = Ok type ->
    valid_cell NR NT NY NEUTRINO_NTYPES NE (C4 i j y s) ->
    nu_Emissivity o (xR i) (xT j * sp_MeV2K)%o (xY y) type = Ok (J i j y type) /\
    nu_NumberEmissivity o (xR i) (xT j * sp_MeV2K)%o (xY y) type = Ok (N i j y type).

  Definition kind (s : nat) : RadiationType := type_of (Z.of_nat s).
  Definition tab_value (k : cell) : T * T :=
    match k with
    | C4 i j y s => (sp_toLog (Omax (J i j y (kind s)) #0)%o, sp_toLog (Omax (N i j y (kind s)) #0)%o)
    | C5 i j y s e => (sp_toLog (Omax (A i j y (kind s) e) #0)%o, sp_toLog (Omax (Jn i j y (kind s) e) #0)%o)
    end.
  Let W := writes (valid_cell NR NT NY NEUTRINO_NTYPES NE) (get_cell NT NY NEUTRINO_NTYPES NE) tab_value
    (sized NR NT NY NEUTRINO_NTYPES NE).

  Lemma kind_ok s : (Z.of_nat s < NEUTRINO_NTYPES)%Z -> Idx2RadType (Z.of_nat s) = Ok (kind s).
  Proof. unfold NEUTRINO_NTYPES. intros H. do 3 (destruct s as [|s]; [reflexivity|]). lia. Qed.

  Lemma fill_energy_writes i j y s e : valid_cell NR NT NY NEUTRINO_NTYPES NE (C5 i j y s e) ->
    W (sp_fill_energy pc o (xR i) (xT j) (xY y) (kind s) ge NT NY NE i j y s e) (eq (C5 i j y s e)).
  Proof.
    intros Hv d Hd. unfold sp_fill_energy. cbv zeta. fold (xE e).
    destruct (HS i j y s (kind s) e) as [E1 E2]; [apply kind_ok; cbn in Hv; tauto|exact Hv|].
    destruct (set5 NR NT NY NEUTRINO_NTYPES NE d i j y s e
      (sp_toLog (Omax (A i j y (kind s) e) #0)%o) (sp_toLog (Omax (Jn i j y (kind s) e) #0)%o) Hd Hv) as (da & dj & F1 & F2 & F3 & F4 & F5).
    rewrite E1. cbn [bind]. rewrite F1. cbn [bind]. rewrite E2. cbn [bind]. rewrite F2. cbn [bind].
    eexists. split; [reflexivity|]. split; [exact F3|]. split.
    - intros k Hk <-. exact F4.
    - intros k Hk Nk. apply F5; auto.
  Qed.

  Lemma fill_species_writes i j y s : valid_cell NR NT NY NEUTRINO_NTYPES NE (C4 i j y s) ->
    W (sp_fill_species pc o (xR i) (xT j) (xY y) ge NT NY NE i j y s)
      (fun k => match k with C4 i' j' y' s' | C5 i' j' y' s' _ => C4 i j y s = C4 i' j' y' s' end).
  Proof.
    intros Hv. pose proof (kind_ok s ltac:(cbn in Hv; tauto)) as Hk.
    set (b1 := fun d => let c := sp_cell4 NT NY NEUTRINO_NTYPES i j y s in
      dJ <- set_flat (d_J d) c (sp_toLog (Omax (J i j y (kind s)) #0)%o) ;;
      dY <- set_flat (d_JYe d) c (sp_toLog (Omax (N i j y (kind s)) #0)%o) ;;
      Ok {| d_alpha := d_alpha d; d_jnu := d_jnu d; d_J := dJ; d_JYe := dY |}).
    assert (W1 : W b1 (eq (C4 i j y s))).
    { intros d Hd. unfold b1. cbv zeta.
      destruct (set4 NR NT NY NEUTRINO_NTYPES NE d i j y s
        (sp_toLog (Omax (J i j y (kind s)) #0)%o) (sp_toLog (Omax (N i j y (kind s)) #0)%o) Hd Hv) as (dJ & dY & F1 & F2 & F3 & F4 & F5).
      rewrite F1. cbn [bind]. rewrite F2. cbn [bind]. eexists. split; [reflexivity|]. split; [exact F3|]. split.
      - intros k _ <-. exact F4.
      - intros k Hk' Nk. apply F5; auto. }
    assert (W2 : W (for_int NE (sp_fill_energy pc o (xR i) (xT j) (xY y) (kind s) ge NT NY NE i j y s))
      (fun k => exists e, (Z.of_nat e < NE)%Z /\ C5 i j y s e = k)).
    { apply writes_for. intros e He. apply fill_energy_writes. cbn in Hv |- *. tauto. }
    pose proof (writes_then _ _ _ _ _ _ _ _ W1 W2) as W3.
    intros d Hd. destruct (W3 d Hd) as (d' & E & P & Y & Z0). exists d'. split.
    { rewrite <- E. unfold sp_fill_species. rewrite Hk. cbn [bind]. cbv zeta.
      destruct (HS4 i j y s (kind s) Hk Hv) as [-> ->]. cbn [bind]. unfold b1. cbv zeta.
      destruct (set_flat (d_J d) _ _); cbn [bind]; [|reflexivity|reflexivity].
      destruct (set_flat (d_JYe d) _ _); cbn [bind]; reflexivity. }
    split; [exact P|]. split.
    - intros k Vk Ek. apply Y; [exact Vk|]. destruct k as [i' j' y' s'|i' j' y' s' e']; [left; exact Ek|].
      right. injection Ek as -> -> -> ->. exists e'. split; [cbn in Vk; tauto|reflexivity].
    - intros k Vk Ek. apply Z0; [exact Vk|]. intros [<-|(e & He & <-)]; now apply Ek.
  Qed.

  Lemma sp_fill_writes : W (sp_fill pc o gR gT gY ge NR NT NY NE)
    (fun k => valid_cell NR NT NY NEUTRINO_NTYPES NE k).
  Proof.
    assert (F : W (sp_fill pc o gR gT gY ge NR NT NY NE) (fun k => exists i, (Z.of_nat i < NR)%Z /\ exists j, (Z.of_nat j < NT)%Z /\
      exists y, (Z.of_nat y < NY)%Z /\ exists s, (Z.of_nat s < NEUTRINO_NTYPES)%Z /\
      match k with C4 i' j' y' s' | C5 i' j' y' s' _ => C4 i j y s = C4 i' j' y' s' end)).
    { unfold sp_fill. apply writes_for. intros i Hi. apply writes_for. intros j Hj. apply writes_for. intros y Hy.
      apply writes_for. intros s Hs. apply fill_species_writes. cbn. tauto. }
    intros d Hd. destruct (F d Hd) as (d' & E & P & Y & Z0). exists d'. split; [exact E|]. split; [exact P|]. split.
    - intros k Vk _. apply Y; [exact Vk|]. destruct k as [i j y s|i j y s e]; cbn in Vk;
        exists i; (split; [tauto|]); exists j; (split; [tauto|]); exists y; (split; [tauto|]); exists s; (split; [tauto|reflexivity]).
    - intros k Vk Nk. contradiction.
  Qed.
End Tabulate.
