(** C68: an indexer interpolates the data written last, whatever it held before. *)
From Coq Require Import Reals ZArith List Lia Lra Arith Bool.
From Verif Require Import Base.Outcome Base.Ops Inst.ER Inst.ERTac Model.Spiner Model.Chebyshev Model.Indexers.
From Verif Require Import Spec.Means Spec.Chebyshev Spec.Writes Proofs.ArrayFacts Proofs.MeanExact Proofs.ChebModel Proofs.ChebFacts Proofs.C50.
Import ListNotations.
Open Scope R_scope.

Lemma after_unique {T} (h : list (step T)) old a b : after h old a -> after h old b -> a = b.
Proof.
  intros [La Ha] [Lb Hb].
  assert (E : forall j, nth_error a j = nth_error b j).
  { intros j. destruct (Nat.lt_ge_cases j (length old)) as [Hj|Hj].
    - rewrite Ha, Hb by exact Hj. reflexivity.
    - rewrite (proj2 (nth_error_None a j)), (proj2 (nth_error_None b j)) by lia. reflexivity. }
  clear - E. revert b E. induction a as [|x a IH]; intros [|y b] E; [reflexivity|discriminate (E 0%nat)|discriminate (E 0%nat)|].
  injection (E 0%nat) as ->. f_equal. apply IH. intros j. exact (E (S j)).
Qed.
Lemma after_nil {T} (d : list T) : after [] d d.
Proof. split; [reflexivity|]. intros. reflexivity. Qed.
Lemma after_prepare {T} h (d d' : list T) : after (Prepare :: h) d d' <-> after h d d'.
Proof. split; intros H; exact H. Qed.
Lemma after_write {T} i v h (d d' : list T) : (0 <= i < Z.of_nat (length d))%Z ->
  after (Write i v :: h) d d' -> after h (upd d (Z.to_nat i) v) d'.
Proof.
  intros Hi [L H]. split; [rewrite upd_length; exact L|]. rewrite upd_length. intros j Hj.
  rewrite (H j Hj). cbn [latest]. destruct (latest h j) as [w|]; [reflexivity|].
  destruct (Z.eqb_spec i (Z.of_nat j)) as [->|Hne].
  - rewrite Nat2Z.id, nth_upd_same by exact Hj. reflexivity.
  - rewrite nth_upd_other by lia. reflexivity.
Qed.
Lemma within_tail {T} n s (h : list (step T)) : within n (s :: h) -> within n h.
Proof. intros H i v Hin. apply (H i v). right. exact Hin. Qed.
Lemma set_flat_in {T} (d : list T) i v : (0 <= i < Z.of_nat (length d))%Z ->
  set_flat d i v = Ok (upd d (Z.to_nat i) v).
Proof.
  intros H. unfold set_flat. rewrite (proj2 (Z.ltb_ge i 0)) by lia. apply store_ok. lia.
Qed.

Lemma use_linear {T : Type} {O : Ops T} dims rs (h : list (step T)) : forall d d',
  within (length d) h -> after h d d' ->
  use Linear_set (fun b => Ok b) h {| db_dims := dims; db_ranges := rs; db_data := d |} =
  Ok {| db_dims := dims; db_ranges := rs; db_data := d' |}.
Proof.
  induction h as [|[i v|] h IH]; intros d d' Hw Ha.
  - cbn [use]. rewrite (after_unique [] d d' d Ha (after_nil d)). reflexivity.
  - pose proof (Hw i v (or_introl eq_refl)) as Hi.
    cbn [use]. unfold Linear_set. cbn [db_data db_dims db_ranges]. rewrite set_flat_in by exact Hi. cbn [bind].
    apply IH.
    + rewrite upd_length. exact (within_tail _ _ _ Hw).
    + apply after_write; assumption.
  - cbn [use]. apply IH; [exact (within_tail _ _ _ Hw)|exact Ha].
Qed.

(** Every arithmetic: after any sequence of writes through operator[], a Linear or LogLinear
    indexer is the one that would be built over an array holding the values written last, so it
    gives the same answers. *)
Lemma C68_linear_proof :
  forall (T : Type) (O : Ops T) (data data' : list T) (numin numax : T) (N : Z) (h : list (step T)) (b : DataBox T),
    within (length data) h -> after h data data' ->
    (Linear_ptr data numin numax N = Ok b ->
     exists b', use Linear_set (fun b => Ok b) h b = Ok b' /\ Linear_ptr data' numin numax N = Ok b' /\
       forall fresh nu, Linear_ptr data' numin numax N = Ok fresh -> Linear_call b' nu = Linear_call fresh nu) /\
    (LogLinear_ptr data numin numax N = Ok b ->
     exists b', use LogLinear_set (fun b => Ok b) h b = Ok b' /\ LogLinear_ptr data' numin numax N = Ok b' /\
       forall fresh nu, LogLinear_ptr data' numin numax N = Ok fresh -> LogLinear_call b' nu = LogLinear_call fresh nu).
Proof.
  intros T O data data' numin numax N h b Hw Ha.
  assert (G : forall lo hi b0, setRange0 (box1 data N) lo hi N = Ok b0 ->
    exists b', use Linear_set (fun b => Ok b) h b0 = Ok b' /\ setRange0 (box1 data' N) lo hi N = Ok b').
  { intros lo hi b0 E. unfold setRange0 in *. destruct (mk_grid lo hi N) as [g| |]; try discriminate E.
    cbn [bind] in *. injection E as <-. cbn [box1 db_dims db_ranges db_data].
    eexists. split; [apply use_linear; eassumption|reflexivity]. }
  split; intros E.
  - destruct (G _ _ _ E) as [b' [U F]]. exists b'. split; [exact U|]. split; [exact F|].
    intros fresh nu E2. change (Linear_ptr data' numin numax N = Ok b') in F. rewrite F in E2. injection E2 as <-. reflexivity.
  - destruct (G _ _ _ E) as [b' [U F]]. exists b'. split; [exact U|]. split; [exact F|].
    intros fresh nu E2. change (LogLinear_ptr data' numin numax N = Ok b') in F. rewrite F in E2. injection E2 as <-. reflexivity.
Qed.

Lemma C68_linear_example :
  let h := [Write 1 7; Write 0 3; Write 1 9] in
  within 3 h /\ after h [1; 2; 4] [3; 9; 4].
Proof.
  split.
  - intros i v H. cbn in H.
    destruct H as [H|[H|[H|[]]]]; injection H as <- _; cbn; lia.
  - split; [reflexivity|]. intros [|[|[|j]]] H; try reflexivity. cbn in H. lia.
Qed.

(** SetInterpCoeffs in any arithmetic: what it leaves depends on the data alone *)
Section Cheb.
  Context {T : Type} {O : Ops T}.
  Variables (n : nat) (v : nat -> nat -> result T) (A : nat -> nat -> T).
  Hypothesis HA : forall i j, (i < n)%nat -> (j < n)%nat -> v i j = Ok (A i j).

  Definition large (c : LogCheb T) : Prop :=
    (n <= length (lc_data c))%nat /\ (n <= length (lc_logdata c))%nat /\ (n <= length (lc_coeffs c))%nat.

  Definition logs (d : list T) (j : nat) : T := Olog10f (Oadd (Oabs (nth j d (OofZ 0))) (Odec 1 (-20))).
  Definition current (d : list T) (c : LogCheb T) : Prop :=
    forall i, (i < n)%nat -> nth_error (lc_coeffs c) i = Some (dot n (A i) (logs d)).

  Lemma prepared c : large c ->
    exists c', SetInterpCoeffs (Z.of_nat n) v c = Ok c' /\ lc_data c' = lc_data c /\ large c' /\
      lc_lnumin c' = lc_lnumin c /\ lc_lnumax c' = lc_lnumax c /\ current (lc_data c) c'.
  Proof.
    intros (Hd & Hl & Hc). unfold SetInterpCoeffs, for_int. rewrite Nat2Z.id.
    destruct (for_loop_inv (fun k (out : mem T) => length out = length (lc_logdata c) /\
        forall j, (j < k)%nat -> nth_error out j = Some (logs (lc_data c) j)) n
      (fun i ld => d <- load (lc_data c) i ;; store ld i (Olog10f (Oadd (Oabs d) (Odec 1 (-20))))) (lc_logdata c))
      as [ld [E [L1 L2]]].
    - split; [reflexivity|]. intros j Hj. lia.
    - intros i s Hi [Hsl Hs].
      rewrite (load_some _ i (nth i (lc_data c) (OofZ 0))) by (apply nth_error_nth'; lia). cbn [bind].
      rewrite store_ok by lia. eexists. split; [reflexivity|]. split; [rewrite upd_length; exact Hsl|].
      intros j Hj. destruct (Nat.eq_dec j i) as [->|Hne].
      + rewrite nth_upd_same by lia. reflexivity.
      + rewrite nth_upd_other by lia. apply Hs. lia.
    - rewrite E. cbn [bind].
      destruct (MatMultiply_any v A ld (logs (lc_data c)) (lc_coeffs c) n HA L2 Hc) as [cf [E2 [[S1 _] S2]]].
      rewrite E2. cbn [bind]. eexists. split; [reflexivity|]. cbn. unfold large, current. cbn.
      repeat split; try assumption; lia.
  Qed.

  Lemma use_writes (h : list (step T)) : forall c d',
    (forall s, In s h -> s <> Prepare) -> within (length (lc_data c)) h -> after h (lc_data c) d' ->
    use LogCheb_set (SetInterpCoeffs (Z.of_nat n) v) h c =
    Ok {| lc_data := d'; lc_logdata := lc_logdata c; lc_coeffs := lc_coeffs c;
          lc_lnumin := lc_lnumin c; lc_lnumax := lc_lnumax c |}.
  Proof.
    induction h as [|[i w|] h IH]; intros c d' Hp Hw Ha.
    - cbn [use]. rewrite (after_unique [] _ d' _ Ha (after_nil _)). destruct c; reflexivity.
    - pose proof (Hw i w (or_introl eq_refl)) as Hi.
      cbn [use]. unfold LogCheb_set at 1. rewrite set_flat_in by exact Hi. cbn [bind].
      rewrite (IH _ d').
      + reflexivity.
      + intros s Hs. apply Hp. right. exact Hs.
      + cbn [lc_data]. rewrite upd_length. exact (within_tail _ _ _ Hw).
      + cbn [lc_data]. apply after_write; assumption.
    - exfalso. apply (Hp Prepare); [left|]; reflexivity.
  Qed.

  Lemma use_any (h : list (step T)) : forall c d',
    large c -> within (length (lc_data c)) h -> after h (lc_data c) d' ->
    exists c', use LogCheb_set (SetInterpCoeffs (Z.of_nat n) v) h c = Ok c' /\ lc_data c' = d' /\ large c' /\
      lc_lnumin c' = lc_lnumin c /\ lc_lnumax c' = lc_lnumax c.
  Proof.
    induction h as [|[i w|] h IH]; intros c d' Hl Hw Ha.
    - exists c. rewrite (after_unique [] _ d' _ Ha (after_nil _)). repeat split; apply Hl.
    - pose proof (Hw i w (or_introl eq_refl)) as Hi.
      cbn [use]. unfold LogCheb_set at 1. rewrite set_flat_in by exact Hi. cbn [bind].
      match goal with |- context [use _ _ h ?c0] => destruct (IH c0 d') as (c' & E & R) end.
      + destruct Hl as (H1 & H2 & H3). unfold large. cbn. rewrite upd_length. auto.
      + cbn [lc_data]. rewrite upd_length. exact (within_tail _ _ _ Hw).
      + cbn [lc_data]. apply after_write; assumption.
      + exists c'. split; [exact E|]. exact R.
    - cbn [use]. destruct (prepared c Hl) as (c1 & E & D & L & B1 & B2 & _). rewrite E.
      destruct (IH c1 d') as (c' & E' & R1 & R2 & R3 & R4).
      + exact L.
      + rewrite D. exact (within_tail _ _ _ Hw).
      + rewrite D. exact Ha.
      + exists c'. split; [exact E'|]. split; [exact R1|]. split; [exact R2|]. split; congruence.
  Qed.

  Lemma call_current dbg d c1 c2 nu : current d c1 -> current d c2 ->
    lc_lnumin c1 = lc_lnumin c2 -> lc_lnumax c1 = lc_lnumax c2 ->
    LogCheb_call dbg (Z.of_nat n) c1 nu = LogCheb_call dbg (Z.of_nat n) c2 nu.
  Proof.
    intros H1 H2 E1 E2. unfold LogCheb_call, InterpFromCoeffs. rewrite E1, E2.
    destruct (ToUnitCell dbg (Olog10f nu) (lc_lnumin c2) (lc_lnumax c2)) as [x| |]; cbn [bind]; try reflexivity.
    unfold for_int. rewrite Nat2Z.id.
    assert (G : forall c, current d c ->
      for_loop n (fun i out => c0 <- load (lc_coeffs c) i ;; t <- ChebT (Z.of_nat i) x ;; Ok (Oadd out (Omul c0 t)))
        (OofZ 0) = Ok (dot n (fun i => dot n (A i) (logs d)) (fun i => chebO i x))).
    { intros c Hc.
      destruct (for_loop_inv (fun k out => out = dot k (fun i => dot n (A i) (logs d)) (fun i => chebO i x)) n
        (fun i out => c0 <- load (lc_coeffs c) i ;; t <- ChebT (Z.of_nat i) x ;; Ok (Oadd out (Omul c0 t))) (OofZ 0))
        as [out [E H]].
      - reflexivity.
      - intros k s Hk ->. rewrite (load_some _ k _ (Hc k Hk)). cbn [bind]. rewrite ChebT_eq. cbn [bind].
        eexists. split; reflexivity.
      - rewrite E, H. reflexivity. }
    rewrite (G c1 H1), (G c2 H2). reflexivity.
  Qed.
End Cheb.

(** Every arithmetic and every matrix: after any history of writes and SetInterpCoeffs that ends
    with a SetInterpCoeffs and further writes, a LogCheb indexer answers as one newly built, over
    any scratch arrays, from the data as they stood at that SetInterpCoeffs. *)
Lemma C68_logcheb_proof :
  forall (T : Type) (O : Ops T) (n : nat) (v : nat -> nat -> result T) (A : nat -> nat -> T)
         (data mid last logs1 logs2 coeffs1 coeffs2 : list T) (numin numax : T) (h ws : list (step T)),
    (forall i j, (i < n)%nat -> (j < n)%nat -> v i j = Ok (A i j)) ->
    (n <= length data)%nat -> (n <= length logs1)%nat -> (n <= length coeffs1)%nat ->
    (n <= length logs2)%nat -> (n <= length coeffs2)%nat ->
    within (length data) h -> after h data mid ->
    within (length data) ws -> (forall s, In s ws -> s <> Prepare) -> after ws mid last ->
    exists c fresh,
      use LogCheb_set (SetInterpCoeffs (Z.of_nat n) v) (h ++ Prepare :: ws)
        (mk_LogCheb data logs1 coeffs1 numin numax) = Ok c /\
      SetInterpCoeffs (Z.of_nat n) v (mk_LogCheb mid logs2 coeffs2 numin numax) = Ok fresh /\
      lc_data c = last /\
      forall dbg nu, LogCheb_call dbg (Z.of_nat n) c nu = LogCheb_call dbg (Z.of_nat n) fresh nu.
Proof.
  intros T O n v A data mid last logs1 logs2 coeffs1 coeffs2 numin numax h ws HA Hd Hl1 Hc1 Hl2 Hc2 Hwh Hah Hww Hp Haw.
  assert (Hm : length mid = length data) by apply Hah.
  destruct (use_any n v A HA h (mk_LogCheb data logs1 coeffs1 numin numax) mid) as (c1 & E1 & D1 & L1 & B1 & B2);
    [repeat split; assumption|exact Hwh|exact Hah|].
  destruct (prepared n v A HA c1 L1) as (c2 & E2 & D2 & L2 & B3 & B4 & K2).
  destruct (prepared n v A HA (mk_LogCheb mid logs2 coeffs2 numin numax)) as (c3 & E3 & D3 & L3 & B5 & B6 & K3);
    [unfold large; cbn; rewrite Hm; auto|].
  assert (Hsplit : forall g (k : list (step T)) s s', use LogCheb_set (SetInterpCoeffs (Z.of_nat n) v) g s = Ok s' ->
    use LogCheb_set (SetInterpCoeffs (Z.of_nat n) v) (g ++ k) s = use LogCheb_set (SetInterpCoeffs (Z.of_nat n) v) k s').
  { induction g as [|[i w|] g IH]; intros k s s' E; cbn [use app] in *.
    - injection E as ->. reflexivity.
    - destruct (LogCheb_set s i w); try discriminate E. apply IH. exact E.
    - destruct (SetInterpCoeffs (Z.of_nat n) v s); try discriminate E. apply IH. exact E. }
  rewrite (Hsplit _ _ _ _ E1). cbn [use]. rewrite E2.
  rewrite (use_writes n v ws c2 last).
  - eexists. exists c3. split; [reflexivity|]. split; [exact E3|]. split; [reflexivity|].
    intros dbg nu. apply (call_current n A dbg mid).
    + rewrite D1 in K2. exact K2.
    + exact K3.
    + cbn [lc_lnumin]. rewrite B3, B1, B5. reflexivity.
    + cbn [lc_lnumax]. rewrite B4, B2, B6. reflexivity.
  - exact Hp.
  - rewrite D2, D1, Hm. exact Hww.
  - rewrite D2, D1. exact Haw.
Qed.

(** one bin that held 9, is given 4, prepared, then given 100: the answer is that for 4 *)
Lemma C68_logcheb_example :
  exists c, use LogCheb_set (SetInterpCoeffs 1 (fun i j => Ok (Fin (dct 1 i j))))
      ([Write 0 (Fin 4)] ++ Prepare :: [Write 0 (Fin 100)])
      (mk_LogCheb [Fin 9] [NaN] [NaN] (Fin 1) (Fin 100)) = Ok c /\
    LogCheb_at c 0 = Ok (Fin 100) /\ LogCheb_call true 1 c (Fin 10) = Ok (Fin (4 + / 10 ^ 20)).
Proof.
  destruct C50_logcheb_example as [f [Ef Hf]].
  assert (W : forall x : ER, within 1 [Write 0 x]).
  { intros x i w [H|[]]. injection H as <- _. cbn. lia. }
  assert (B : forall x y : ER, after [Write 0 x] [y] [x]).
  { intros x y. split; [reflexivity|]. intros [|j] H; [reflexivity|cbn in H; lia]. }
  destruct (C68_logcheb_proof ER ER_ops 1 (fun i j => Ok (Fin (dct 1 i j))) (fun i j => Fin (dct 1 i j))
    [Fin 9] [Fin 4] [Fin 100] [NaN] [NaN] [NaN] [NaN] (Fin 1) (Fin 100) [Write 0 (Fin 4)] [Write 0 (Fin 100)])
    as (c & fresh & E & F & D & H); try (cbn; lia); try reflexivity; try apply W; try apply B.
  - intros s [<-|[]]. discriminate.
  - change (Z.of_nat 1) with 1%Z in *. exists c. split; [exact E|]. split.
    + unfold LogCheb_at. rewrite D. reflexivity.
    + rewrite H. rewrite Ef in F. injection F as <-. exact Hf.
Qed.
