(** SpinerOpacity in exact arithmetic. *)
From Coq Require Import Reals ZArith List Lia Lra Bool.
From Verif Require Import Base.Outcome Base.Ops Inst.ER Inst.ERTac Model.Constants Model.RadTypes Model.NeutrinoApi
  Model.Spiner Model.SpinerNeutrinos Spec.Tables Spec.Tabulated Proofs.ArrayFacts Proofs.InterpFacts Proofs.TableFacts Proofs.FillFacts
  Proofs.ModelFacts Proofs.MeanTotal Proofs.SpinerFacts.
Import ListNotations.
Open Scope R_scope.

Lemma p10_9 : powerRZ 10 9 = 10 ^ 9.
Proof. reflexivity. Qed.
Lemma p10_m9 : powerRZ 10 (-9) = / 10 ^ 9.
Proof. reflexivity. Qed.

Lemma MeV2K_fin : @sp_MeV2K ER _ = Fin kelvin_per_MeV.
Proof.
  unfold sp_MeV2K, sp_MeV2GK. rewrite !fin_dec, fin_mul, p10_9, p10_m9. f_equal. unfold kelvin_per_MeV. field.
Qed.
Lemma kelvin_pos : 0 < kelvin_per_MeV.
Proof. unfold kelvin_per_MeV. lra. Qed.
Lemma K2MeV_fin : @sp_K2MeV ER _ = Fin (/ kelvin_per_MeV).
Proof.
  pose proof kelvin_pos. unfold sp_K2MeV. rewrite MeV2K_fin, fin_ofZ, fin_div by lra. f_equal. field. lra.
Qed.
Lemma eps_fin : @sp_EPS ER _ = Fin tiny.
Proof. reflexivity. Qed.

Lemma sp_toLog_fin x : sp_toLog (Fin x) = Fin (log10 (guarded x)).
Proof.
  unfold sp_toLog. rewrite eps_fin, fin_ofZ, fin_opp, omax_fin, fin_add, fin_abs, fin_add.
  replace (Rmax x (- IZR 0) + IZR 0) with (Rmax x 0) by (rewrite Ropp_0; lra).
  rewrite Rabs_pos_eq by apply Rmax_r. rewrite fin_log10; [reflexivity|].
  pose proof tiny_pos. pose proof (Rmax_r x 0). lra.
Qed.
Lemma sp_fromLog_fin x : sp_fromLog (Fin x) = Fin (pow10 x).
Proof.
  unfold sp_fromLog. rewrite !fin_ofZ, fin_pow, fin_sub by lra. f_equal. unfold pow10. lra.
Qed.
Lemma guarded_pos x : 0 < guarded x.
Proof. unfold guarded. pose proof tiny_pos. pose proof (Rmax_r x 0). lra. Qed.
Lemma guarded_idem x : guarded (Rmax x 0) = guarded x.
Proof. unfold guarded. rewrite (Rmax_left (Rmax x 0)); [reflexivity|apply Rmax_r]. Qed.
Lemma guarded_nonneg x : 0 <= x -> guarded x = x + tiny.
Proof. intros H. unfold guarded. now rewrite Rmax_left. Qed.

Section PC.
  Context (pc : PhysConst R) (Hh : 0 < pc_h pc) (He : 0 < pc_eV pc).

  Lemma hz_pos : 0 < hz_per_MeV pc.
  Proof. unfold hz_per_MeV. apply Rdiv_lt_0_compat; [|assumption]. apply Rmult_lt_0_compat; [apply pow_lt; lra|assumption]. Qed.
  Lemma Hz2MeV_fin : sp_Hz2MeV (finpc pc) = Fin (/ hz_per_MeV pc).
  Proof.
    unfold sp_Hz2MeV, finpc, pc_map. cbn [pc_h pc_eV]. rewrite fin_dec, fin_mul, fin_div.
    - f_equal. unfold hz_per_MeV. change (powerRZ 10 6) with (10 ^ 6). field. split; lra.
    - change (powerRZ 10 6) with (10 ^ 6). apply Rgt_not_eq. apply Rmult_lt_0_compat; [|assumption]. lra.
  Qed.
  Lemma MeV2Hz_fin : sp_MeV2Hz (finpc pc) = Fin (hz_per_MeV pc).
  Proof.
    pose proof hz_pos. unfold sp_MeV2Hz. rewrite Hz2MeV_fin, fin_ofZ, fin_div.
    - f_equal. field. lra.
    - apply Rinv_neq_0_compat. lra.
  Qed.

  Definition axes5 gR gT gY n ge : list rdim := [Axis gR; Axis gT; Axis gY; Index n; Axis ge].
  Definition axes4 gR gT gY n : list rdim := [Axis gR; Axis gT; Axis gY; Index n].
  Definition query5 rho temp Ye type nu : list rcoord :=
    [Pos (log10 (guarded rho)); Pos (log10 (guarded (temp / kelvin_per_MeV))); Pos Ye; Num (RadType2Idx type);
     Pos (log10 (guarded (nu / hz_per_MeV pc)))].
  Definition query4 rho temp Ye type : list rcoord :=
    [Pos (log10 (guarded rho)); Pos (log10 (guarded (temp / kelvin_per_MeV))); Pos Ye; Num (RadType2Idx type)].
  Lemma axes5_ok gR gT gY n ge : rg_ok gR -> rg_ok gT -> rg_ok gY -> rg_ok ge -> Forall rd_ok (axes5 gR gT gY n ge).
  Proof. intros. unfold axes5. repeat (apply Forall_cons; [cbn; auto|]). apply Forall_nil. Qed.
  Lemma axes4_ok gR gT gY n : rg_ok gR -> rg_ok gT -> rg_ok gY -> Forall rd_ok (axes4 gR gT gY n).
  Proof. intros. unfold axes4. repeat (apply Forall_cons; [cbn; auto|]). apply Forall_nil. Qed.

  Lemma lookup5_interp b rho temp Ye type nu :
    sp_lookup5 (finpc pc) b (Fin rho) (Fin temp) (Fin Ye) type (Fin nu) =
    (v <- interpToReal b (map coord_of (query5 rho temp Ye type nu)) ;; Ok (sp_fromLog v)).
  Proof.
    unfold sp_lookup5. cbv zeta. rewrite K2MeV_fin, Hz2MeV_fin, !fin_mul, !sp_toLog_fin.
    rewrite (Rmult_comm (/ hz_per_MeV pc) nu). reflexivity.
  Qed.
  Lemma lookup4_interp b rho temp Ye type :
    sp_lookup4 b (Fin rho) (Fin temp) (Fin Ye) type =
    (v <- interpToReal b (map coord_of (query4 rho temp Ye type)) ;; Ok (sp_fromLog v)).
  Proof. unfold sp_lookup4. cbv zeta. rewrite K2MeV_fin, !fin_mul, !sp_toLog_fin. reflexivity. Qed.

  Lemma lookup5_mlin b dims f rho temp Ye type nu : holds b dims f -> Forall rd_ok dims ->
    query_ok (query5 rho temp Ye type nu) dims ->
    sp_lookup5 (finpc pc) b (Fin rho) (Fin temp) (Fin Ye) type (Fin nu) =
    Ok (Fin (pow10 (mlin (query5 rho temp Ye type nu) dims f))).
  Proof.
    intros H W Q. rewrite lookup5_interp, (interp_holds b dims f _ H W Q). cbn [bind]. now rewrite sp_fromLog_fin.
  Qed.
  Lemma lookup4_mlin b dims f rho temp Ye type : holds b dims f -> Forall rd_ok dims ->
    query_ok (query4 rho temp Ye type) dims ->
    sp_lookup4 b (Fin rho) (Fin temp) (Fin Ye) type = Ok (Fin (pow10 (mlin (query4 rho temp Ye type) dims f))).
  Proof.
    intros H W Q. rewrite lookup4_interp, (interp_holds b dims f _ H W Q). cbn [bind]. now rewrite sp_fromLog_fin.
  Qed.

  (** ** what the testing constructor stores *)
  Definition shifted (gT : rgrid) : rgrid := {|
    rg_lo := rg_lo gT + log10 (/ kelvin_per_MeV); rg_hi := rg_hi gT + log10 (/ kelvin_per_MeV); rg_n := rg_n gT |}.
  Lemma shifted_ok gT : rg_ok gT -> rg_ok (shifted gT).
  Proof. unfold rg_ok, shifted. cbn. intros []. split; [lra|auto]. Qed.
  Lemma shifted_dx gT : rg_dx (shifted gT) = rg_dx gT.
  Proof. unfold rg_dx, shifted. cbn. f_equal. ring. Qed.
  Lemma shifted_node gT j : rg_node (shifted gT) j = rg_node gT j + log10 (/ kelvin_per_MeV).
  Proof. unfold rg_node. rewrite shifted_dx. unfold shifted. cbn. ring. Qed.
  Lemma shifted_pow gT j : pow10 (rg_node (shifted gT) j) = pow10 (rg_node gT j) / kelvin_per_MeV.
  Proof.
    rewrite shifted_node, pow10_add, pow10_log10; [reflexivity|]. apply Rinv_0_lt_compat, kelvin_pos.
  Qed.

  Lemma kind_species s : (s < 3)%nat -> neutrino_species (kind s).
  Proof. intros H. do 3 (destruct s as [|s]; [unfold neutrino_species; cbn; tauto|]). lia. Qed.

  Section Source.
    Context (o : NuOpac ER) (f : nu_functions) (HC : computes o f) (gR gT gY ge : rgrid)
      (OR : rg_ok gR) (OT : rg_ok gT) (OY : rg_ok gY) (OE : rg_ok ge).

    Definition stored5 (g : R -> R -> R -> RadiationType -> R -> R) (scale : R) (is : list Z) : R :=
      log10 (guarded (g (pow10 (rg_node gR (nth 0 is 0%Z))) (scale * pow10 (rg_node gT (nth 1 is 0%Z)))
        (rg_node gY (nth 2 is 0%Z)) (type_of (nth 3 is 0%Z)) (hz_per_MeV pc * pow10 (rg_node ge (nth 4 is 0%Z))))).
    Definition stored4 (g : R -> R -> R -> RadiationType -> R) (is : list Z) : R :=
      log10 (guarded (g (pow10 (rg_node gR (nth 0 is 0%Z))) (pow10 (rg_node gT (nth 1 is 0%Z)))
        (rg_node gY (nth 2 is 0%Z)) (type_of (nth 3 is 0%Z)))).

    Lemma get2_at (a b : list ER) c x y : get2 (a, b) c = Some (x, y) -> at_flat a c = Ok x /\ at_flat b c = Ok y.
    Proof.
      unfold get2, at_flat, load. cbn [fst snd]. destruct (c <? 0)%Z; [discriminate|].
      destruct (nth_error a _); [|discriminate]. destruct (nth_error b _); [|discriminate].
      intros E. injection E as <- <-. auto.
    Qed.

    Lemma tabulate_exact : exists t,
      sp_tabulate (finpc pc) o (Fin (rg_lo gR)) (Fin (rg_hi gR)) (rg_n gR) (Fin (rg_lo gT)) (Fin (rg_hi gT)) (rg_n gT)
        (Fin (rg_lo gY)) (Fin (rg_hi gY)) (rg_n gY) (Fin (rg_lo ge)) (Fin (rg_hi ge)) (rg_n ge) = Ok t /\
      holds (sp_alpha t) (axes5 gR (shifted gT) gY 3 ge) (stored5 (nf_alpha f) (/ kelvin_per_MeV)) /\
      holds (sp_jnu t) (axes5 gR (shifted gT) gY 3 ge) (stored5 (nf_j f) 1) /\
      holds (sp_J t) (axes4 gR (shifted gT) gY 3) (stored4 (nf_J f)) /\
      holds (sp_JYe t) (axes4 gR (shifted gT) gY 3) (stored4 (nf_N f)) /\
      Z.of_nat (length (db_data (sp_alpha t))) = (rg_n gR * rg_n gT * rg_n gY * 3 * rg_n ge)%Z /\
      Z.of_nat (length (db_data (sp_jnu t))) = (rg_n gR * rg_n gT * rg_n gY * 3 * rg_n ge)%Z /\
      Z.of_nat (length (db_data (sp_J t))) = (rg_n gR * rg_n gT * rg_n gY * 3)%Z /\
      Z.of_nat (length (db_data (sp_JYe t))) = (rg_n gR * rg_n gT * rg_n gY * 3)%Z.
    Proof.
      pose proof (shifted_ok gT OT) as OT'. pose proof kelvin_pos as Kp. pose proof hz_pos as Hz.
      set (X := fun i : nat => pow10 (rg_node gR (Z.of_nat i))).
      set (Y := fun j : nat => pow10 (rg_node gT (Z.of_nat j))).
      set (U := fun y : nat => rg_node gY (Z.of_nat y)).
      set (V := fun e : nat => hz_per_MeV pc * pow10 (rg_node ge (Z.of_nat e))).
      assert (PX : forall i, 0 < X i) by (intros; apply pow10_pos).
      assert (PY : forall i, 0 < Y i) by (intros; apply pow10_pos).
      assert (PV : forall i, 0 < V i) by (intros; apply Rmult_lt_0_compat; [lra|apply pow10_pos]).
      assert (EX : forall i, sp_fromLog (g_x (grid_of gR) (Z.of_nat i)) = Fin (X i)).
      { intros. rewrite g_x_of, sp_fromLog_fin by assumption. reflexivity. }
      assert (EY : forall i, sp_fromLog (g_x (grid_of (shifted gT)) (Z.of_nat i)) = Fin (Y i / kelvin_per_MeV)).
      { intros. rewrite g_x_of, sp_fromLog_fin by assumption. now rewrite shifted_pow. }
      assert (EU : forall i, g_x (grid_of gY) (Z.of_nat i) = Fin (U i)).
      { intros. now rewrite g_x_of. }
      assert (EV : forall i, (sp_MeV2Hz (finpc pc) * sp_fromLog (g_x (grid_of ge) (Z.of_nat i)))%o = Fin (V i)).
      { intros. rewrite g_x_of, sp_fromLog_fin, MeV2Hz_fin, fin_mul by assumption. reflexivity. }
      pose (fa := fun i j y t e => Fin (nf_alpha f (X i) (/ kelvin_per_MeV * Y j) (U y) t (V e))).
      pose (fj := fun i j y t e => Fin (nf_j f (X i) (1 * Y j) (U y) t (V e))).
      pose (fJ := fun i j y t => Fin (nf_J f (X i) (Y j) (U y) t)).
      pose (fN := fun i j y t => Fin (nf_N f (X i) (Y j) (U y) t)).
      assert (MK : forall j, (Fin (Y j / kelvin_per_MeV) * sp_MeV2K)%o = Fin (Y j)).
      { intros. rewrite MeV2K_fin, fin_mul. f_equal. field. lra. }
      destruct (fun A B => sp_fill_writes (finpc pc) o (grid_of gR) (grid_of (shifted gT)) (grid_of gY) (grid_of ge)
        (rg_n gR) (rg_n gT) (rg_n gY) (rg_n ge) fa fj fJ fN A B (sp_zeros (rg_n gR) (rg_n gT) (rg_n gY) NEUTRINO_NTYPES (rg_n ge)))
        as (d & Ed & Sd & Gd & _).
      - intros i j y s type e Et Hv. rewrite EX, EY, EU, EV, MK.
        assert (type = kind s) as -> by (rewrite kind_ok in Et; [congruence|cbn in Hv; tauto]).
        assert (KS : neutrino_species (kind s)) by (apply kind_species; cbn in Hv; unfold NEUTRINO_NTYPES in Hv; lia).
        split.
        + unfold fa. rewrite (Rmult_comm (/ kelvin_per_MeV)). apply HC; auto. apply Rmult_lt_0_compat; [apply PY|].
          now apply Rinv_0_lt_compat.
        + unfold fj. rewrite Rmult_1_l. apply HC; auto.
      - intros i j y s type Et Hv. rewrite EX, EY, EU, MK.
        assert (type = kind s) as -> by (rewrite kind_ok in Et; [congruence|cbn in Hv; tauto]).
        assert (KS : neutrino_species (kind s)) by (apply kind_species; cbn in Hv; unfold NEUTRINO_NTYPES in Hv; lia).
        destruct (HC (X i) (Y j) (U y) (kind s) (V 0%nat)) as (_ & _ & A3 & A4); auto.
      - unfold rg_ok in *. apply sized_zeros; unfold NEUTRINO_NTYPES; lia.
      - assert (Hlog : (Olog10 (@sp_K2MeV ER _)) = Fin (log10 (/ kelvin_per_MeV))).
        { rewrite K2MeV_fin, fin_log10; [reflexivity|]. now apply Rinv_0_lt_compat. }
        eexists. split.
        { unfold sp_tabulate. cbv zeta. rewrite Hlog, !fin_add.
          change (rg_lo gT + log10 (/ kelvin_per_MeV)) with (rg_lo (shifted gT)).
          change (rg_hi gT + log10 (/ kelvin_per_MeV)) with (rg_hi (shifted gT)).
          rewrite !mk_grid_of by assumption. cbn [bind].
          change (mk_grid (Fin (rg_lo (shifted gT))) (Fin (rg_hi (shifted gT))) (rg_n gT))
            with (mk_grid (Fin (rg_lo (shifted gT))) (Fin (rg_hi (shifted gT))) (rg_n (shifted gT))).
          rewrite mk_grid_of by assumption. cbn [bind]. rewrite Ed. cbn [bind]. reflexivity. }
        assert (G5 : forall i j y s e, (0 <= i < rg_n gR)%Z -> (0 <= j < rg_n gT)%Z -> (0 <= y < rg_n gY)%Z -> (0 <= s < 3)%Z -> (0 <= e < rg_n ge)%Z ->
          let c := (((((0 * rg_n gR + i) * rg_n gT + j) * rg_n gY + y) * 3 + s) * rg_n ge + e)%Z in
          at_flat (d_alpha d) c = Ok (Fin (stored5 (nf_alpha f) (/ kelvin_per_MeV) [i; j; y; s; e])) /\
          at_flat (d_jnu d) c = Ok (Fin (stored5 (nf_j f) 1 [i; j; y; s; e]))).
        { intros i j y s e Hi Hj Hy Hs He' c.
          assert (Vc : valid_cell (rg_n gR) (rg_n gT) (rg_n gY) NEUTRINO_NTYPES (rg_n ge)
            (C5 (Z.to_nat i) (Z.to_nat j) (Z.to_nat y) (Z.to_nat s) (Z.to_nat e))) by (unfold NEUTRINO_NTYPES; cbn; lia).
          pose proof (Gd _ Vc Vc) as G. cbn [get_cell cell_index] in G. unfold sp_cell5, sp_cell4 in G.
          rewrite !Z2Nat.id in G by lia. apply get2_at in G. unfold c. rewrite Z.mul_0_l, Z.add_0_l.
          unfold NEUTRINO_NTYPES in G. destruct G as [-> ->]. unfold fa, fj, X, Y, U, V, kind.
          rewrite !Z2Nat.id by lia. rewrite fin_ofZ, !omax_fin, !sp_toLog_fin, !guarded_idem. split; reflexivity. }
        assert (G4 : forall i j y s, (0 <= i < rg_n gR)%Z -> (0 <= j < rg_n gT)%Z -> (0 <= y < rg_n gY)%Z -> (0 <= s < 3)%Z ->
          let c := ((((0 * rg_n gR + i) * rg_n gT + j) * rg_n gY + y) * 3 + s)%Z in
          at_flat (d_J d) c = Ok (Fin (stored4 (nf_J f) [i; j; y; s])) /\
          at_flat (d_JYe d) c = Ok (Fin (stored4 (nf_N f) [i; j; y; s]))).
        { intros i j y s Hi Hj Hy Hs c.
          assert (Vc : valid_cell (rg_n gR) (rg_n gT) (rg_n gY) NEUTRINO_NTYPES (rg_n ge)
            (C4 (Z.to_nat i) (Z.to_nat j) (Z.to_nat y) (Z.to_nat s))) by (unfold NEUTRINO_NTYPES; cbn; lia).
          pose proof (Gd _ Vc Vc) as G. cbn [get_cell cell_index] in G. unfold sp_cell4 in G.
          rewrite !Z2Nat.id in G by lia. apply get2_at in G. unfold c. rewrite Z.mul_0_l, Z.add_0_l.
          unfold NEUTRINO_NTYPES in G. destruct G as [-> ->]. unfold fJ, fN, X, Y, U, kind.
          rewrite !Z2Nat.id by lia. rewrite fin_ofZ, !omax_fin, !sp_toLog_fin, !guarded_idem. split; reflexivity. }
        unfold sized, NEUTRINO_NTYPES in Sd. cbn [sp_boxes sp_alpha sp_jnu sp_J sp_JYe db_data].
        split; [|split; [|split; [|split; [|tauto]]]]; (split; [reflexivity|]); intros i Hi j Hj y Hy s Hs;
          [intros e He'; apply (G5 i j y s e); assumption|intros e He'; apply (G5 i j y s e); assumption|
           apply (G4 i j y s); assumption|apply (G4 i j y s); assumption].
    Qed.
  End Source.
End PC.
