(** Rewriting tactics for the exact instance: push [Fin] to the outside. *)
From Coq Require Import Reals ZArith Lra Lia.
From Verif Require Import Base.Ops Inst.ER Model.Constants.
Open Scope R_scope.

Lemma fin_add a b : Oadd (Fin a) (Fin b) = Fin (a + b).  Proof. reflexivity. Qed.
Lemma fin_sub a b : Osub (Fin a) (Fin b) = Fin (a - b).  Proof. reflexivity. Qed.
Lemma fin_mul a b : Omul (Fin a) (Fin b) = Fin (a * b).  Proof. reflexivity. Qed.
Lemma fin_opp a : Oopp (Fin a) = Fin (- a).  Proof. reflexivity. Qed.
Lemma fin_abs a : Oabs (Fin a) = Fin (Rabs a).  Proof. reflexivity. Qed.
Lemma fin_exp a : Oexp (Fin a) = Fin (exp a).  Proof. reflexivity. Qed.
Lemma fin_expm1 a : Oexpm1 (Fin a) = Fin (exp a - 1).  Proof. reflexivity. Qed.
Lemma fin_cos a : Ocos (Fin a) = Fin (cos a).  Proof. reflexivity. Qed.
Lemma fin_ofZ z : OofZ z = Fin (IZR z).  Proof. reflexivity. Qed.
Lemma fin_dec m e : Odec m e = Fin (IZR m * powerRZ 10 e).  Proof. reflexivity. Qed.
Lemma fin_pi : Opi = Fin PI.  Proof. reflexivity. Qed.
Lemma fin_min : Onum_min = Fin R_num_min.  Proof. reflexivity. Qed.
Lemma fin_eps : Onum_eps = Fin R_num_eps.  Proof. reflexivity. Qed.
Lemma fin_div a b : b <> 0 -> Odiv (Fin a) (Fin b) = Fin (a / b).
Proof. apply er_div_fin. Qed.
Lemma fin_sqrt a : 0 <= a -> Osqrt (Fin a) = Fin (sqrt a).
Proof. apply er_sqrt_fin. Qed.
Lemma fin_log10 a : 0 < a -> Olog10 (Fin a) = Fin (ln a / ln 10).
Proof. apply er_log10_fin. Qed.
Lemma fin_log10f a : 0 < a -> Olog10f (Fin a) = Fin (ln a / ln 10).
Proof. apply er_log10_fin. Qed.
Lemma fin_ln a : 0 < a -> Olog (Fin a) = Fin (ln a).
Proof. apply er_ln_fin. Qed.
Lemma fin_powp a p : Opow (Fin a) (OofZ (Zpos p)) = Fin (a ^ Pos.to_nat p).
Proof. apply er_pow_posint. Qed.
Lemma fin_powpF a p : Opow (Fin a) (Fin (IZR (Zpos p))) = Fin (a ^ Pos.to_nat p).
Proof. apply er_pow_posint. Qed.
Lemma fin_pown a p : 0 < a -> Opow (Fin a) (OofZ (Zneg p)) = Fin (/ a ^ Pos.to_nat p).
Proof. apply er_pow_negint. Qed.
Lemma fin_pow a b : 0 < a -> Opow (Fin a) (Fin b) = Fin (Rpower a b).
Proof. apply er_pow_fin. Qed.
Lemma fin_ltb a b : Oltb (Fin a) (Fin b) = Rltb a b.  Proof. reflexivity. Qed.
Lemma fin_leb a b : Oleb (Fin a) (Fin b) = Rleb a b.  Proof. apply er_leb_fin. Qed.
Lemma fin_eqb a b : Oeqb (Fin a) (Fin b) = Reqb a b.  Proof. reflexivity. Qed.

Lemma R_num_min_pos : 0 < R_num_min.
Proof. apply powerRZ_lt; lra. Qed.
Lemma R_num_eps_pos : 0 < R_num_eps.
Proof. apply powerRZ_lt; lra. Qed.

(** Real constants injected into the exact instance. *)
Definition pc_map {A B} (f : A -> B) (p : PhysConst A) : PhysConst B := {|
  pc_na := f (pc_na p); pc_alpha := f (pc_alpha p); pc_h := f (pc_h p);
  pc_hbar := f (pc_hbar p); pc_kb := f (pc_kb p); pc_r_gas := f (pc_r_gas p);
  pc_qe := f (pc_qe p); pc_c := f (pc_c p); pc_g_newt := f (pc_g_newt p);
  pc_me := f (pc_me p); pc_mp := f (pc_mp p); pc_mn := f (pc_mn p);
  pc_amu := f (pc_amu p); pc_sb := f (pc_sb p); pc_ar := f (pc_ar p);
  pc_eV := f (pc_eV p); pc_Fc := f (pc_Fc p); pc_nu_sigma0 := f (pc_nu_sigma0 p);
  pc_gA := f (pc_gA p) |}.
Definition finpc : PhysConst R -> PhysConst ER := pc_map Fin.

Lemma one_lt_exp x : 0 < x -> 1 < exp x.
Proof. intros H. rewrite <- exp_0. now apply exp_increasing. Qed.
Lemma expm1_pos x : 0 < x -> 0 < exp x - 1.
Proof. intros H. pose proof (one_lt_exp x H). lra. Qed.
Lemma exp_neg_lt_1 x : 0 < x -> exp (- x) < 1.
Proof. intros H. rewrite <- exp_0. apply exp_increasing. lra. Qed.

(** positivity *)
Ltac pos :=
  repeat first
    [ assumption
    | match goal with
      | |- 0 < IZR _ => lra
      | |- 0 < PI => apply PI_RGT_0
      | |- 0 < exp _ - 1 => apply expm1_pos
      | |- 0 < exp _ + - _ => apply expm1_pos
      | |- 0 < exp _ => apply exp_pos
      | |- 0 < R_num_min => apply R_num_min_pos
      | |- 0 < R_num_eps => apply R_num_eps_pos
      | |- 0 < _ * _ => apply Rmult_lt_0_compat
      | |- 0 < _ / _ => apply Rdiv_lt_0_compat
      | |- 0 < / _ => apply Rinv_0_lt_compat
      | |- 0 < _ ^ _ => apply pow_lt
      | |- 0 < sqrt _ => apply sqrt_lt_R0
      | |- 0 < powerRZ _ _ => apply powerRZ_lt
      | |- 0 < _ + _ => apply Rplus_lt_0_compat
      | |- 0 < Rpower _ _ => unfold Rpower
      end
    | lra ].
Ltac nz := first [ assumption | apply Rgt_not_eq; unfold Rgt; solve [pos] | lra | idtac ].

Ltac pnat := match goal with |- context [Pos.to_nat ?p] =>
  let n := eval compute in (Pos.to_nat p) in change (Pos.to_nat p) with n end.

Ltac er_step :=
  first
    [ progress unfold finpc, pc_map; progress cbn [pc_na pc_alpha pc_h pc_hbar pc_kb
        pc_r_gas pc_qe pc_c pc_g_newt pc_me pc_mp pc_mn pc_amu pc_sb pc_ar pc_eV pc_Fc
        pc_nu_sigma0 pc_gA]
    | rewrite fin_powp; pnat
    | rewrite fin_powpF; pnat
    | rewrite fin_pown by solve [pos]; pnat
    | rewrite fin_pi | rewrite fin_min | rewrite fin_eps | rewrite fin_dec
    | rewrite fin_ofZ
    | rewrite fin_add | rewrite fin_sub | rewrite fin_mul | rewrite fin_opp
    | rewrite fin_abs | rewrite fin_exp | rewrite fin_expm1 | rewrite fin_cos
    | rewrite fin_div by solve [nz]
    | rewrite fin_sqrt by solve [lra | apply Rlt_le; pos]
    | rewrite fin_pow by solve [pos]
    | rewrite fin_ln by solve [pos]
    | rewrite fin_log10 by solve [pos]
    | rewrite fin_log10f by solve [pos]
    | rewrite fin_ltb | rewrite fin_leb | rewrite fin_eqb ].
Ltac er := repeat er_step.
