(** Exact arithmetic with IEEE special values.

    [Fin r] is the real number r; +inf, -inf and NaN follow the IEEE 754 / C99
    rules. Differences from doubles, deliberately: no rounding, no overflow or
    underflow, one unsigned zero (x / 0 with x <> 0 is the infinity with the
    sign of x, as for +0), M_PI is pi, libm functions are exact. *)
From Coq Require Import Reals ZArith Lra Lia.
From Verif Require Import Base.Ops.
Open Scope R_scope.

Inductive ER : Type := Fin (r : R) | PInf | NInf | NaN.

Definition Rltb (a b : R) : bool := if Rlt_dec a b then true else false.
Definition Rleb (a b : R) : bool := if Rle_dec a b then true else false.
Definition Reqb (a b : R) : bool := if Req_EM_T a b then true else false.

(** the infinity with the sign of r (NaN for 0) *)
Definition inf_of_sign (r : R) : ER :=
  if Rlt_dec 0 r then PInf else if Rlt_dec r 0 then NInf else NaN.

Definition er_opp (a : ER) : ER :=
  match a with Fin r => Fin (- r) | PInf => NInf | NInf => PInf | NaN => NaN end.

Definition er_abs (a : ER) : ER :=
  match a with Fin r => Fin (Rabs r) | PInf => PInf | NInf => PInf | NaN => NaN end.

Definition er_add (a b : ER) : ER :=
  match a, b with
  | Fin x, Fin y => Fin (x + y)
  | NaN, _ | _, NaN => NaN
  | PInf, NInf | NInf, PInf => NaN
  | PInf, _ | _, PInf => PInf
  | NInf, _ | _, NInf => NInf
  end.

Definition er_sub (a b : ER) : ER := er_add a (er_opp b).

Definition er_mul (a b : ER) : ER :=
  match a, b with
  | Fin x, Fin y => Fin (x * y)
  | NaN, _ | _, NaN => NaN
  | PInf, PInf | NInf, NInf => PInf
  | PInf, NInf | NInf, PInf => NInf
  | PInf, Fin y | Fin y, PInf => inf_of_sign y
  | NInf, Fin y | Fin y, NInf => inf_of_sign (- y)
  end.

Definition er_div (a b : ER) : ER :=
  match a, b with
  | Fin x, Fin y => if Req_EM_T y 0 then inf_of_sign x else Fin (x / y)
  | NaN, _ | _, NaN => NaN
  | Fin _, _ => Fin 0
  | PInf, Fin y => if Rlt_dec y 0 then NInf else PInf
  | NInf, Fin y => if Rlt_dec y 0 then PInf else NInf
  | _, _ => NaN
  end.

Definition er_exp (a : ER) : ER :=
  match a with Fin r => Fin (exp r) | PInf => PInf | NInf => Fin 0 | NaN => NaN end.
Definition er_expm1 (a : ER) : ER :=
  match a with Fin r => Fin (exp r - 1) | PInf => PInf | NInf => Fin (-1) | NaN => NaN end.

Definition er_ln (a : ER) : ER :=
  match a with
  | Fin r => if Rlt_dec 0 r then Fin (ln r) else if Rlt_dec r 0 then NaN else NInf
  | PInf => PInf | NInf => NaN | NaN => NaN
  end.
Definition er_log10 (a : ER) : ER :=
  match a with
  | Fin r => if Rlt_dec 0 r then Fin (ln r / ln 10)
             else if Rlt_dec r 0 then NaN else NInf
  | PInf => PInf | NInf => NaN | NaN => NaN
  end.
Definition er_sqrt (a : ER) : ER :=
  match a with
  | Fin r => if Rlt_dec r 0 then NaN else Fin (sqrt r)
  | PInf => PInf | NInf => NaN | NaN => NaN
  end.
Definition er_cos (a : ER) : ER :=
  match a with Fin r => Fin (cos r) | _ => NaN end.

(** the integer nearest below; [is_int r] decides whether r is an integer *)
Definition Zfl (r : R) : Z := (up r - 1)%Z.
Definition is_int (r : R) : bool := Reqb (IZR (Zfl r)) r.

(** truncation toward zero, then the int range check *)
Definition Ztrunc_R (r : R) : Z := if Rlt_dec r 0 then (- Zfl (- r))%Z else Zfl r.
Definition er_trunc (a : ER) : option Z :=
  match a with
  | Fin r => let z := Ztrunc_R r in if int_fits z then Some z else None
  | _ => None
  end.

(** C99 pow, without signed zeros *)
Definition er_pow (a b : ER) : ER :=
  match a, b with
  | _, Fin y =>
    if Req_EM_T y 0 then Fin 1 else
    match a with
    | Fin x =>
      if Rlt_dec 0 x then Fin (Rpower x y)
      else if Req_EM_T x 0 then (if Rlt_dec 0 y then Fin 0 else PInf)
      else if is_int y then Fin (powerRZ x (Zfl y)) else NaN
    | PInf => if Rlt_dec 0 y then PInf else Fin 0
    | NInf => if Rlt_dec 0 y
              then (if is_int y then (if Z.odd (Zfl y) then NInf else PInf) else PInf)
              else Fin 0
    | NaN => NaN
    end
  | Fin x, PInf => if Req_EM_T x 1 then Fin 1
                   else if Rlt_dec (Rabs x) 1 then Fin 0
                   else if Rlt_dec 1 (Rabs x) then PInf else Fin 1
  | Fin x, NInf => if Req_EM_T x 1 then Fin 1
                   else if Rlt_dec (Rabs x) 1 then PInf
                   else if Rlt_dec 1 (Rabs x) then Fin 0 else Fin 1
  | (PInf | NInf), PInf => PInf
  | (PInf | NInf), NInf => Fin 0
  | Fin x, NaN => if Req_EM_T x 1 then Fin 1 else NaN
  | _, _ => NaN
  end.

Definition er_ltb (a b : ER) : bool :=
  match a, b with
  | Fin x, Fin y => Rltb x y
  | NaN, _ | _, NaN => false
  | NInf, NInf => false
  | NInf, _ => true
  | _, PInf => match a with PInf => false | _ => true end
  | _, _ => false
  end.
Definition er_eqb (a b : ER) : bool :=
  match a, b with
  | Fin x, Fin y => Reqb x y
  | PInf, PInf | NInf, NInf => true
  | _, _ => false
  end.
Definition er_leb (a b : ER) : bool := er_ltb a b || er_eqb a b.

Definition er_isnan (a : ER) : bool := match a with NaN => true | _ => false end.
Definition er_isinf (a : ER) : bool := match a with PInf | NInf => true | _ => false end.

(** numeric_limits<double>::min() = 2^-1022, epsilon() = 2^-52 *)
Definition R_num_min : R := powerRZ 2 (-1022).
Definition R_num_eps : R := powerRZ 2 (-52).

#[global] Instance ER_ops : Ops ER := {
  Oadd := er_add; Osub := er_sub; Omul := er_mul; Odiv := er_div;
  Oopp := er_opp; Oabs := er_abs;
  Oexp := er_exp; Oexpm1 := er_expm1; Olog10 := er_log10; Olog := er_ln;
  Olog10f := er_log10; Osqrt := er_sqrt; Ocos := er_cos; Opow := er_pow;
  Oltb := er_ltb; Oleb := er_leb; Oeqb := er_eqb;
  Oisnan := er_isnan; Oisinf := er_isinf;
  Otrunc := er_trunc;
  OofZ := fun z => Fin (IZR z);
  Odec := fun m e => Fin (IZR m * powerRZ 10 e);
  Opi := Fin PI; Oinf := PInf;
  Onum_min := Fin R_num_min; Onum_eps := Fin R_num_eps;
}.

(** ** Evaluation lemmas on finite arguments *)
Lemma Rltb_true a b : a < b -> Rltb a b = true.
Proof. intros H; unfold Rltb; destruct (Rlt_dec a b); [reflexivity|contradiction]. Qed.
Lemma Rltb_false a b : b <= a -> Rltb a b = false.
Proof. intros H; unfold Rltb; destruct (Rlt_dec a b); [lra|reflexivity]. Qed.
Lemma Rltb_iff a b : Rltb a b = true <-> a < b.
Proof. unfold Rltb; destruct (Rlt_dec a b); split; intros; auto; discriminate. Qed.
Lemma Reqb_iff a b : Reqb a b = true <-> a = b.
Proof. unfold Reqb; destruct (Req_EM_T a b); split; intros; auto; discriminate. Qed.
Lemma er_leb_fin a b : er_leb (Fin a) (Fin b) = Rleb a b.
Proof.
  unfold er_leb, er_ltb, er_eqb, Rltb, Reqb, Rleb.
  destruct (Rlt_dec a b), (Req_EM_T a b), (Rle_dec a b); simpl; auto; lra.
Qed.
Lemma Rleb_iff a b : Rleb a b = true <-> a <= b.
Proof. unfold Rleb; destruct (Rle_dec a b); split; intros; auto; discriminate. Qed.
Lemma Rleb_true a b : a <= b -> Rleb a b = true.
Proof. apply Rleb_iff. Qed.
Lemma Rleb_false a b : b < a -> Rleb a b = false.
Proof. intros H; unfold Rleb; destruct (Rle_dec a b); [lra|reflexivity]. Qed.

Lemma er_div_fin x y : y <> 0 -> er_div (Fin x) (Fin y) = Fin (x / y).
Proof. intros H; simpl; destruct (Req_EM_T y 0); [contradiction|reflexivity]. Qed.
Lemma er_sub_fin x y : er_sub (Fin x) (Fin y) = Fin (x - y).
Proof. reflexivity. Qed.
Lemma er_sqrt_fin x : 0 <= x -> er_sqrt (Fin x) = Fin (sqrt x).
Proof. intros H; simpl; destruct (Rlt_dec x 0); [lra|reflexivity]. Qed.
Lemma er_log10_fin x : 0 < x -> er_log10 (Fin x) = Fin (ln x / ln 10).
Proof. intros H; simpl; destruct (Rlt_dec 0 x); [reflexivity|lra]. Qed.
Lemma er_ln_fin x : 0 < x -> er_ln (Fin x) = Fin (ln x).
Proof. intros H; simpl; destruct (Rlt_dec 0 x); [reflexivity|lra]. Qed.

Lemma er_pow_fin x y : 0 < x -> er_pow (Fin x) (Fin y) = Fin (Rpower x y).
Proof.
  intros H; simpl. destruct (Req_EM_T y 0) as [->|].
  - now rewrite Rpower_O.
  - destruct (Rlt_dec 0 x); [reflexivity|lra].
Qed.

Lemma Zfl_IZR z : Zfl (IZR z) = z.
Proof.
  unfold Zfl. destruct (archimed (IZR z)) as [H1 H2].
  apply lt_IZR in H1.
  assert (IZR (up (IZR z)) <= IZR (z + 1)) as H3 by (rewrite plus_IZR; lra).
  apply le_IZR in H3. lia.
Qed.

(** pow with a positive integral exponent, any real base *)
Lemma er_pow_posint x p : er_pow (Fin x) (Fin (IZR (Zpos p))) = Fin (x ^ Pos.to_nat p).
Proof.
  assert (Hp : 0 < IZR (Zpos p)) by (apply (IZR_lt 0); lia).
  unfold er_pow. destruct (Req_EM_T (IZR (Zpos p)) 0) as [e|_]; [lra|].
  destruct (Rlt_dec 0 x) as [Hx|Hx].
  - f_equal. change (IZR (Z.pos p)) with (IPR p).
    rewrite <- INR_IPR. now apply Rpower_pow.
  - destruct (Req_EM_T x 0) as [->|Hx0].
    + destruct (Rlt_dec 0 (IZR (Zpos p))); [|lra].
      f_equal. rewrite pow_i; auto. apply Pos2Nat.is_pos.
    + assert (Hi : is_int (IZR (Zpos p)) = true)
        by (unfold is_int; rewrite Zfl_IZR; apply Reqb_iff; reflexivity).
      rewrite Hi, Zfl_IZR. reflexivity.
Qed.

Lemma er_pow_negint x p : 0 < x ->
  er_pow (Fin x) (Fin (IZR (Zneg p))) = Fin (/ (x ^ Pos.to_nat p)).
Proof.
  intros Hx. rewrite er_pow_fin by assumption. f_equal.
  change (IZR (Z.neg p)) with (- IPR p).
  rewrite Rpower_Ropp. f_equal. rewrite <- INR_IPR. now apply Rpower_pow.
Qed.
