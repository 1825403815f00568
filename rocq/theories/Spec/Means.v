(** Group means over the reals, independently of the code: the sampled frequencies, the
    thermal weights and the weighted sums. *)
From Coq Require Import Reals ZArith List Lra.
From Coquelicot Require Import Coquelicot.
From Verif Require Import Inst.ER Spec.Physics Spec.Tables.
Import ListNotations.
Open Scope R_scope.

(** f 0 + ... + f (n - 1) *)
Fixpoint rsum (n : nat) (f : nat -> R) : R :=
  match n with O => 0 | S k => rsum k f + f k end.

(** the thermal window of temperature T: from kT/1000h to 1000 kT/h *)
Definition thermal_lo (h k T : R) : R := k * T / (1000 * h).
Definition thermal_hi (h k T : R) : R := 1000 * k * T / h.

(** the part of the group [lo, hi] that is sampled: an edge lying more than a decade
    outside the thermal window is replaced by the edge of the window; if nothing is left,
    the upper octave of a bounded group, the upper decade of the window of an unbounded one *)
Definition window (h k T lo : R) (hi : ER) : R * R :=
  let a := if Req_EM_T lo 0 then thermal_lo h k T else
           if Rlt_dec lo (thermal_lo h k T / 10) then thermal_lo h k T else lo in
  let b := match hi with
           | Fin x => if Rlt_dec (10 * thermal_hi h k T) x then thermal_hi h k T else x
           | _ => thermal_hi h k T
           end in
  if Rlt_dec a b then (a, b) else
  match hi with
  | Fin x => (x / 2, x)
  | _ => (thermal_hi h k T / 10, thermal_hi h k T)
  end.

(** guarded decimal logarithms of the two ends *)
Definition logs (w : R * R) : R * R := (log10 (fst w + tiny), log10 (snd w + tiny)).

(** N midpoints of equal cells of log10 nu between the ends [l]: width of a cell, i-th
    frequency *)
Definition cell_width (l : R * R) (N : Z) : R := (snd l - fst l) / IZR N.
Definition frequency (l : R * R) (N : Z) (i : nat) : R :=
  pow10 (fst l + (INR i + / 2) * cell_width l N).

(** spectrum and temperature derivative, in their Wien form from h nu = 80 kT on *)
Definition weight_B (h k c T nu : R) : R :=
  if Rlt_dec (h * nu / (k * T)) 80 then Planck_B h k c T nu
  else 2 * h * nu ^ 3 / c ^ 2 * exp (- (h * nu / (k * T))).
Definition weight_dB (h k c T nu : R) : R :=
  if Rlt_dec (h * nu / (k * T)) 80 then Derive (fun t => Planck_B h k c t nu) T
  else 2 * h ^ 2 * nu ^ 4 / (T ^ 2 * c ^ 2 * k) * exp (- (h * nu / (k * T))).

(** the quadrature: weight times nu d(log nu) of sample i *)
Definition quad (weight : R -> R) (l : R * R) (N : Z) (i : nat) : R :=
  weight (frequency l N i) * (frequency l N i * cell_width l N).

(** weighted sum of [f] over the samples *)
Definition average_sum (weight : R -> R) (l : R * R) (N : Z) (f : R -> R) : R :=
  rsum (Z.to_nat N) (fun i => f (frequency l N i) * quad weight l N i).

(** guarded Planck and Rosseland means, with weights B and dB, of the coefficient [a] at
    density rho. Frequencies with a <= tiny do not enter the Rosseland numerator. *)
Definition mass (rho : R) (a : R -> R) (nu : R) : R := a nu / rho.
Definition inverse (rho : R) (a : R -> R) (nu : R) : R :=
  if Rlt_dec tiny (a nu) then rho / (a nu + tiny) else 0.
Definition counted (a : R -> R) (nu : R) : R := if Rlt_dec tiny (a nu) then 1 else 0.

Definition planck_mean_of (B : R -> R) (rho : R) (a : R -> R) (l : R * R) (N : Z) : R :=
  average_sum B l N (mass rho a) / (average_sum B l N (fun _ => 1) + tiny).
(** photons: every frequency enters the denominator *)
Definition rosseland_mean_of (dB : R -> R) (rho : R) (a : R -> R) (l : R * R) (N : Z) : R :=
  let D := average_sum dB l N (fun _ => 1) in
  let M := average_sum dB l N (inverse rho a) in
  if Rlt_dec tiny D then if Rlt_dec tiny M then D / (M + tiny) else 0 else 0.
(** neutrinos: the frequencies of the numerator only *)
Definition nu_rosseland_mean_of (B dB : R -> R) (rho : R) (a : R -> R) (l : R * R) (N : Z) : R :=
  let D := average_sum dB l N (counted a) in
  let M := average_sum dB l N (inverse rho a) in
  if Rlt_dec tiny (planck_mean_of B rho a l N) then
    if Rlt_dec tiny M then D / (M + tiny) else 0
  else 0.
