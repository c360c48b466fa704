(* The sizes of the fields that properties() of DETAIL reports: the formula for the field with every term replaced by its
   size; over the printed table (SpecStd) and the coefficients of the ideal gas (SpecIdeal). *)
From Coq Require Import Reals ZArith List.
From Verif Require Import FArith SpecDetail SpecIdeal SpecStd SpecAcc SpecAll Api.
Local Open Scope R_scope.

(* term n of the residual Helmholtz energy over RT (e = 0) and of its e-th density derivative times d^e *)
Definition dfactor (b k : nat) (D : R) (e : nat) : R :=
  let g := INR b + INR k * D ^ k in let c := INR k * INR k * D ^ k in
  match e with
  | 0%nat => 1 | 1%nat => g | 2%nat => g * (g + 1) + c | _ => (g + 2) * (g * (g + 1) + c) + c * (1 + INR k + 2 * g)
  end.
Definition dterm (e : nat) (x : nat -> R) (T d : R) (n : nat) : R :=
  let D := detail_D x d in let C := Rabs (C_n x n) * Rpower T (- u_ n) in
  (if (n <? 18)%nat then match e with
     | 0%nat | 1%nat => d * Rabs (virial_n x T n) + (if (n <? 12)%nat then 0 else C * D)
     | _ => 0 end else 0)
  + (if (n <? 12)%nat then 0 else C * D ^ b_ n * match k_ n with O => 1 | k => exp (- D ^ k) end * dfactor (b_ n) (k_ n) D e).
(* with w temperature derivatives: the term carries a power of the temperature *)
Definition dweight (w n : nat) : R :=
  match w with 0%nat => 1 | 1%nat => Rabs (u_ n) + 1 | _ => (Rabs (u_ n) + 1) * Rabs (u_ n) end.
Definition dsum (w e : nat) (x : nat -> R) (T d : R) : R := tot 58 (fun n => dweight w n * dterm e x T d n).

(* the ideal gas: Helmholtz energy over RT (0), its temperature derivative over R (1), heat capacity over R (2) *)
Definition dhyp_size (e i j : nat) (t : R) : R :=
  let y := ig i (7 + j) / t in
  Rabs (ig i (3 + j)) * match e with 0%nat => lsize (hyp j y) | 1%nat => lsize (hyp j y) + y * hyp (S j) y / hyp j y | _ => (y / hyp j y) ^ 2 end.
Definition dideal_size (e i : nat) (x t d : R) : R :=
  let B := Rabs (ig i 2) + 1 in
  match e with
  | 0%nat => lsize d + lsize x + (Rabs (ig i 0) + lsize (ref_density RD)) + Rabs (ig i 1) / t + B * lsize t
  | 1%nat => lsize d + lsize x + (Rabs (ig i 0) + lsize (ref_density RD)) + B * (1 + lsize t)
  | _ => B
  end + tot 4 (fun j => dhyp_size e i j t).
Definition dideal_sum (e : nat) (x : nat -> R) (t d : R) : R := tot 21 (fun i => x i * dideal_size e i (x i) t d).

Definition dfield_size (f : pfield) (x : nat -> R) (t d : R) : R :=
  let S w e := dsum w e x t d in let I e := dideal_sum e x t d in
  match f with
  | PP => d * (RD * t) * (1 + S 0%nat 1%nat) | PZ => 1 + S 0%nat 1%nat
  | PDpDd => RD * t * (1 + 2 * S 0%nat 1%nat + S 0%nat 2%nat)
  | PD2pDd2 => RD * t * (2 * S 0%nat 1%nat + 4 * S 0%nat 2%nat + S 0%nat 3%nat) / d
  | PDpDt => d * RD * (1 + S 1%nat 1%nat)
  | PU => RD * t * (I 0%nat + S 0%nat 0%nat + (I 1%nat + S 1%nat 0%nat))
  | PH => RD * t * (1 + S 0%nat 1%nat + I 0%nat + S 0%nat 0%nat + (I 1%nat + S 1%nat 0%nat))
  | PS => RD * (I 1%nat + S 1%nat 0%nat) | PCv => RD * (I 2%nat + S 2%nat 0%nat)
  | PG => RD * t * (1 + S 0%nat 1%nat + I 0%nat + S 0%nat 0%nat)
  | _ => 0
  end.
(* the fields computed from the sums; d2p_dtd is never written by DETAIL, and cp, w, jt, kappa are quotients of these (C57) *)
Definition detail_field (f : pfield) : Prop :=
  match f with PP | PZ | PDpDd | PD2pDd2 | PDpDt | PU | PH | PS | PCv | PG => True | _ => False end.
