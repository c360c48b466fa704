(* Where a pressure function is close to that of an ideal gas; over the printed tables (SpecStd). *)
From Coq Require Import Reals List.
From Coquelicot Require Import Coquelicot.
From Verif Require Import FArith ArithR StdGerg SpecStd SpecAcc.
Import ListNotations.
Local Open Scope R_scope.

(* around the density d0 the pressure is nearly proportional to the density, and p(d0) is near P *)
Definition nearly_ideal (p : R -> R) (d0 P : R) : Prop :=
  2 / 3 * P <= p d0 <= 3 / 2 * P /\
  forall d, d0 / 3 <= d <= 3 * d0 -> 0 < p d /\ 5 / 6 * p d <= d * Derive p d <= 7 / 6 * p d.
(* the density at which density() starts, given the fields d, p, t and the gas constant *)
Definition first_guess (rg d p t : R) : R := if Rlt_dec (- (1 / 1000000000000000)) d then p / rg / t else Rabs d.

(* a bound, over the printed table of the DETAIL equation, for the departure of the compressibility
   factor from 1 and for its logarithmic derivative, at all densities up to d *)
Definition spread (x : nat -> R) (T d : R) : R :=
  let D := detail_D x d in
  d * Rabs (second_virial x T) + D * Rabs (tot 6 (fun m => C_n x (12 + m) * Rpower T (- u_ (12 + m))))
  + tot 46 (fun m => let n := (12 + m)%nat in
      Rabs (C_n x n) * Rpower T (- u_ n) * ((INR (b_ n) + INR (k_ n) * D ^ k_ n) ^ 2 + INR (k_ n) ^ 2 * D ^ k_ n) * D ^ b_ n).

(* the same for GERG-2008, at reduced densities up to delta *)
Definition pure_size (delta tau : R) (r : lit * nat * lit * nat) : R :=
  let '(n, d, t, c) := r in
  Rabs (Rlit n) * Rpower tau (Rlit t) * ((INR d + INR c * delta ^ c) ^ 2 + INR c ^ 2 * delta ^ c) * delta ^ d.
Definition dep_size (delta tau : R) (r : lit * nat * lit * list lit) : R :=
  let '(n, d, t, w) := r in
  let p c := Rlit (nth c w (L 0 0)) in let e := 2 * p 0%nat * delta * (delta + p 1%nat) + p 2%nat * delta in
  Rabs (Rlit n) * Rpower tau (Rlit t) * ((INR d + e) ^ 2 + e + 2 * p 0%nat * delta ^ 2) * exp (p 2%nat * p 3%nat) * delta ^ d.
Definition gerg_spread (x : nat -> R) (delta tau : R) : R :=
  tot 21 (fun m => x (S m) * lsum (pure_size delta tau) (nth (S m) PURE []))
  + lsum (fun r => let '(i, j, f, m) := r in x i * x j * Rabs (Rlit f) * lsum (dep_size delta tau) (dep_rows m)) DEPARTS.
