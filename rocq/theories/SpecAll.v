(* The entries of the GERG-2008 residual Helmholtz energy and its derivatives, with every term counted by its size; over the
   printed tables (SpecStd).  Entry 0: alpha_r, 1: delta d/ddelta, 2: delta^2 d2/ddelta2, 3: delta^3 d3/ddelta3, 4: tau d/dtau,
   5: delta tau d2/ddelta dtau, 6: delta^2 tau d3/ddelta2 dtau, 7: tau^2 d2/dtau2. *)
From Coq Require Import Reals ZArith List.
From Verif Require Import FArith ArithR SpecGerg SpecIdeal StdGerg SpecStd.
Import ListNotations.
Local Open Scope R_scope.

Definition pure_factor (d c : nat) (t delta : R) (e : nat) : R :=
  let E := INR c * delta ^ c in let g := INR d + E in
  match e with
  | 0%nat => 1 | 1%nat => g | 2%nat => g * (g + 1) + INR c * E | 3%nat => g * (g + 1) * (g + 2) + E * (3 * g + 3 + INR c) * INR c
  | 4%nat => t | 5%nat => t * g | 6%nat => t * (g * (g + 1) + INR c * E) | _ => t * (t + 1)
  end.
Definition dep_factor (d : nat) (t C E : R) (e : nat) : R :=
  let G := INR d + 2 * C + E in let G2 := G * G + INR d + 2 * C in
  match e with
  | 0%nat => 1 | 1%nat => G | 2%nat => G2 | 3%nat => G * (G2 + 2 * (INR d + 2 * C)) + 2 * INR d
  | 4%nat => t | 5%nat => t * G | 6%nat => t * G2 | _ => t * (t + 1)
  end.
Definition pure_w (e : nat) (delta tau : R) (r : lit * nat * lit * nat) : R :=
  let '(n, d, t, c) := r in
  Rabs (Rlit n) * delta ^ d * Rpower tau (Rlit t) * match c with O => 1 | _ => exp (- delta ^ c) end * pure_factor d c (Rabs (Rlit t)) delta e.
Definition dep_w (e : nat) (delta tau : R) (r : lit * nat * lit * list lit) : R :=
  let '(n, d, t, w) := r in
  let p c := Rlit (nth c w (L 0 0)) in
  Rabs (Rlit n) * delta ^ d * Rpower tau (Rlit t) * exp (- p 0%nat * (delta - p 1%nat) ^ 2 - p 2%nat * (delta - p 3%nat))
  * dep_factor d (Rabs (Rlit t)) (p 0%nat * delta ^ 2) ((2 * p 0%nat * p 1%nat + p 2%nat) * delta) e.
Definition gerg_sum (e : nat) (x : nat -> R) (delta tau : R) : R :=
  tot 21 (fun m => x (S m) * lsum (pure_w e delta tau) (nth (S m) PURE []))
  + lsum (fun r => let '(i, j, f, m) := r in x i * x j * Rabs (Rlit f) * lsum (dep_w e delta tau) (dep_rows m)) DEPARTS.

(* The ideal-gas part likewise, over the coefficients of SpecIdeal.  Entry 0: alpha_0 (with the density), 1: u / RT, 2: cv / R.
   A logarithm counts as one more than its absolute value. *)
Definition lsize (y : R) : R := Rabs (ln y) + 1.
Definition nsize (i j : nat) : R := Rabs (ig i j) * (RD / Rg).
Definition n2size (i : nat) : R := (Rabs (ig i 1) + T0) * (RD / Rg) + T0.
Definition n3size (i : nat) : R := (Rabs (ig i 2) + 1) * (RD / Rg).
Definition hyp (j : nat) (y : R) : R := if Nat.even j then sinh y else cosh y.
Definition hyp_size (e i j : nat) (t : R) : R :=
  let y := ig i (7 + j) / t in
  nsize i (3 + j) * match e with 0%nat => lsize (hyp j y) | 1%nat => y * hyp (S j) y / hyp j y | _ => (y / hyp j y) ^ 2 end.
Definition ideal_size (e i : nat) (x t d : R) : R :=
  match e with
  | 0%nat => lsize d + lsize x + (nsize i 0 + lsize (ref_density Rg)) + n2size i / t + n3size i * lsize t
  | 1%nat => n3size i + n2size i / t
  | _ => n3size i
  end + tot 4 (fun j => hyp_size e i j t).
Definition ideal_sum (e : nat) (x : nat -> R) (t d : R) : R := tot 21 (fun i => x (S i) * ideal_size e i (x (S i)) t d).
