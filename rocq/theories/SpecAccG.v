(* The GERG-2008 equation with every contribution to the compressibility factor counted by its size. *)
From Coq Require Import Reals ZArith List.
From Verif Require Import FArith ArithR StdGerg SpecStd.
Import ListNotations.
Local Open Scope R_scope.

(* delta times the derivative of a term by delta, with absolute values *)
Definition pure_weight (delta tau : R) (r : lit * nat * lit * nat) : R :=
  let '(n, d, t, c) := r in
  Rabs (Rlit n) * delta ^ d * Rpower tau (Rlit t)
  * match c with O => INR d | _ => exp (- delta ^ c) * (INR d + INR c * delta ^ c) end.
Definition dep_weight (delta tau : R) (r : lit * nat * lit * list lit) : R :=
  let '(n, d, t, w) := r in
  let p c := Rlit (nth c w (L 0 0)) in
  Rabs (Rlit n) * delta ^ d * Rpower tau (Rlit t) * exp (- p 0%nat * (delta - p 1%nat) ^ 2 - p 2%nat * (delta - p 3%nat))
  * (INR d + 2 * p 0%nat * delta ^ 2 + (2 * p 0%nat * p 1%nat + p 2%nat) * delta).
Definition gerg_size (x : nat -> R) (delta tau : R) : R :=
  1 + tot 21 (fun m => x (S m) * lsum (pure_weight delta tau) (nth (S m) PURE []))
  + lsum (fun r => let '(i, j, f, m) := r in x i * x j * Rabs (Rlit f) * lsum (dep_weight delta tau) (dep_rows m)) DEPARTS.
