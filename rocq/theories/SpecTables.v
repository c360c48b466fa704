(* What the precomputed GERG-2008 reducing constants stand for: combinations of the critical
   constants and the binary parameters the source also lists.  Shares only tables with the model. *)
From Coq Require Import Reals ZArith List.
From Verif Require Import FArith GergTables ArithR SpecDetail SpecGerg.
Import ListNotations.
Local Open Scope R_scope.

(* critical density (mol/l) and temperature (K) *)
Definition rhoc (i : nat) : R := tb G_DC i.
Definition Tc (i : nat) : R := tb G_TC i.
Definition vpub (i j : nat) : R :=
  if Nat.eqb i j then 1 / rhoc i
  else cell G_setup_bvij i j * cell G_setup_gvij i j * (1 / 8)
       * (Rpower (rhoc i) (- (1 / 3)) + Rpower (rhoc j) (- (1 / 3))) ^ 3.
Definition tpub (i j : nat) : R :=
  if Nat.eqb i j then Tc i
  else cell G_setup_btij i j * cell G_setup_gtij i j * sqrt (Tc i * Tc j).
Definition bpub (i j : nat) : R := if Nat.eqb i j then 1 else cell G_setup_btij i j ^ 2.
(* a is b up to a relative error of 1e-14 *)
Definition close (a b : R) : Prop := Rabs (a - b) <= 1 / 100000000000000 * b.
