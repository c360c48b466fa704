(* The slope of the GERG-2008 pressure, with every term counted by its size (SpecAll); in units of R T. *)
From Coq Require Import Reals.
From Verif Require Import SpecAll.
Local Open Scope R_scope.
Definition gerg_slope (x : nat -> R) (delta tau : R) : R := 1 + 2 * gerg_sum 1 x delta tau + gerg_sum 2 x delta tau.
