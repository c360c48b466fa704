(* The derivative of the DETAIL pressure with respect to density, with every contribution counted by its size; over the
   printed table (SpecStd). *)
From Coq Require Import Reals ZArith.
From Verif Require Import FArith SpecStd SpecAcc.
Local Open Scope R_scope.

Definition slope_size (x : nat -> R) (T d : R) : R :=
  let D := detail_D x d in
  1 + 2 * (d * tot 18 (fun n => Rabs (virial_n x T n)))
  + 2 * (D * tot 6 (fun m => Rabs (C_n x (12 + m)) * Rpower T (- u_ (12 + m))))
  + tot 46 (fun m => let n := (12 + m)%nat in let g := INR (b_ n) + INR (k_ n) * D ^ k_ n in
      Rabs (C_n x n) * Rpower T (- u_ n) * (g * (g + 3) + INR (k_ n) * INR (k_ n) * D ^ k_ n) * D ^ b_ n
      * match k_ n with O => 1 | k => exp (- D ^ k) end).

(* a bound for it at all densities up to d when D <= 1 *)
Definition slope_top (x : nat -> R) (T d : R) : R :=
  let D := detail_D x d in
  1 + 2 * (d * tot 18 (fun n => Rabs (virial_n x T n)))
  + 2 * (D * tot 6 (fun m => Rabs (C_n x (12 + m)) * Rpower T (- u_ (12 + m))))
  + tot 46 (fun m => let n := (12 + m)%nat in let g := INR (b_ n) + INR (k_ n) in
      Rabs (C_n x n) * Rpower T (- u_ n) * (g * (g + 3) + INR (k_ n) * INR (k_ n)) * D ^ b_ n).
