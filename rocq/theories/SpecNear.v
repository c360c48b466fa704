(* Density as the ideal gas gives it, near base conditions. *)
From Coq Require Import Reals.
Local Open Scope R_scope.

(* the molar density d is P / (R0 T) up to 3.6e-4 per kPa of pressure, with 2e-7 for the search *)
Definition nearly (R0 T P d : R) : Prop := Rabs (d * R0 * T / P - 1) <= 36 / 100000 * P + 2 / 10000000.
(* two densities agree up to 7.6e-4 per kPa of pressure, with 1e-5 for the gas constants of the two equations and the search *)
Definition agree (P d1 d2 : R) : Prop := Rabs (d1 - d2) <= (76 / 100000 * P + 1 / 100000) * d2.
