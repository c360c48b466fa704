(* The pressure that pressure() returns, and that of the ideal gas. *)
From Coq Require Import Reals.
Local Open Scope R_scope.

(* v is between lo and hi times the pressure of the ideal gas at T and d; G the gas constant *)
Definition near_ideal (lo hi G T d v : R) : Prop := lo * (G * T * d) <= v <= hi * (G * T * d).
(* from state 1 to a state 2 that is not cooler and not thinner, the pressure rises by lo to hi times the rise for the ideal gas, up to rounding *)
Definition rises_like_ideal (lo hi G T1 d1 T2 d2 v1 v2 : R) : Prop := T1 <= T2 -> d1 <= d2 ->
  let ideal := G * T2 * d2 - G * T1 * d1 in let noise := 6 / 10000000000 * (G * T2 * d2) in lo * ideal - noise <= v2 - v1 <= hi * ideal + noise.
