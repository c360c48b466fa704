(* Order and agreement of the pressures that pressure() returns. *)
From Coq Require Import Reals.
Local Open Scope R_scope.

(* the second state is not cooler and not thinner than the first, and it is hotter by a millionth of a kelvin or denser by one part in 10^8 *)
Definition state_above (T1 d1 T2 d2 : R) : Prop := T1 <= T2 /\ d1 <= d2 /\ (d1 * (1 + 1 / 100000000) <= d2 \/ T1 + 1 / 1000000 <= T2).
(* two answers for one state: equal to one part in 10^9 *)
Definition same_pressure (v w : R) : Prop := Rabs (v - w) <= 1 / 1000000000 * Rmin v w.
