(* Natural gas at base conditions: composition limits (close to the "normal range" of the AGA 8 standard). *)
From Coq Require Import Reals ZArith List.
From Verif Require Import FArith ArithR SpecStd.
Import ListNotations.
Local Open Scope R_scope.

(* largest fractions of methane, nitrogen, carbon dioxide, ethane, propane, the two butanes, the two pentanes, hexane,
   heptane, octane, nonane, decane, hydrogen, oxygen, carbon monoxide, water, hydrogen sulfide, helium, argon *)
Definition GAS_LIMITS : list lit :=
  [L 101 (-2); L 5 (-1); L 3 (-1); L 1 (-1); L 4 (-2); L 1 (-2); L 1 (-2); L 3 (-3); L 3 (-3); L 2 (-3);
   L 1 (-3); L 5 (-4); L 5 (-4); L 5 (-4); L 1 (-1); L 1 (-2); L 3 (-2); L 5 (-4); L 2 (-4); L 5 (-3); L 1 (-2)].
Definition gas_limit (i : nat) : R := Rlit (nth i GAS_LIMITS (L 0 0)).
(* fractions numbered from 0 in that order *)
Definition natural_gas (x : nat -> R) : Prop :=
  45 / 100 <= x 0%nat /\ (forall i, (i < 21)%nat -> 0 <= x i <= gas_limit i) /\ 99 / 100 <= tot 21 x <= 101 / 100.
