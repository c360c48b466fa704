(* How the density reported follows pressure and temperature. *)
From Coq Require Import Reals ZArith List.
From Flocq Require Import Core BinarySingleNaN.
From Verif Require Import FArith Prelude Composition ArithB64 Api.
Import ListNotations.
Local Open Scope R_scope.

(* a new object: set composition, temperature and pressure and compute the density; the answers if there is no error *)
Definition measure {A : Arith} (i : Z) (c : Composition) (t p : F) : list op := [SetComp c; Poke PT t; Poke PP p; Density i].
Definition measured {A : Arith} : list out := [OComp ROk; OUnit; OUnit; ODens ROk].

(* near base conditions: 270 K to 350 K, 0.1 to 110 kPa *)
Definition gas_range (t P : b64) : Prop := (fin t /\ 270 <= bR t <= 350) /\ (fin P /\ 1 / 10 <= bR P <= 110).

(* The ideal gas: ln (d2 / d1) = ln (P2 / P1) - ln (T2 / T1).  Here the pressure counts within the fraction a and the
   temperature within the fraction b of that, with 2.5e-7 for the error of the search. *)
Definition follows (a b : R) (T1 P1 d1 T2 P2 d2 : R) : Prop :=
  Rabs (ln (d2 / d1) - (ln (P2 / P1) - ln (T2 / T1))) <= a * Rabs (ln (P2 / P1)) + b * Rabs (ln (T2 / T1)) + 1 / 4000000.
(* the second state has the higher pressure or the lower temperature, by one part in a million, and neither the reverse *)
Definition denser (T1 P1 T2 P2 : R) : Prop :=
  (P1 * (1 + 1 / 1000000) <= P2 /\ T2 <= T1) \/ (P1 <= P2 /\ T2 * (1 + 1 / 1000000) <= T1).
