(* A measuring device that keeps one object and evaluates one reading after another on it. *)
From Coq Require Import Reals ZArith List.
From Flocq Require Import Core BinarySingleNaN.
From Verif Require Import FArith Prelude Composition ArithB64 SpecB64 SpecGas SpecSession Api.
Import ListNotations.
Local Open Scope R_scope.

(* set composition, temperature and pressure, compute the density and then the properties *)
Definition evaluate {A : Arith} (i : Z) (c : Composition) (t p : F) : list op :=
  [SetComp c; Poke PT t; Poke PP p; Density i; Properties].

(* a reading: composition, temperature, pressure, within the limits of a natural gas near base conditions *)
Record reading (m : Libm) := mkReading { r_c : @Composition (ArithB64 m); r_t : b64; r_p : b64 }.
Arguments mkReading {m}. Arguments r_c {m}. Arguments r_t {m}. Arguments r_p {m}.
Definition reading_ok (m : Libm) (r : reading m) : Prop :=
  gas_comp m (r_c r) /\ (fin (r_t r) /\ 270 <= bR (r_t r) <= 350) /\ (fin (r_p r) /\ 1 / 10 <= bR (r_p r) <= 110).
(* two readings have the same composition, or some fraction differs by more than 2e-7; and the same for the temperatures;
   nothing is required of the pressures *)
Definition resolved (m : Libm) (a b : reading m) : Prop :=
  (r_c a = r_c b \/ exists i, (i < 21)%nat /\ 2 / 10000000 < Rabs (bR (nth i (bfractions m (r_c a)) B0) - bR (nth i (bfractions m (r_c b)) B0))) /\
  (r_t a = r_t b \/ 2 / 10000000 < Rabs (bR (r_t a) - bR (r_t b))).
Definition readings_ok (m : Libm) (l : list (reading m)) : Prop :=
  Forall (reading_ok m) l /\ forall a b, In a l -> In b l -> resolved m a b.
(* the calls for a list of readings *)
Definition evaluate_all (m : Libm) (i : Z) (l : list (reading m)) : list (@op (ArithB64 m)) :=
  flat_map (fun r => evaluate (A := ArithB64 m) i (r_c r) (r_t r) (r_p r)) l.
