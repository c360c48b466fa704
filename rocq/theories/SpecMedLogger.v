(* Readings of natural gas up to a given pressure, evaluated one after another on one object. *)
From Coq Require Import Reals List.
From Verif Require Import ArithB64 SpecB64 SpecSession SpecLogger.
Local Open Scope R_scope.

(* a reading within the limits of a natural gas, at a pressure up to top (kPa) *)
Definition reading_upto (m : Libm) (top : R) (r : reading m) : Prop :=
  gas_comp m (r_c r) /\ (fin (r_t r) /\ 270 <= bR (r_t r) <= 350) /\ (fin (r_p r) /\ 1 / 10 <= bR (r_p r) <= top).
Definition readings_upto (m : Libm) (top : R) (l : list (reading m)) : Prop :=
  Forall (reading_upto m top) l /\ forall a b, In a l -> In b l -> resolved m a b.
