(* C63: the whole computation for a natural gas near base conditions with DETAIL, in IEEE double precision: set the composition, temperature and pressure of a
   new object, call density() and properties(), read the fields.  Specification: SpecGasState (gas_state). *)
From Coq Require Import Reals ZArith List Lra Lia.
From Flocq Require Import Core BinarySingleNaN.
From Verif Require Import FArith Prelude ArithB64 B64Lemmas ArithR SpecStd SpecGas SpecAcc SpecGasState DetailModel Api AccLibm GasCase GasProps.
Import ListNotations.
Local Open Scope R_scope.

Theorem C63_detail : forall m, accurate m -> forall (x : nat -> b64) (t P : b64) i, let r j := bR (x j) in
  (forall j, (j < 21)%nat -> fin (x j) /\ (r j = 0 \/ bpow radix2 (-50) <= r j)) -> natural_gas r ->
  fin t /\ 270 <= bR t <= 350 -> fin P /\ 1 / 10 <= bR P <= 110 ->
  exists s, @dexec (ArithB64 m) New [SetX (A := ArithB64 m) x; Poke (A := ArithB64 m) PT t; Poke (A := ArithB64 m) PP P; Density (A := ArithB64 m) i; Properties (A := ArithB64 m)]
      = Some (s, [OUnit; OUnit; OUnit; ODens (A := ArithB64 m) ROk; OUnit]) /\
    gas_state (831451 / 100000) (bR t) (bR P) (bR (dread (A := ArithB64 m) PP s)) (fun k => dread (A := ArithB64 m) k s).
Proof. exact gas_state_detail. Qed.
Print Assumptions C63_detail.

(* 57/64 methane, 2/64 nitrogen, 1/64 carbon dioxide, 3/64 ethane, 1/64 propane at 288 K and 101 kPa, with the best possible libm *)
Example C63_case : accurate best /\ let r j := bR (gas5 j) in
  (forall j, (j < 21)%nat -> fin (gas5 j) /\ (r j = 0 \/ bpow radix2 (-50) <= r j)) /\ natural_gas r /\
  (fin (bofZ 288) /\ 270 <= bR (bofZ 288) <= 350) /\ (fin (bofZ 101) /\ 1 / 10 <= bR (bofZ 101) <= 110).
Proof. exact (conj best_accurate gas5_ok). Qed.
