(* C64: the whole computation for a natural gas near base conditions with GERG-2008, in IEEE double precision: set the composition, temperature and pressure of
   a new object, call density() and properties(), read the fields and the pressure that properties() returns.  Specification: SpecGasState (gas_state). *)
From Coq Require Import Reals ZArith List Lra Lia.
From Flocq Require Import Core BinarySingleNaN.
From Verif Require Import FArith Prelude ArithB64 B64Lemmas ArithR SpecGerg SpecStd SpecGas SpecAcc SpecGasState GergModel Api AccLibm GasCase GasPropsG.
Import ListNotations.
Local Open Scope R_scope.

Theorem C64_gerg : forall m, accurate m -> forall (x : nat -> b64) (t P : b64) i, (i <= 0)%Z -> let r j := bR (x j) in
  (forall j, (1 <= j < 22)%nat -> fin (x j) /\ (r j = 0 \/ bpow radix2 (-49) <= r j)) -> natural_gas (fun j => r (S j)) ->
  fin t /\ 270 <= bR t <= 350 -> fin P /\ 1 / 10 <= bR P <= 110 ->
  exists s v, @gexec (ArithB64 m) New [SetX (A := ArithB64 m) x; Poke (A := ArithB64 m) PT t; Poke (A := ArithB64 m) PP P; Density (A := ArithB64 m) i; Properties (A := ArithB64 m)]
      = Some (s, [OUnit; OUnit; OUnit; ODens (A := ArithB64 m) ROk; OVal (A := ArithB64 m) v]) /\ fin v /\
    gas_state Rg (bR t) (bR P) (bR v) (fun k => gread (A := ArithB64 m) k s).
Proof. exact gas_state_gerg. Qed.
Print Assumptions C64_gerg.

(* 57/64 methane, 2/64 nitrogen, 1/64 carbon dioxide, 3/64 ethane, 1/64 propane at 288 K and 101 kPa, with the best possible libm *)
Example C64_case : accurate best /\ let r j := bR (match j with O => B0 | S k => gas5 k end) in
  (forall j, (1 <= j < 22)%nat -> fin (match j with O => B0 | S k => gas5 k end) /\ (r j = 0 \/ bpow radix2 (-49) <= r j)) /\ natural_gas (fun j => r (S j)) /\
  (fin (bofZ 288) /\ 270 <= bR (bofZ 288) <= 350) /\ (fin (bofZ 101) /\ 1 / 10 <= bR (bofZ 101) <= 110).
Proof. exact (conj best_accurate gas5g_ok). Qed.
