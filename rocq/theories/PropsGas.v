(* C61 and C62: density() for a natural gas near base conditions, in IEEE double precision.  Specifications: SpecGas (what a natural gas is), the printed
   equations of state (SpecStd), gpres (C25, C37). *)
From Coq Require Import Reals ZArith List Lra Lia.
From Coquelicot Require Import Coquelicot.
From Flocq Require Import Core BinarySingleNaN.
From Verif Require Import FArith Prelude ArithB64 B64Lemmas ArithR GergModel SpecDetail StdDetail SpecStd SpecGas SpecAcc SpecSlope SpecConv SpecHistory SpecGeneric DetailModel Api SpecReal SpecAccG SpecAll SpecSlopeG SpecGerg AccLibm
  ConvFinLow GConvLow FixUp GasThird GasRed2 GasGerg GasCase.
Import ListNotations.
Local Open Scope R_scope.
Local Notation RR := (831451 / 100000).

(* C61: for every natural gas between 270 K and 350 K and pressure from 0.1 to 110 kPa, density() on a new object returns Ok.  The density found satisfies the
   printed DETAIL equation to 1e-7; it is within 1e-7 of the only exact solution e up to twice the ideal-gas density d0; e is near d0. *)
Theorem C61_detail : forall m, accurate m -> forall (x : nat -> b64) (t P : b64) i, let r j := bR (x j) in
  (forall j, (j < 21)%nat -> fin (x j) /\ (r j = 0 \/ bpow radix2 (-50) <= r j)) -> natural_gas r ->
  fin t /\ 270 <= bR t <= 350 -> fin P /\ 1 / 10 <= bR P <= 110 ->
  let T := bR t in let d0 := bR P / RR / T in
  exists s e, @dexec (ArithB64 m) New [SetX (A := ArithB64 m) x; Poke (A := ArithB64 m) PT t; Poke (A := ArithB64 m) PP P; Density (A := ArithB64 m) i]
      = Some (s, [OUnit; OUnit; OUnit; ODens (A := ArithB64 m) ROk]) /\
    let d := dread (A := ArithB64 m) PD s in
    fin d /\ Rabs (detail_p r T (bR d) - bR P) <= 1 / 10000000 * bR P /\ Rabs (bR d - e) <= 1 / 10000000 * e /\
    7 / 8 * d0 <= e <= 7 / 6 * d0 /\ detail_p r T e = bR P /\ forall e', 0 < e' <= 2 * d0 -> detail_p r T e' = bR P -> e' = e.
Proof. exact gas_detail. Qed.
Print Assumptions C61_detail.

(* C62: the same for GERG-2008 *)
Theorem C62_gerg : forall m, accurate m -> forall (x : nat -> b64) (t P : b64) i, (i <= 0)%Z -> let r j := bR (x j) in
  (forall j, (1 <= j < 22)%nat -> fin (x j) /\ (r j = 0 \/ bpow radix2 (-49) <= r j)) -> natural_gas (fun j => r (S j)) ->
  fin t /\ 270 <= bR t <= 350 -> fin P /\ 1 / 10 <= bR P <= 110 ->
  let T := bR t in let d0 := bR P / Rg / T in
  exists s e, @gexec (ArithB64 m) New [SetX (A := ArithB64 m) x; Poke (A := ArithB64 m) PT t; Poke (A := ArithB64 m) PP P; Density (A := ArithB64 m) i]
      = Some (s, [OUnit; OUnit; OUnit; ODens (A := ArithB64 m) ROk]) /\
    let d := gread (A := ArithB64 m) PD s in
    fin d /\ Rabs (gpres New r T (bR d) - bR P) <= 1 / 10000000 * bR P /\ Rabs (bR d - e) <= 1 / 10000000 * e /\
    7 / 8 * d0 <= e <= 7 / 6 * d0 /\ gpres New r T e = bR P /\ forall e', 0 < e' <= 2 * d0 -> gpres New r T e' = bR P -> e' = e.
Proof. exact gas_gerg. Qed.
Print Assumptions C62_gerg.

(* 57/64 methane, 2/64 nitrogen, 1/64 carbon dioxide, 3/64 ethane, 1/64 propane at 288 K and 101 kPa *)
Example C61_case : let r j := bR (gas5 j) in
  (forall j, (j < 21)%nat -> fin (gas5 j) /\ (r j = 0 \/ bpow radix2 (-50) <= r j)) /\ natural_gas r /\
  (fin (bofZ 288) /\ 270 <= bR (bofZ 288) <= 350) /\ (fin (bofZ 101) /\ 1 / 10 <= bR (bofZ 101) <= 110).
Proof. exact gas5_ok. Qed.
Example C62_case : let r j := bR (match j with O => B0 | S k => gas5 k end) in
  (forall j, (1 <= j < 22)%nat -> fin (match j with O => B0 | S k => gas5 k end) /\ (r j = 0 \/ bpow radix2 (-49) <= r j)) /\ natural_gas (fun j => r (S j)) /\
  (fin (bofZ 288) /\ 270 <= bR (bofZ 288) <= 350) /\ (fin (bofZ 101) /\ 1 / 10 <= bR (bofZ 101) <= 110).
Proof. exact gas5g_ok. Qed.
