(* C71: natural gas up to 1.75 MPa. density() of DETAIL in double precision, on any platform whose exp, ln, powf and powi are
   within 2^-50 of the exact value. Specification: SpecGas (natural_gas), SpecStd (detail_p, the printed equation of state). *)
From Coq Require Import Reals ZArith List Lra Lia.
From Flocq Require Import Core BinarySingleNaN.
From Verif Require Import FArith Prelude ArithB64 B64Lemmas ArithR SpecDetail StdDetail SpecStd SpecGas SpecAcc SpecHistory SpecGeneric DetailModel Api SpecReal AccLibm DriftWit GasCase MedCase.
Import ListNotations.
Local Open Scope R_scope.
Local Notation RR := (831451 / 100000).

(* it succeeds, gives the pressure asked for, and finds the only solution up to 1.4 times the ideal-gas density *)
Theorem C71_detail : forall m, accurate m -> forall (x : nat -> b64) (t P : b64) i, let r j := bR (x j) in
  (forall j, (j < 21)%nat -> fin (x j) /\ (r j = 0 \/ bpow radix2 (-50) <= r j)) -> natural_gas r ->
  fin t /\ 270 <= bR t <= 350 -> fin P /\ 1 / 10 <= bR P <= 1750 ->
  let T := bR t in let d0 := bR P / RR / T in
  exists s e, @dexec (ArithB64 m) New [SetX (A := ArithB64 m) x; Poke (A := ArithB64 m) PT t; Poke (A := ArithB64 m) PP P; Density (A := ArithB64 m) i]
      = Some (s, [OUnit; OUnit; OUnit; ODens (A := ArithB64 m) ROk]) /\
    let d := dread (A := ArithB64 m) PD s in
    fin d /\ Rabs (detail_p r T (bR d) - bR P) <= 1 / 10000000 * bR P /\ Rabs (bR d - e) <= 1 / 10000000 * e /\
    9 / 10 * d0 <= e <= 5 / 4 * d0 /\ detail_p r T e = bR P /\ forall e', 0 < e' <= 7 / 5 * d0 -> detail_p r T e' = bR P -> e' = e.
Proof. exact med_detail. Qed.
Print Assumptions C71_detail.

(* two platforms: the same density to 2.1e-7 *)
Theorem C71_platform : forall m n, accurate m -> accurate n -> forall (x : nat -> b64) (t P : b64) i k, let r j := bR (x j) in
  (forall j, (j < 21)%nat -> fin (x j) /\ (r j = 0 \/ bpow radix2 (-50) <= r j)) -> natural_gas r ->
  fin t /\ 270 <= bR t <= 350 -> fin P /\ 1 / 10 <= bR P <= 1750 ->
  exists s s', @dexec (ArithB64 m) New [SetX (A := ArithB64 m) x; Poke (A := ArithB64 m) PT t; Poke (A := ArithB64 m) PP P; Density (A := ArithB64 m) i]
      = Some (s, [OUnit; OUnit; OUnit; ODens (A := ArithB64 m) ROk]) /\
    @dexec (ArithB64 n) New [SetX (A := ArithB64 n) x; Poke (A := ArithB64 n) PT t; Poke (A := ArithB64 n) PP P; Density (A := ArithB64 n) k]
      = Some (s', [OUnit; OUnit; OUnit; ODens (A := ArithB64 n) ROk]) /\
    let d := dread (A := ArithB64 m) PD s in let d' := dread (A := ArithB64 n) PD s' in
    fin d /\ fin d' /\ Rabs (bR d - bR d') <= 21 / 100000000 * Rmin (bR d) (bR d').
Proof. exact med_platform. Qed.
Print Assumptions C71_platform.

(* two pressures that differ by one part in a million or more: the higher one gives the higher density, and the densities differ
   by the difference of the pressures over R T, up to 11 % less and 59 % more *)
Theorem C71_monotone : forall m, accurate m -> forall (x : nat -> b64) (t P P' : b64) i k, let r j := bR (x j) in
  (forall j, (j < 21)%nat -> fin (x j) /\ (r j = 0 \/ bpow radix2 (-50) <= r j)) -> natural_gas r ->
  fin t /\ 270 <= bR t <= 350 -> fin P /\ 1 / 10 <= bR P -> fin P' /\ (1 + 1 / 1000000) * bR P <= bR P' <= 1750 ->
  exists s s', @dexec (ArithB64 m) New [SetX (A := ArithB64 m) x; Poke (A := ArithB64 m) PT t; Poke (A := ArithB64 m) PP P; Density (A := ArithB64 m) i]
      = Some (s, [OUnit; OUnit; OUnit; ODens (A := ArithB64 m) ROk]) /\
    @dexec (ArithB64 m) New [SetX (A := ArithB64 m) x; Poke (A := ArithB64 m) PT t; Poke (A := ArithB64 m) PP P'; Density (A := ArithB64 m) k]
      = Some (s', [OUnit; OUnit; OUnit; ODens (A := ArithB64 m) ROk]) /\
    let d := dread (A := ArithB64 m) PD s in let d' := dread (A := ArithB64 m) PD s' in
    bR d < bR d' /\ 89 / 100 * (bR P' - bR P) - 1 / 1000000 * bR P' <= RR * bR t * (bR d' - bR d) <= 159 / 100 * (bR P' - bR P) + 1 / 1000000 * bR P'.
Proof. exact med_mono. Qed.
Print Assumptions C71_monotone.

(* a gas of five components at 288 K and 1.7 MPa meets the hypotheses *)
Example C71_case : let r j := bR (gas5 j) in
  (forall j, (j < 21)%nat -> fin (gas5 j) /\ (r j = 0 \/ bpow radix2 (-50) <= r j)) /\ natural_gas r /\
  (fin (bofZ 288) /\ 270 <= bR (bofZ 288) <= 350) /\ (fin (bofZ 1700) /\ 1 / 10 <= bR (bofZ 1700) <= 1750).
Proof. exact med_ok. Qed.
Example C71_pressures : (fin (bofZ 1600) /\ 1 / 10 <= bR (bofZ 1600)) /\ fin (bofZ 1700) /\ (1 + 1 / 1000000) * bR (bofZ 1600) <= bR (bofZ 1700) <= 1750.
Proof. exact med_ok2. Qed.
