(* C72: natural gas up to 1.2 MPa. density() of GERG-2008 in double precision, on any platform whose exp, ln, powf and powi are
   within 2^-50 of the exact value. Specification: SpecGas (natural_gas), SpecReal (gpres, the pressure in exact arithmetic;
   C25 and C37 say which equation of state it is). *)
From Coq Require Import Reals ZArith List Lra Lia.
From Flocq Require Import Core BinarySingleNaN.
From Verif Require Import FArith Prelude ArithB64 B64Lemmas ArithR SpecDetail SpecGerg SpecStd SpecGas SpecAcc SpecAccG SpecHistory SpecGeneric DetailModel GergModel Api SpecReal SpecAll AccLibm DriftWit GasCase MedCaseG.
Import ListNotations.
Local Open Scope R_scope.

(* it succeeds, gives the pressure asked for, and finds the only solution up to 1.4 times the ideal-gas density *)
Theorem C72_gerg : forall m, accurate m -> forall (x : nat -> b64) (t P : b64) i, (i <= 0)%Z -> let r j := bR (x j) in
  (forall j, (1 <= j < 22)%nat -> fin (x j) /\ (r j = 0 \/ bpow radix2 (-49) <= r j)) -> natural_gas (fun j => r (S j)) ->
  fin t /\ 270 <= bR t <= 350 -> fin P /\ 1 / 10 <= bR P <= 1200 ->
  let T := bR t in let d0 := bR P / Rg / T in
  exists s e, @gexec (ArithB64 m) New [SetX (A := ArithB64 m) x; Poke (A := ArithB64 m) PT t; Poke (A := ArithB64 m) PP P; Density (A := ArithB64 m) i]
      = Some (s, [OUnit; OUnit; OUnit; ODens (A := ArithB64 m) ROk]) /\
    let d := gread (A := ArithB64 m) PD s in
    fin d /\ Rabs (gpres New r T (bR d) - bR P) <= 1 / 10000000 * bR P /\ Rabs (bR d - e) <= 1 / 10000000 * e /\
    9 / 10 * d0 <= e <= 5 / 4 * d0 /\ gpres New r T e = bR P /\ forall e', 0 < e' <= 7 / 5 * d0 -> gpres New r T e' = bR P -> e' = e.
Proof. exact medg_gerg. Qed.
Print Assumptions C72_gerg.

(* two platforms: the same density to 2.1e-7 *)
Theorem C72_platform : forall m n, accurate m -> accurate n -> forall (x : nat -> b64) (t P : b64) i k, (i <= 0)%Z -> (k <= 0)%Z -> let r j := bR (x j) in
  (forall j, (1 <= j < 22)%nat -> fin (x j) /\ (r j = 0 \/ bpow radix2 (-49) <= r j)) -> natural_gas (fun j => r (S j)) ->
  fin t /\ 270 <= bR t <= 350 -> fin P /\ 1 / 10 <= bR P <= 1200 ->
  exists s s', @gexec (ArithB64 m) New [SetX (A := ArithB64 m) x; Poke (A := ArithB64 m) PT t; Poke (A := ArithB64 m) PP P; Density (A := ArithB64 m) i]
      = Some (s, [OUnit; OUnit; OUnit; ODens (A := ArithB64 m) ROk]) /\
    @gexec (ArithB64 n) New [SetX (A := ArithB64 n) x; Poke (A := ArithB64 n) PT t; Poke (A := ArithB64 n) PP P; Density (A := ArithB64 n) k]
      = Some (s', [OUnit; OUnit; OUnit; ODens (A := ArithB64 n) ROk]) /\
    let d := gread (A := ArithB64 m) PD s in let d' := gread (A := ArithB64 n) PD s' in
    fin d /\ fin d' /\ Rabs (bR d - bR d') <= 21 / 100000000 * Rmin (bR d) (bR d').
Proof. exact medg_platform. Qed.
Print Assumptions C72_platform.

(* two pressures that differ by one part in a million or more: the higher one gives the higher density, and the densities differ
   by the difference of the pressures over R T, up to 8 % less and 57 % more *)
Theorem C72_monotone : forall m, accurate m -> forall (x : nat -> b64) (t P P' : b64) i k, (i <= 0)%Z -> (k <= 0)%Z -> let r j := bR (x j) in
  (forall j, (1 <= j < 22)%nat -> fin (x j) /\ (r j = 0 \/ bpow radix2 (-49) <= r j)) -> natural_gas (fun j => r (S j)) ->
  fin t /\ 270 <= bR t <= 350 -> fin P /\ 1 / 10 <= bR P -> fin P' /\ (1 + 1 / 1000000) * bR P <= bR P' <= 1200 ->
  exists s s', @gexec (ArithB64 m) New [SetX (A := ArithB64 m) x; Poke (A := ArithB64 m) PT t; Poke (A := ArithB64 m) PP P; Density (A := ArithB64 m) i]
      = Some (s, [OUnit; OUnit; OUnit; ODens (A := ArithB64 m) ROk]) /\
    @gexec (ArithB64 m) New [SetX (A := ArithB64 m) x; Poke (A := ArithB64 m) PT t; Poke (A := ArithB64 m) PP P'; Density (A := ArithB64 m) k]
      = Some (s', [OUnit; OUnit; OUnit; ODens (A := ArithB64 m) ROk]) /\
    let d := gread (A := ArithB64 m) PD s in let d' := gread (A := ArithB64 m) PD s' in
    bR d < bR d' /\ 92 / 100 * (bR P' - bR P) - 1 / 1000000 * bR P' <= Rg * bR t * (bR d' - bR d) <= 157 / 100 * (bR P' - bR P) + 1 / 1000000 * bR P'.
Proof. exact medg_mono. Qed.
Print Assumptions C72_monotone.

(* a gas of five components at 288 K, 1.1 MPa and 1.15 MPa meets the hypotheses *)
Example C72_case : let r j := bR (match j with O => B0 | S k => gas5 k end) in
  (forall j, (1 <= j < 22)%nat -> fin (match j with O => B0 | S k => gas5 k end) /\ (r j = 0 \/ bpow radix2 (-49) <= r j)) /\ natural_gas (fun j => r (S j)) /\
  (fin (bofZ 288) /\ 270 <= bR (bofZ 288) <= 350) /\ (fin (bofZ 1100) /\ 1 / 10 <= bR (bofZ 1100) <= 1200) /\ (1 + 1 / 1000000) * bR (bofZ 1100) <= bR (bofZ 1150) <= 1200.
Proof. exact medg_ok. Qed.
