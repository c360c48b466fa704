(* C80: pressure() at line pressure in IEEE double precision, compared to the ideal gas, for every natural gas, 270 K to 350 K, and every density from
   0.0001 mol/l to 0.55 mol/l (DETAIL) or 0.40 mol/l (GERG-2008).  The number is 0.90 to 1.03 (0.86 to 1.03) times the pressure of the ideal gas, and
   from one state to a hotter or denser one it rises by 0.80 to 1.26 (0.73 to 1.37) times the rise for the ideal gas, with a rounding noise of 6e-10
   of the pressure.  Specification: SpecProp (near_ideal, rises_like_ideal), SpecRound (gauge), SpecSession (gas_comp). *)
From Coq Require Import Reals ZArith List Lra Lia.
From Flocq Require Import Core BinarySingleNaN.
From Verif Require Import FArith Prelude Composition ArithB64 B64Lemmas SpecB64 SpecGas SpecAcc SpecSession SpecStd SpecGerg SpecRound SpecProp DetailModel GergModel Api AccLibm AccDensProof PropPress.
From Verif Require PropsLogger PropsRound.
Import ListNotations.
Local Open Scope R_scope.

Theorem C80_ideal_detail : forall m, accurate m -> forall (c : @Composition (ArithB64 m)), gas_comp m c -> forall (t d : b64), fin t /\ 270 <= bR t <= 350 -> fin d /\ 1 / 10000 <= bR d <= 55 / 100 ->
  exists s v, @dexec (ArithB64 m) Api.New (gauge (A := ArithB64 m) c t d) = Some (s, gauged (A := ArithB64 m) v) /\ fin v /\
    near_ideal (90 / 100) (103 / 100) (831451 / 100000) (bR t) (bR d) (bR v).
Proof. exact ideal_detail. Qed.
Print Assumptions C80_ideal_detail.
Theorem C80_ideal_gerg : forall m, accurate m -> forall (c : @Composition (ArithB64 m)), gas_comp m c -> forall (t d : b64), fin t /\ 270 <= bR t <= 350 -> fin d /\ 1 / 10000 <= bR d <= 40 / 100 ->
  exists s v, @gexec (ArithB64 m) Api.New (gauge (A := ArithB64 m) c t d) = Some (s, gauged (A := ArithB64 m) v) /\ fin v /\
    near_ideal (86 / 100) (103 / 100) Rg (bR t) (bR d) (bR v).
Proof. exact ideal_gerg. Qed.
Print Assumptions C80_ideal_gerg.
Theorem C80_rise_detail : forall m, accurate m -> forall (c : @Composition (ArithB64 m)), gas_comp m c -> forall (t1 d1 t2 d2 : b64), fin t1 /\ 270 <= bR t1 <= 350 -> fin t2 /\ 270 <= bR t2 <= 350 ->
  fin d1 /\ 1 / 10000 <= bR d1 <= 55 / 100 -> fin d2 /\ 1 / 10000 <= bR d2 <= 55 / 100 -> exists s1 v1 s2 v2,
  @dexec (ArithB64 m) Api.New (gauge (A := ArithB64 m) c t1 d1) = Some (s1, gauged (A := ArithB64 m) v1) /\
  @dexec (ArithB64 m) Api.New (gauge (A := ArithB64 m) c t2 d2) = Some (s2, gauged (A := ArithB64 m) v2) /\ fin v1 /\ fin v2 /\
  rises_like_ideal (80 / 100) (126 / 100) (831451 / 100000) (bR t1) (bR d1) (bR t2) (bR d2) (bR v1) (bR v2).
Proof. exact rises_detail. Qed.
Print Assumptions C80_rise_detail.
Theorem C80_rise_gerg : forall m, accurate m -> forall (c : @Composition (ArithB64 m)), gas_comp m c -> forall (t1 d1 t2 d2 : b64), fin t1 /\ 270 <= bR t1 <= 350 -> fin t2 /\ 270 <= bR t2 <= 350 ->
  fin d1 /\ 1 / 10000 <= bR d1 <= 40 / 100 -> fin d2 /\ 1 / 10000 <= bR d2 <= 40 / 100 -> exists s1 v1 s2 v2,
  @gexec (ArithB64 m) Api.New (gauge (A := ArithB64 m) c t1 d1) = Some (s1, gauged (A := ArithB64 m) v1) /\
  @gexec (ArithB64 m) Api.New (gauge (A := ArithB64 m) c t2 d2) = Some (s2, gauged (A := ArithB64 m) v2) /\ fin v1 /\ fin v2 /\
  rises_like_ideal (73 / 100) (137 / 100) Rg (bR t1) (bR d1) (bR t2) (bR d2) (bR v1) (bR v2).
Proof. exact rises_gerg. Qed.
Print Assumptions C80_rise_gerg.

(* the mixture and the density of C77_case at 288 K and at 289 K *)
Example C80_case : accurate best /\ gas_comp best (PropsLogger.mix best 57 3) /\ (fin (bofZ 288) /\ 270 <= bR (bofZ 288) <= 350) /\ (fin (bofZ 289) /\ 270 <= bR (bofZ 289) <= 350) /\
  (fin PropsRound.dens /\ 1 / 10000 <= bR PropsRound.dens <= 40 / 100) /\ bR (bofZ 288) <= bR (bofZ 289).
Proof.
  destruct PropsRound.C77_case as (A & G & T & D). split; [exact A|]. split; [exact G|]. split; [exact T|]. rewrite !ofZ_R by reflexivity.
  split; [split; [reflexivity|lra]|]. split; [exact D|]. lra.
Qed.
