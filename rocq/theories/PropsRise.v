(* C78: pressure() at line pressure in IEEE double precision, for every natural gas, 270 K to 350 K, and every density from 0.0001 mol/l to 0.55 mol/l
   (DETAIL) or 0.40 mol/l (GERG-2008).  Of two states of one gas, the one above the other (SpecRise: hotter by a microkelvin or denser by one part in
   10^8, and neither cooler nor thinner) gets the larger number; and two platforms, each with its own accurate libm, get the same number to one part
   in 10^9.  Specification: SpecRise (state_above, same_pressure), SpecRound (gauge), SpecSession (gas_comp). *)
From Coq Require Import Reals ZArith List Lra Lia.
From Flocq Require Import Core BinarySingleNaN.
From Verif Require Import FArith Prelude Composition ArithB64 B64Lemmas SpecB64 SpecGas SpecAcc SpecSession SpecRound SpecRise DetailModel GergModel Api AccLibm AccDensProof RisePress.
From Verif Require PropsLogger PropsRound.
Import ListNotations.
Local Open Scope R_scope.

Theorem C78_detail : forall m, accurate m -> forall (c : @Composition (ArithB64 m)), gas_comp m c -> forall (t1 d1 t2 d2 : b64), fin t1 /\ 270 <= bR t1 <= 350 -> fin t2 /\ 270 <= bR t2 <= 350 ->
  fin d1 /\ 1 / 10000 <= bR d1 <= 55 / 100 -> fin d2 /\ 1 / 10000 <= bR d2 <= 55 / 100 -> exists s1 v1 s2 v2,
  @dexec (ArithB64 m) Api.New (gauge (A := ArithB64 m) c t1 d1) = Some (s1, gauged (A := ArithB64 m) v1) /\
  @dexec (ArithB64 m) Api.New (gauge (A := ArithB64 m) c t2 d2) = Some (s2, gauged (A := ArithB64 m) v2) /\ fin v1 /\ fin v2 /\
  (state_above (bR t1) (bR d1) (bR t2) (bR d2) -> bR v1 < bR v2).
Proof. exact rise_detail. Qed.
Print Assumptions C78_detail.
Theorem C78_gerg : forall m, accurate m -> forall (c : @Composition (ArithB64 m)), gas_comp m c -> forall (t1 d1 t2 d2 : b64), fin t1 /\ 270 <= bR t1 <= 350 -> fin t2 /\ 270 <= bR t2 <= 350 ->
  fin d1 /\ 1 / 10000 <= bR d1 <= 40 / 100 -> fin d2 /\ 1 / 10000 <= bR d2 <= 40 / 100 -> exists s1 v1 s2 v2,
  @gexec (ArithB64 m) Api.New (gauge (A := ArithB64 m) c t1 d1) = Some (s1, gauged (A := ArithB64 m) v1) /\
  @gexec (ArithB64 m) Api.New (gauge (A := ArithB64 m) c t2 d2) = Some (s2, gauged (A := ArithB64 m) v2) /\ fin v1 /\ fin v2 /\
  (state_above (bR t1) (bR d1) (bR t2) (bR d2) -> bR v1 < bR v2).
Proof. exact rise_gerg. Qed.
Print Assumptions C78_gerg.

Theorem C78_platform_detail : forall m n, accurate m -> accurate n -> forall (c : @Composition (ArithB64 m)) (e : @Composition (ArithB64 n)), gas_comp m c -> bfractions m c = bfractions n e ->
  forall (t d : b64), fin t /\ 270 <= bR t <= 350 -> fin d /\ 1 / 10000 <= bR d <= 55 / 100 -> exists s v s' w,
  @dexec (ArithB64 m) Api.New (gauge (A := ArithB64 m) c t d) = Some (s, gauged (A := ArithB64 m) v) /\
  @dexec (ArithB64 n) Api.New (gauge (A := ArithB64 n) e t d) = Some (s', gauged (A := ArithB64 n) w) /\ fin v /\ fin w /\ same_pressure (bR v) (bR w).
Proof. exact agree_detail. Qed.
Print Assumptions C78_platform_detail.
Theorem C78_platform_gerg : forall m n, accurate m -> accurate n -> forall (c : @Composition (ArithB64 m)) (e : @Composition (ArithB64 n)), gas_comp m c -> bfractions m c = bfractions n e ->
  forall (t d : b64), fin t /\ 270 <= bR t <= 350 -> fin d /\ 1 / 10000 <= bR d <= 40 / 100 -> exists s v s' w,
  @gexec (ArithB64 m) Api.New (gauge (A := ArithB64 m) c t d) = Some (s, gauged (A := ArithB64 m) v) /\
  @gexec (ArithB64 n) Api.New (gauge (A := ArithB64 n) e t d) = Some (s', gauged (A := ArithB64 n) w) /\ fin v /\ fin w /\ same_pressure (bR v) (bR w).
Proof. exact agree_gerg. Qed.
Print Assumptions C78_platform_gerg.

(* the mixture and the density of C77_case at 288 K and at 289 K *)
Example C78_case : accurate best /\ gas_comp best (PropsLogger.mix best 57 3) /\ (fin (bofZ 288) /\ 270 <= bR (bofZ 288) <= 350) /\ (fin (bofZ 289) /\ 270 <= bR (bofZ 289) <= 350) /\
  (fin PropsRound.dens /\ 1 / 10000 <= bR PropsRound.dens <= 40 / 100) /\ state_above (bR (bofZ 288)) (bR PropsRound.dens) (bR (bofZ 289)) (bR PropsRound.dens).
Proof.
  destruct PropsRound.C77_case as (A & G & T & D). split; [exact A|]. split; [exact G|]. split; [exact T|]. unfold state_above. rewrite !ofZ_R by reflexivity.
  split; [split; [reflexivity|lra]|]. split; [exact D|]. lra.
Qed.
