(* C18, C19 in double precision: the refutations do not depend on exact arithmetic.  Specifications: SpecAcc (accurate), SpecStd
   and SpecAcc (the equation and the size of its terms), SpecHistory (dcopy, dsame).  warm i is the double 256 + i 2^-24,
   ch4 is pure methane, d10 is 10, ramp o n performs o 1, pressure, ..., o n, pressure. *)
From Coq Require Import Reals ZArith List.
From Coquelicot Require Import Coquelicot.
From Flocq Require Import Core BinarySingleNaN.
From Verif Require Import FArith ArithB64 B64Lemmas SpecStd SpecAcc SpecAccG SpecGeneric SpecHistory SpecReal SpecGerg DetailModel GergModel Api Drift B64Err AccLibm DriftDouble DriftWit GDriftDouble GDriftWit.
Import ListNotations.
Local Open Scope R_scope.

Theorem C18_double_refuted : forall m, accurate m -> let B := ArithB64 m in
  ~ (forall k l l2 (s : @Detail B) r, @dexec B k l = Some (s, r) ->
  exists s1 r1, @dexec B k (@dcopy B s) = Some (s1, r1) /\
  exists s2 s3 r2, @drun B l2 s = Some (s2, r2) /\ @drun B l2 s1 = Some (s3, r2) /\ @dsame B s2 s3).
Proof. exact history_double_false. Qed.
(* methane at 10 mol/l warmed from 256 K to 512 K: the object and its fresh copy have the same public fields, and pressure()
   of the object is less than three quarters of that of the copy *)
Theorem C18_double_refuted_witness : forall m, accurate m -> let B := ArithB64 m in exists n s rr s' v s1 r1 s2 w,
  @dexec B New ([SetX (A := B) ch4; Poke (A := B) PT (warm 0); Poke (A := B) PD d10; Pressure] ++ @ramp B (fun i => Poke (A := B) PT (warm i)) n) = Some (s, rr) /\
  (forall i, (i < n)%nat -> fin (warm i) /\ fin (warm (S i)) /\ bR (warm (S i)) - bR (warm i) = bpow radix2 (-24)) /\ bR (warm 0) = 256 /\ bR (warm n) = 512 /\
  @dexec B New (@dcopy B s) = Some (s1, r1) /\ @dsame B s s1 /\
  @dstep B Pressure s = Some (s', OVal (A := B) v) /\ @dstep B Pressure s1 = Some (s2, OVal (A := B) w) /\ fin v /\ fin w /\ 0 < bR v < 3 / 4 * bR w.
Proof. exact witness. Qed.
(* any composition, any temperatures f 0, ..., f n at most 1e-7 apart: the answer is the pressure with the compressibility
   factor of the first temperature, the fresh copy answers with that of the last *)
Theorem C18_double_drift : forall m, accurate m -> let B := ArithB64 m in forall (x : nat -> b64) (d : b64) (f : nat -> b64) n, let r i := bR (x i) in
  (forall i, (i < 21)%nat -> fin (x i) /\ (r i = 0 \/ bpow radix2 (-50) <= r i)) -> 99 / 100 <= tot 21 r <= 101 / 100 ->
  (forall i, (i <= n)%nat -> fin (f i) /\ 32 <= bR (f i) <= 2048) ->
  (forall i, (i < n)%nat -> Rabs (bR (f (S i)) - bR (f i)) <= 1 / 10000000) ->
  fin d /\ (bR d = 0 \/ bpow radix2 (-20) <= bR d) -> detail_D r (bR d) <= 3 ->
  exists s rr s' v s1 r1 s2 w,
  @dexec B New ([SetX (A := B) x; Poke (A := B) PT (f 0%nat); Poke (A := B) PD d; Pressure] ++ @ramp B (fun i => Poke (A := B) PT (f i)) n) = Some (s, rr) /\
  @dstep B Pressure s = Some (s', OVal (A := B) v) /\ fin v /\
  Rabs (bR v - bR d * (831451 / 100000) * bR (f n) * detail_Z r (bR (f 0%nat)) (bR d))
    <= 3 / 20000000000 * (bR d * (831451 / 100000) * bR (f n) * detail_size r (bR (f 0%nat)) (bR d)) /\
  @dexec B New (@dcopy B s) = Some (s1, r1) /\ @dsame B s s1 /\ @dstep B Pressure s1 = Some (s2, OVal (A := B) w) /\ fin w /\
  Rabs (bR w - detail_p r (bR (f n)) (bR d)) <= 3 / 20000000000 * (bR d * (831451 / 100000) * bR (f n) * detail_size r (bR (f n)) (bR d)).
Proof. exact drift_double. Qed.
(* there is such a libm (C49_libm); methane meets the hypotheses *)
Example C18_double_libm : accurate best.
Proof. exact best_accurate. Qed.
Example C18_double_case : let r i := bR (ch4 i) in
  (forall i, (i < 21)%nat -> fin (ch4 i) /\ (r i = 0 \/ bpow radix2 (-50) <= r i)) /\ 99 / 100 <= tot 21 r <= 101 / 100 /\
  (fin d10 /\ (bR d10 = 0 \/ bpow radix2 (-20) <= bR d10)) /\ detail_D r (bR d10) <= 3.
Proof. exact ch4_hyp. Qed.

Theorem C19_double_refuted : forall m, accurate m -> let B := ArithB64 m in
  ~ (forall k l l2 (s : @Gerg B) r, @gexec B k l = Some (s, r) ->
  exists s1 r1, @gexec B k (@gcopy B s) = Some (s1, r1) /\
  exists s2 s3 r2, @grun B l2 s = Some (s2, r2) /\ @grun B l2 s1 = Some (s3, r2) /\ @gsame B s2 s3).
Proof. exact ghistory_double_false. Qed.
(* methane at 10 mol/l warmed from 256 K to 512 K, as above *)
Theorem C19_double_refuted_witness : forall m, accurate m -> let B := ArithB64 m in exists n s rr s' v s1 r1 s2 w,
  @gexec B New ([SetX (A := B) ch4g; Poke (A := B) PT (warm 0); Poke (A := B) PD d10; Pressure] ++ @ramp B (fun i => Poke (A := B) PT (warm i)) n) = Some (s, rr) /\
  (forall i, (i < n)%nat -> fin (warm i) /\ fin (warm (S i)) /\ bR (warm (S i)) - bR (warm i) = bpow radix2 (-24)) /\ bR (warm 0) = 256 /\ bR (warm n) = 512 /\
  @gexec B New (@gcopy B s) = Some (s1, r1) /\ @gsame B s s1 /\
  @gstep B Pressure s = Some (s', OVal (A := B) v) /\ @gstep B Pressure s1 = Some (s2, OVal (A := B) w) /\ fin v /\ fin w /\ 0 < bR v < 3 / 4 * bR w.
Proof. exact gwitness. Qed.
(* any single component, any temperatures f 0, ..., f n at most 1e-7 apart; gv, gt, bt as in C51_gerg *)
Theorem C19_double_drift : exists gv gt bt : nat -> nat -> R,
  (forall i j, (1 <= i <= j)%nat -> (j < 22)%nat ->
    near (gv i j) (v_red i j) /\ near (gt i j) (t_red i j) /\ near (bt i j) (b_red i j)) /\
  forall m, accurate m -> let B := ArithB64 m in forall (x : nat -> b64) (d : b64) (f : nat -> b64) n i, let r i := bR (x i) in
  (forall i, (1 <= i < 22)%nat -> fin (x i) /\ (r i = 0 \/ bpow radix2 (-49) <= r i)) -> 99 / 100 <= tot 21 (fun i => r (S i)) <= 101 / 100 ->
  (forall j, (1 <= j < 22)%nat -> j <> i -> r j = 0) ->
  (forall i, (i <= n)%nat -> fin (f i) /\ 32 <= bR (f i) <= 2048) ->
  (forall i, (i < n)%nat -> Rabs (bR (f (S i)) - bR (f i)) <= 1 / 10000000) ->
  fin d /\ (bR d = 0 \/ bpow radix2 (-20) <= bR d) -> bR d * red_volume r v_red <= 249 / 100 ->
  let delta := bR d * red_volume r gv in let tau i := red_temp r gt bt / bR (f i) in
  exists a0 a1 s rr s' v s1 r1 s2 w,
  is_derive (fun delta => residual r delta (tau 0%nat)) delta a0 /\ is_derive (fun delta => residual r delta (tau n)) delta a1 /\
  @gexec B New ([SetX (A := B) x; Poke (A := B) PT (f 0%nat); Poke (A := B) PD d; Pressure] ++ @ramp B (fun i => Poke (A := B) PT (f i)) n) = Some (s, rr) /\
  @gstep B Pressure s = Some (s', OVal (A := B) v) /\ fin v /\
  Rabs (bR v - bR d * Rg * bR (f n) * (1 + delta * a0)) <= 1 / 10000000000 * (bR d * Rg * bR (f n) * gerg_size r delta (tau 0%nat)) /\
  @gexec B New (@gcopy B s) = Some (s1, r1) /\ @gsame B s s1 /\ @gstep B Pressure s1 = Some (s2, OVal (A := B) w) /\ fin w /\
  Rabs (bR w - bR d * Rg * bR (f n) * (1 + delta * a1)) <= 1 / 10000000000 * (bR d * Rg * bR (f n) * gerg_size r delta (tau n)).
Proof. exact gdrift_std. Qed.
Example C19_double_case : let r i := bR (ch4g i) in
  (forall i, (1 <= i < 22)%nat -> fin (ch4g i) /\ (r i = 0 \/ bpow radix2 (-49) <= r i)) /\ 99 / 100 <= tot 21 (fun i => r (S i)) <= 101 / 100 /\
  (forall j, (1 <= j < 22)%nat -> j <> 1%nat -> r j = 0) /\
  (fin d10 /\ (bR d10 = 0 \/ bpow radix2 (-20) <= bR d10)) /\ bR d10 * red_volume r v_red <= 249 / 100.
Proof. exact ch4g_hyp'. Qed.

Print Assumptions C18_double_refuted.
Print Assumptions C18_double_refuted_witness.
Print Assumptions C18_double_drift.
Print Assumptions C19_double_refuted.
Print Assumptions C19_double_refuted_witness.
Print Assumptions C19_double_drift.
