(* C18, C19: the unrestricted statements are false.  Both caches are compared with the inputs of
   the previous evaluation, not with the inputs they were computed for, so a change made in steps
   of at most 1e-7 is never noticed.  Exact arithmetic: rounding plays no part.
   line t0 t1 n i is the i-th of n equal steps from t0 to t1; heating c t0 t1 d n sets composition,
   density and temperature t0, calls pressure, then sets each temperature of the line and calls
   pressure after each. *)
From Coq Require Import List ZArith Reals.
From Verif Require Import Prelude FArith Composition ArithR DetailModel GergModel Api SpecGeneric SpecHistory SpecReal
  SpecDetail SpecGerg Drift DriftReal DriftGerg.
Import ListNotations.
Local Open Scope R_scope.
Local Existing Instance ArithR.

Theorem C18_refuted : ~ (forall k l l2 (s : @Detail ArithR) r, dexec k l = Some (s, r) ->
  exists s1 r1, dexec k (dcopy s) = Some (s1, r1) /\
  exists s2 s3 r2, drun l2 s = Some (s2, r2) /\ drun l2 s1 = Some (s3, r2) /\ dsame s2 s3).
Proof. exact d_history_false. Qed.
(* the counterexample: methane heated from 151.3183 K to four times that; the object and its
   fresh copy have the same public fields and return different pressures *)
Theorem C18_refuted_witness : exists d n s r s1 r1 s2 s3 (p q : R),
  dexec New (heating cmethane EM (4 * EM) d n) = Some (s, r) /\
  (forall i, Rabs (line EM (4 * EM) n (S i) - line EM (4 * EM) n i) <= 1 / 10000000) /\
  0 < d /\ dexec New (dcopy s) = Some (s1, r1) /\ dsame s s1 /\
  dstep Pressure s = Some (s2, OVal (A := ArithR) p) /\ dstep Pressure s1 = Some (s3, OVal (A := ArithR) q) /\ p < q.
Proof. exact d_drift_witness. Qed.
(* any accepted composition, any two temperatures: the compressibility factor stays that of t0 *)
Theorem C18_drift : forall (c : @Composition ArithR) t0 t1 d, comp_check c = ROk ->
  (exists i, (i < 21)%nat /\ 1 / 10000000 < nth i (fractions c) 0) -> 1 / 10000000 < t0 -> 1 / 10000000 < t1 ->
  exists n s r, dexec New (heating c t0 t1 d n) = Some (s, r) /\
    d_x s = fractions c /\ d_t s = t1 /\ d_d s = d /\
    exists s', dstep Pressure s = Some (s', OVal (A := ArithR)
      (d * (831451 / 100000) * t1 * Zfactor (nn (fun i => nth i (fractions c) 0)) t0 d)).
Proof. exact d_drift. Qed.

Theorem C19_refuted : ~ (forall k l l2 (s : @Gerg ArithR) r, gexec k l = Some (s, r) ->
  exists s1 r1, gexec k (gcopy s) = Some (s1, r1) /\
  exists s2 s3 r2, grun l2 s = Some (s2, r2) /\ grun l2 s1 = Some (s3, r2) /\ gsame s2 s3).
Proof. exact g_history_false. Qed.
(* methane heated from its critical temperature to four times that *)
Theorem C19_refuted_witness : exists d n s r s1 r1 s2 s3 (p q : R),
  gexec New (heating cmethane TC (4 * TC) d n) = Some (s, r) /\
  (forall i, Rabs (line TC (4 * TC) n (S i) - line TC (4 * TC) n i) <= 1 / 10000000) /\
  0 < d /\ gexec New (gcopy s) = Some (s1, r1) /\ gsame s s1 /\
  gstep Pressure s = Some (s2, OVal (A := ArithR) p) /\ gstep Pressure s1 = Some (s3, OVal (A := ArithR) q) /\ p < q.
Proof. exact g_drift_witness. Qed.
(* any pure fluid *)
Theorem C19_drift : forall (c : @Composition ArithR) t0 t1 d i, comp_check c = ROk -> (1 <= i < 22)%nat ->
  1 / 10000000 < nth i (0 :: fractions c) 0 ->
  (forall j, (1 <= j < 22)%nat -> j <> i -> nth j (0 :: fractions c) 0 <= 1 / 1000000000000000) ->
  1 / 10000000 < t0 ->
  exists n s r, gexec New (heating c t0 t1 d n) = Some (s, r) /\
    g_x s = 0 :: fractions c /\ g_t s = t1 /\ g_d s = d /\
    exists s', gstep Pressure s = Some (s', OVal (A := ArithR)
      (d * Rg * t1 * gprop New PZ (fun j => nth j (0 :: fractions c) 0) t0 d)).
Proof. exact g_drift. Qed.

Print Assumptions C18_refuted.
Print Assumptions C18_refuted_witness.
Print Assumptions C18_drift.
Print Assumptions C19_refuted.
Print Assumptions C19_refuted_witness.
Print Assumptions C19_drift.
