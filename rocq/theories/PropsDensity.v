(* C13-C15: what an accepted density means, over the reals.
   dexec/gexec run a history of API calls on a new object; separated: all inputs the
   evaluations of the history see are pairwise equal or told apart by the 1e-7 comparison.
   Concrete searches that meet the hypotheses: C14_case, C15_case, C14_gerg_case, C15_gerg_case in
   PropsConv.v (methane at 300 K). *)
From Coq Require Import List ZArith Reals.
From Coquelicot Require Import Coquelicot.
From Verif Require Import Prelude FArith ArithR DetailModel GergModel Api SpecGeneric SpecHistory SpecReal NewtonReal.
Import ListNotations.
Local Open Scope R_scope.
Local Existing Instance ArithR.

(* C13, any history: the accepted density is one Newton correction below 1e-7 away from an
   evaluated density d0, at which the pressure is p and the slope q; s0 is the state before
   that last evaluation and differs from s only in the public fields d and z. *)
Theorem C13_detail_real : forall (s : @Detail ArithR) i s',
  dreach s -> dstep (Density i) s = Some (s', ODens ROk) ->
  exists d0 s0 s1 (p q w : R), dreach s0 /\ dframe [PD; PZ] s s0 /\ exp (-100) <= d0 <= exp 7 /\
    dstep Pressure (dpoke PD (d0 : @F ArithR) s0) = Some (s1, OVal p) /\ q = d_dp_dd_save s1 /\
    1 / 1000000000000000 <= q /\ 1 / 1000000000000000 <= p /\
    Rabs w < 1 / 10000000 /\ d_d s' = d0 * exp w /\ 0 < d_d s' /\
    Rabs (ln p - ln (DetailModel.d_p s)) < 1 / 10000000 * (d0 * q / p).
Proof. exact d_last_real. Qed.
Print Assumptions C13_detail_real.

(* GERG restarts the search from other densities, which are not range checked *)
Theorem C13_gerg_real : forall (s : @Gerg ArithR) i s',
  greach s -> gstep (Density i) s = Some (s', ODens ROk) ->
  exists d0 s0 s1 (p q w : R), greach s0 /\ gframe [PD; PZ] s s0 /\ 0 < d0 /\
    gstep Pressure (gpoke PD (d0 : @F ArithR) s0) = Some (s1, OVal p) /\ q = g_dpddsave s1 /\
    1 / 1000000000000000 <= q /\ 1 / 1000000000000000 <= p /\
    Rabs w < 1 / 10000000 /\ g_d s' = d0 * exp w /\ 0 < g_d s' /\
    Rabs (ln p - ln (GergModel.g_p s)) < 1 / 10000000 * (d0 * q / p).
Proof. exact g_last_real. Qed.
Print Assumptions C13_gerg_real.

(* C14: p is the pressure of a new object as a function of density, f the function whose
   zero is sought.  The correction is exactly the Newton step f/f'. *)
Theorem C14_detail : forall k l i (s : @Detail ArithR) r s',
  dexec k l = Some (s, r) -> separated 0 (dasked (l ++ [Density i])) ->
  0 < d_t s -> dstep (Density i) s = Some (s', ODens ROk) ->
  let p := dpres k (fun j => nth j (d_x s) 0) (d_t s) in
  let f v := ln (p (exp (- v))) - ln (DetailModel.d_p s) in
  exists v0 w, -7 <= v0 <= 100 /\ 1 / 1000000000000000 <= p (exp (- v0)) /\
    1 / 1000000000000000 <= Derive p (exp (- v0)) /\
    w = f v0 / Derive f v0 /\ Rabs w < 1 / 10000000 /\ d_d s' = exp (- (v0 - w)) /\
    forall M, (forall v, Rmin v0 (v0 - w) <= v <= Rmax v0 (v0 - w) ->
                 0 < p (exp (- v)) /\ Rabs (Derive_n f 2 v) <= M) ->
      Rabs (ln (p (d_d s')) - ln (DetailModel.d_p s)) <= M / 2 * (1 / 100000000000000).
Proof. exact d_accept. Qed.
Print Assumptions C14_detail.

Theorem C14_gerg : forall k l i (s : @Gerg ArithR) r s',
  gexec k l = Some (s, r) -> separated 1 (gasked (l ++ [Density i])) ->
  (exists j, (1 <= j < 22)%nat /\ 1 / 10000000 < nth j (g_x s) 0) ->
  0 < g_t s -> gstep (Density i) s = Some (s', ODens ROk) ->
  let p := gpres k (fun j => nth j (g_x s) 0) (g_t s) in
  let f v := ln (p (exp (- v))) - ln (GergModel.g_p s) in
  exists v0 w, 1 / 1000000000000000 <= p (exp (- v0)) /\
    1 / 1000000000000000 <= Derive p (exp (- v0)) /\
    w = f v0 / Derive f v0 /\ Rabs w < 1 / 10000000 /\ g_d s' = exp (- (v0 - w)) /\
    forall M, (forall v, Rmin v0 (v0 - w) <= v <= Rmax v0 (v0 - w) ->
                 0 < p (exp (- v)) /\ Rabs (Derive_n f 2 v) <= M) ->
      Rabs (ln (p (g_d s')) - ln (GergModel.g_p s)) <= M / 2 * (1 / 100000000000000).
Proof. exact g_accept. Qed.
Print Assumptions C14_gerg.

(* C15 *)
Theorem C15_detail : forall k l i (s : @Detail ArithR) r d0,
  dexec k l = Some (s, r) -> separated 0 (dasked (l ++ [Density i])) ->
  0 < d_t s -> let p := dpres k (fun j => nth j (d_x s) 0) (d_t s) in
  1 / 1000000000000000 <= d0 <= exp 7 -> d_d s = - d0 -> DetailModel.d_p s = p d0 ->
  1 / 1000000000000000 <= p d0 -> 1 / 1000000000000000 <= Derive p d0 ->
  exists s', dstep (Density i) s = Some (s', ODens ROk) /\ d_d s' = d0 /\ dframe [PD; PZ] s s'.
Proof. exact d_roundtrip. Qed.
Print Assumptions C15_detail.

Theorem C15_gerg : forall k l i (s : @Gerg ArithR) r d0,
  gexec k l = Some (s, r) -> separated 1 (gasked (l ++ [Density i])) -> (i <= 0)%Z ->
  (exists j, (1 <= j < 22)%nat /\ 1 / 10000000 < nth j (g_x s) 0) ->
  0 < g_t s -> let p := gpres k (fun j => nth j (g_x s) 0) (g_t s) in
  1 / 1000000000000000 <= d0 <= exp 7 -> g_d s = - d0 -> GergModel.g_p s = p d0 ->
  1 / 1000000000000000 <= p d0 -> 1 / 1000000000000000 <= Derive p d0 ->
  exists s', gstep (Density i) s = Some (s', ODens ROk) /\ g_d s' = d0 /\ gframe [PD; PZ] s s'.
Proof. exact g_roundtrip. Qed.
Print Assumptions C15_gerg.
