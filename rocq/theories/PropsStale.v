(* C20: how far the cached composition terms can be from the current composition.
   blending a b t d n sets composition a, density d, temperature t, calls pressure, then sets each of
   the n compositions of the straight line from a to b and calls pressure after each. *)
From Coq Require Import List ZArith Reals Lra Lia.
From Verif Require Import Prelude FArith Composition ArithR DetailModel GergModel DetailPure Api SpecGeneric SpecHistory SpecReal
  SpecDetail SpecGerg Drift DriftReal DriftGerg Stale StaleMix StaleGerg StaleGBound StaleDBound BasicProofs.
Import ListNotations.
Local Open Scope R_scope.
Local Existing Instance ArithR.

(* the cached K^3 (DETAIL) or reducing temperature (GERG) need not be that of any composition within
   1e-7 of the current one *)
Theorem C20_detail_refuted : ~ (forall l (s s' : @Detail ArithR) r o, dexec New l = Some (s, r) ->
  dstep Pressure s = Some (s', o) ->
  exists (y : nat -> R) s1 r1, (forall i, (i < 21)%nat -> Rabs (y i - nth i (d_x s') 0) <= 1 / 10000000) /\
    dexec New [SetX (A := ArithR) y; Pressure] = Some (s1, r1) /\ d_k3 s' = d_k3 s1).
Proof. exact d_bound_false. Qed.
Theorem C20_gerg_refuted : ~ (forall l (s s' : @Gerg ArithR) r o, gexec New l = Some (s, r) ->
  gstep Pressure s = Some (s', o) ->
  exists (y : nat -> R) s1 r1, (forall i, (1 <= i < 22)%nat -> Rabs (y i - nth i (g_x s') 0) <= 1 / 10000000) /\
    gexec New [SetX (A := ArithR) y; Pressure] = Some (s1, r1) /\ g_trold s' = g_trold s1).
Proof. exact g_bound_false. Qed.

(* the counterexamples: methane replaced by nitrogen in small steps *)
Theorem C20_detail_refuted_witness : exists n s r s' o, dexec New (blending cmethane cnitrogen 300 1 n) = Some (s, r) /\
  (forall i j, (j < 21)%nat -> Rabs (nth j (fractions (blend cmethane cnitrogen n (S i))) 0
    - nth j (fractions (blend cmethane cnitrogen n i)) 0) <= 1 / 10000000) /\
  dstep Pressure s = Some (s', o) /\ d_x s' = fractions cnitrogen /\
  forall (y : nat -> R) s1 r1, (forall i, (i < 21)%nat -> Rabs (y i - nth i (fractions cnitrogen) 0) <= 1 / 10000000) ->
    dexec New [SetX (A := ArithR) y; Pressure] = Some (s1, r1) -> d_k3 s1 < d_k3 s'.
Proof. exact d_bound_witness. Qed.
Theorem C20_gerg_refuted_witness : exists n s r s' o, gexec New (blending cmethane cnitrogen 300 1 n) = Some (s, r) /\
  (forall i j, (j < 21)%nat -> Rabs (nth j (fractions (blend cmethane cnitrogen n (S i))) 0
    - nth j (fractions (blend cmethane cnitrogen n i)) 0) <= 1 / 10000000) /\
  gstep Pressure s = Some (s', o) /\ g_x s' = 0 :: fractions cnitrogen /\
  forall (y : nat -> R) s1 r1, (forall i, (1 <= i < 22)%nat -> Rabs (y i - nth i (0 :: fractions cnitrogen) 0) <= 1 / 10000000) ->
    gexec New [SetX (A := ArithR) y; Pressure] = Some (s1, r1) -> g_trold s1 < g_trold s'.
Proof. exact g_bound_witness. Qed.

(* what the caller sees.  DETAIL: the composition is b, the pressure that of a.
   GERG: if b is a single component absent from a, the pressure of b is that of the ideal gas. *)
Theorem C20_detail_drift : forall (a b : @Composition ArithR) t d, comp_check a = ROk -> comp_check b = ROk ->
  (exists i, (i < 21)%nat /\ 1 / 10000000 < nth i (fractions a) 0) -> 1 / 10000000 < t ->
  exists n s r, dexec New (blending a b t d n) = Some (s, r) /\
    (forall i j, (j < 21)%nat -> Rabs (nth j (fractions (blend a b n (S i))) 0 - nth j (fractions (blend a b n i)) 0) <= 1 / 10000000) /\
    d_x s = fractions b /\ d_t s = t /\ d_d s = d /\
    exists s', dstep Pressure s = Some (s', OVal (A := ArithR) (eos (nn (fun i => nth i (fractions a) 0)) t d)).
Proof.
  intros a b t d Ha Hb Hx Ht. destruct (blend_stale a b t d Ha Hb Hx Ht) as (n & s & r & E & S & X & T & D & s' & E' & _).
  exists n, s, r. split; [exact E|]. split; [exact S|]. split; [exact X|]. split; [exact T|]. split; [exact D|].
  exists s'. exact E'.
Qed.
Theorem C20_gerg_drift : forall (a b : @Composition ArithR) t d, comp_check a = ROk -> comp_check b = ROk ->
  (exists i, (1 <= i < 22)%nat /\ 1 / 10000000 < nth i (0 :: fractions a) 0) -> 1 / 10000000 < t ->
  forall j, (1 <= j < 22)%nat -> nth j (0 :: fractions a) 0 <= 1 / 1000000000000000 ->
  (forall i, (1 <= i < 22)%nat -> i <> j -> nth i (0 :: fractions b) 0 <= 1 / 1000000000000000) ->
  exists n s r, gexec New (blending a b t d n) = Some (s, r) /\
    (forall i j, (j < 21)%nat -> Rabs (nth j (fractions (blend a b n (S i))) 0 - nth j (fractions (blend a b n i)) 0) <= 1 / 10000000) /\
    g_x s = 0 :: fractions b /\ g_t s = t /\ g_d s = d /\
    exists s', gstep Pressure s = Some (s', OVal (A := ArithR) (d * Rg * t)).
Proof. exact gblend_ideal. Qed.

(* The bound that does hold (DETAIL).  After any history whose requests all have a fraction and a
   temperature above 1e-7, the pressure is the equation of state at a composition y and temperature u
   that were asked for earlier, each within (number of evaluations so far) * 1e-7 of the current one.
   Missing: the bound 1e-7 itself (false, see above). *)
Theorem C20_detail_partial : forall l (s s' : @Detail ArithR) r o, dexec New l = Some (s, r) ->
  (forall x t, In (x, t) (dasked (l ++ [Pressure])) -> (exists i, (i < 21)%nat /\ 1 / 10000000 < nth i x 0) /\ 1 / 10000000 < t) ->
  dstep Pressure s = Some (s', o) ->
  exists y u, (exists u', In (y, u') (dasked (l ++ [Pressure]))) /\ (exists y', In (y', u) (dasked (l ++ [Pressure]))) /\
    (forall i, (i < 21)%nat -> Rabs (nth i y 0 - nth i (d_x s) 0) <= INR (length (dasked l)) / 10000000) /\
    Rabs (u - d_t s) <= INR (length (dasked l)) / 10000000 /\
    o = OVal (A := ArithR) (d_d s * (831451 / 100000) * d_t s * Zfactor (nn (fun i => nth i y 0)) u (d_d s)).
Proof. exact d_stale_bound. Qed.
(* The same for the caches after each method (density when it succeeds): all of them are those of a
   new object asked once for (y, u).  Missing: the bound 1e-7 itself. *)
Theorem C20_detail_caches_partial : forall l m (s s' : @Detail ArithR) r o, dexec New l = Some (s, r) ->
  (m = Pressure \/ m = Properties \/ (exists i, m = Density i) /\ o = ODens (A := ArithR) ROk) ->
  (forall x t, In (x, t) (dasked (l ++ [m])) -> (exists i, (i < 21)%nat /\ 1 / 10000000 < nth i x 0) /\ 1 / 10000000 < t) ->
  dstep m s = Some (s', o) ->
  exists y u s1 r1, (exists u', In (y, u') (dasked (l ++ [m]))) /\ (exists y', In (y', u) (dasked (l ++ [m]))) /\
    (forall i, (i < 21)%nat -> Rabs (nth i y 0 - nth i (d_x s') 0) <= INR (length (dasked l)) / 10000000) /\
    Rabs (u - d_t s') <= INR (length (dasked l)) / 10000000 /\
    dexec New [SetX (A := ArithR) (fun i => nth i y 0); Poke (A := ArithR) PT u; Pressure] = Some (s1, r1) /\
    d_k3 s' = d_k3 s1 /\ d_bs s' = d_bs s1 /\ d_csn s' = d_csn s1 /\ d_tun s' = d_tun s1.
Proof. exact d_stale_methods. Qed.
(* GERG: the cached reducing density and temperature after each method, whether or not it succeeds.
   Missing: the bound 1e-7 itself, and the cached powers of tau, which are per component and may be
   older (C20_gerg_drift). *)
Theorem C20_gerg_partial : forall l m (s s' : @Gerg ArithR) r o, gexec New l = Some (s, r) ->
  (m = Pressure \/ (exists i, m = Density i) \/ m = Properties) ->
  (forall x t, In (x, t) (gasked (l ++ [m])) -> exists i, (1 <= i < 22)%nat /\ 1 / 10000000 < nth i x 0) ->
  gstep m s = Some (s', o) ->
  exists y s1 r1, (exists u, In (y, u) (gasked (l ++ [m]))) /\
    (forall i, (1 <= i < 22)%nat -> Rabs (nth i y 0 - nth i (g_x s') 0) <= INR (length (gasked l)) / 10000000) /\
    gexec New [SetX (A := ArithR) (fun i => nth i y 0); Pressure] = Some (s1, r1) /\
    g_drold s' = g_drold s1 /\ g_trold s' = g_trold s1.
Proof. exact g_stale_bound. Qed.
(* histories that meet the hypotheses *)
Example C20_case : exists s r s' o, dexec New (base_ops cmethane 300 1) = Some (s, r) /\
  (forall x t, In (x, t) (dasked (base_ops cmethane 300 1 ++ [Pressure])) ->
    (exists i, (i < 21)%nat /\ 1 / 10000000 < nth i x 0) /\ 1 / 10000000 < t) /\
  dstep Pressure s = Some (s', o).
Proof.
  destruct (heat_first cmethane 300 1 cm_check xm_some ltac:(lra)) as (s & r & E & [W X T D XO TO]).
  destruct (@press_held ArithR dp_new _ _ s (fractions cmethane) (300 : @F ArithR) W XO TO) as (s' & E' & _).
  - rewrite X. apply x_diff_same_R.
  - rewrite T. apply differs_same.
  - exists s, r, s'. eexists. split; [exact E|]. split; [|cbn [dstep]; rewrite E'; reflexivity].
    intros x t. cbn [dasked asked base_ops app]. rewrite cm_check. intros [H|[H|[]]]; injection H as <- <-;
    (split; [exact xm_some|lra]).
Qed.
Example C20_gerg_case : exists s r s' o, gexec New (base_ops cmethane 300 1) = Some (s, r) /\
  (forall x t, In (x, t) (gasked (base_ops cmethane 300 1 ++ [Pressure])) -> exists i, (1 <= i < 22)%nat /\ 1 / 10000000 < nth i x 0) /\
  gstep Pressure s = Some (s', o).
Proof.
  assert (Hm : exists i, (1 <= i < 22)%nat /\ 1 / 10000000 < nth i (@f0 ArithR :: fractions cmethane) 0)
    by (exists 1%nat; split; [lia|]; cbn; lra).
  destruct (gfirst cmethane 300 1 cm_check Hm ltac:(lra)) as (s & r & E & [W X T D XO]).
  destruct (gpress_held (P := GergPure.gp_new) _ _ (300 : @F ArithR) s W XO) as (s' & E' & _).
  - rewrite X. apply gx_diff_same_R.
  - rewrite T. apply differs_same.
  - apply differs_same.
  - exists s, r, s'. eexists. split; [exact E|]. split; [|cbn [gstep]; rewrite E'; reflexivity].
    intros x t. cbn [gasked asked base_ops app]. rewrite cm_check. intros [H|[H|[]]]; injection H as <- <-; exact Hm.
Qed.

Print Assumptions C20_detail_refuted.
Print Assumptions C20_gerg_refuted.
Print Assumptions C20_detail_refuted_witness.
Print Assumptions C20_gerg_refuted_witness.
Print Assumptions C20_detail_drift.
Print Assumptions C20_gerg_drift.
Print Assumptions C20_detail_partial.
Print Assumptions C20_detail_caches_partial.
Print Assumptions C20_gerg_partial.
