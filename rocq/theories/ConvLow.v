(* density of a new DETAIL object at low pressure. *)
From Coq Require Import Reals ZArith List Bool Lra Lia Psatz.
From Coquelicot Require Import Coquelicot.
From Verif Require Import FArith Prelude DetailTables DetailModel DetailPure DetailRefine DetailEval Api ApiSafe SpecGeneric SpecHistory
  ArithR RSum SpecReal SpecDetail DetailThermo DetailEos SpecStd SpecAcc SpecConv SpecIdeal StdDetailProof Drift Converge ConvDetail ConvReal.
Import ListNotations.
Local Open Scope R_scope.
Local Existing Instance ArithR.

Lemma ni_ext p p' d0 P : (forall d, p d = p' d) -> nearly_ideal p d0 P -> nearly_ideal p' d0 P.
Proof.
  intros E [A B]. split; [now rewrite <- E|]. intros d Hd. rewrite <- E. rewrite <- (Derive_ext p p' d E). now apply B.
Qed.
Lemma spread_free x d0 : detail_D x d0 = Rpower (sizeK5 x) (1/5) ^ 3 * d0.
Proof. reflexivity. Qed.
Lemma lit7 : @flit ArithR (L 1 (-7)) = 1 / 10000000.
Proof. rar. cbn [Rlit]. change (IZR (10 ^ 7)) with 10000000. lra. Qed.
Lemma apart_0 (a : R) : 1 / 10000000 < a -> @apart ArithR a f0.
Proof. intros H. unfold apart. apply Rltb_true. rewrite lit7. change (1 / 10000000 < Rabs (a - @f0 ArithR)). unfold f0. rar. cbn [Rlit].
  rewrite Rminus_0_r. apply Rlt_le_trans with a; [exact H|apply Rle_abs].
Qed.
Lemma nth_x (x : nat -> R) j : (j < 21)%nat -> nth j (map x (seq 0 21)) 0 = x j.
Proof. intros Hj. rewrite (nth_indep _ _ (x 0%nat)) by (now rewrite map_length, seq_length). now rewrite map_nth, seq_nth by exact Hj. Qed.
Section L.
Variables (x : nat -> R) (t P : R) (i : Z).
Hypothesis Hx : exists j, (j < 21)%nat /\ 1 / 10000000 < x j.
Hypothesis Ht : 1 / 10000000 < t.
Let d0 := P / RD / t.
Hypothesis Hd0 : 1 / 1000000000000000 <= d0 <= 400.
Hypothesis HP : 2 / 1000000000000000 <= P.
Hypothesis HD : detail_D (nn x) (3 * d0) <= 1.
Hypothesis HS : spread (nn x) t (3 * d0) <= 1 / 7.
Let l : list op := [SetX x; Poke PT t; Poke PP P].
Let s1 : Detail := set_d_p (P : F) (set_d_t (t : F) (set_d_x (map x (seq 0 21)) detail_fresh)).
Lemma run1 : dexec New l = Some (s1, [OUnit; OUnit; OUnit]).
Proof. apply dexec_new. reflexivity. Qed.
Lemma sep1 : separated 0 (dasked (l ++ [Density i])).
Proof.
  cbn [l app dasked asked]. split.
  - intros a b c e [[= <- <-]|[]] [[= <- <-]|[]]. split; now left.
  - intros a b [[= <- <-]|[]]. split; [|now apply apart_0]. destruct Hx as (j & Hj & Hv). exists j.
    split; [cbn [length map seq]; lia|].
    rewrite nth_repeat. apply apart_0. eapply Rlt_le_trans; [exact Hv|]. right. symmetry. exact (nth_x x j Hj).
Qed.
Let y j := nth j (map x (seq 0 21)) 0.
Lemma y_x j : (j < 21)%nat -> y j = x j.
Proof. apply nth_x. Qed.
Lemma p_y d : dpres New y t d = detail_p (nn x) t d.
Proof.
  assert (exists j, (j < 21)%nat /\ 1 / 10000000 < y j) as Hy by (destruct Hx as (j & Hj & Hv); exists j; rewrite y_x; auto).
  transitivity (eos (nn y) t d); [now apply dpres_eos|]. transitivity (eos (nn x) t d); [|symmetry; apply p_std].
  apply (eos_ext (nn y) (nn x)). intros j Hj. unfold nn. now rewrite y_x.
Qed.
Lemma guess1 : first_guess RD (d_d s1) P (d_t s1) = d0.
Proof.
  unfold first_guess. change (d_d s1) with (@f0 ArithR). unfold f0. rar. cbn [Rlit]. destruct (Rlt_dec _ _) as [L|L]; [reflexivity|].
  exfalso. apply L. change (IZR (10 ^ 0)) with 1. lra.
Qed.
Lemma ideal1 : nearly_ideal (dpres New y t) d0 P.
Proof.
  assert (P = d0 * (831451 / 100000) * t) as EP by (unfold d0, RD; field; lra).
  apply (ni_ext (detail_p (nn x) t)); [intros d; symmetry; apply p_y|]. rewrite EP at 1. apply low_ideal; trivial; lra.
Qed.
Lemma low_step : exists s e, dstep (Density i) s1 = Some (s, ODens ROk) /\
  d0 / 3 <= e <= 3 * d0 /\ detail_p (nn x) t e = P /\ Rabs (dread PD s - e) <= 1 / 10000000 * e /\
  Rabs (detail_p (nn x) t (dread PD s) - P) <= 1 / 10000000 * P /\
  forall e', d0 / 3 <= e' <= 3 * d0 -> detail_p (nn x) t e' = P -> e' = e.
Proof.
  pose proof guess1 as G. pose proof ideal1 as NI.
  assert (P = d0 * (831451 / 100000) * t) as EP by (unfold d0, RD; field; lra).
  assert (d0 / 100000000000000 <= P) as P2 by (rewrite EP; nra).
  pose proof (d_converges l i New s1 [OUnit; OUnit; OUnit] run1 sep1) as C.
  change (d_t s1) with t in C. change (DetailModel.d_p s1) with P in C. change (d_x s1) with (map x (seq 0 21)) in C. cbv zeta in C.
  change (d_t s1) with t in G. rewrite G in C. specialize (C ltac:(lra) Hd0 HP P2 NI). destruct C as (s & e & E & _ & A1 & A2 & A3 & A4 & A5).
  change (fun j : nat => nth j (map x (seq 0 21)) 0) with y in A1, A4, A5. rewrite (p_y (d_d s)) in A1. rewrite (p_y e) in A4.
  exists s, e. split; [exact E|split; [exact A3|split; [exact A4|split; [exact A2|split; [exact A1|]]]]].
  intros e' H1 H2. apply A5; [exact H1|]. rewrite (p_y e'). exact H2.
Qed.
Lemma low_density : exists s e, dexec New [SetX x; Poke PT t; Poke PP P; Density i] = Some (s, [OUnit; OUnit; OUnit; ODens ROk]) /\
  d0 / 3 <= e <= 3 * d0 /\ detail_p (nn x) t e = P /\ Rabs (dread PD s - e) <= 1 / 10000000 * e /\
  Rabs (detail_p (nn x) t (dread PD s) - P) <= 1 / 10000000 * P /\
  forall e', d0 / 3 <= e' <= 3 * d0 -> detail_p (nn x) t e' = P -> e' = e.
Proof.
  destruct low_step as (s & e & E & A). exists s, e. split; [|exact A].
  change (dexec New (l ++ [Density i]) = Some (s, [OUnit; OUnit; OUnit] ++ [ODens ROk])). eapply dexec_app; [exact run1|]. cbn [drun]. rewrite E. reflexivity.
Qed.
(* the round trip starting at -d0 *)
Let q := dpres New y t d0.
Let l2 : list op := [SetX x; Poke PT t; Poke PD (- d0); Poke PP q].
Let s2 : Detail := set_d_p (q : F) (set_d_d (- d0 : F) (set_d_t (t : F) (set_d_x (map x (seq 0 21)) detail_fresh))).
Lemma run2 : dexec New l2 = Some (s2, [OUnit; OUnit; OUnit; OUnit]).
Proof. apply dexec_new. reflexivity. Qed.
Lemma trip : separated 0 (dasked (l2 ++ [Density i])) /\ 0 < d_t s2 /\ d_d s2 = - d0 /\ DetailModel.d_p s2 = dpres New (fun j => nth j (d_x s2) 0) (d_t s2) d0 /\
  1 / 1000000000000000 <= dpres New (fun j => nth j (d_x s2) 0) (d_t s2) d0 /\ 1 / 1000000000000000 <= Derive (dpres New (fun j => nth j (d_x s2) 0) (d_t s2)) d0.
Proof.
  change (fun j => nth j (d_x s2) 0) with y. change (d_t s2) with t. change (DetailModel.d_p s2) with q.
  pose proof ideal1 as [[A1 A2] B]. destruct (B d0 ltac:(split; lra)) as (B1 & B2 & _).
  split; [exact sep1|]. split; [lra|]. split; [reflexivity|]. split; [reflexivity|]. split; [lra|].
  set (p := dpres New y t d0) in *. set (p' := Derive _ _) in *.
  assert (P = d0 * (831451 / 100000) * t) as EP by (unfold d0, RD; field; lra).
  assert (d0 * (831451 / 1000000000000) <= P) as P2 by (rewrite EP; nra).
  apply Rmult_le_reg_l with d0; [lra|]. lra.
Qed.
End L.
