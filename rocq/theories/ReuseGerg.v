(* A reused GERG-2008 object gives what a new one gives. *)
From Coq Require Import ZArith List Bool Lia.
From Verif Require Import FArith Prelude Tab Composition DetailModel DetailPure GergTables GergModel
  GergPure GergRefine GergEval Api ApiSafe SpecGeneric SpecHistory DensityProofs BasicProofs
  GenericLemmas HistoryGerg.
Import ListNotations.

Section Hist.
Context {A : Arith} {P : GParams}.
Local Open Scope bool_scope.
Local Open Scope F_scope.
Local Opaque gterms arT arS tab2 nxold gc_red gc_tau ga0 gmm gx_diff tab
  gerg_pressure gerg_properties.
Variable V : list (list F * F).
Hypothesis HV : separated 1 V.
Hypothesis HL : forall x t, In (x, t) V -> length x = 22%nat.

(* the same inputs *)
Definition gins (s1 s2 : Gerg) : Prop := g_x s1 = g_x s2 /\ g_t s1 = g_t s2 /\ GergModel.g_p s1 = GergModel.g_p s2.
Definition core (s1 s2 : Gerg) : Prop := gins s1 s2 /\ g_d s1 = g_d s2 /\ hinv V s1 /\ hinv V s2.
Lemma ins_in s1 s2 : gins s1 s2 -> In (g_x s1, g_t s1) V -> In (g_x s2, g_t s2) V.
Proof. intros (Hx & Ht & _) H. now rewrite <- Hx, <- Ht. Qed.
Lemma core_set_d v s1 s2 : gins s1 s2 -> hinv V s1 -> hinv V s2 -> core (set_g_d v s1) (set_g_d v s2).
Proof. intros H H1 H2. split; [exact H|]. split; [reflexivity|]. split; now apply (hinv_poke V PD). Qed.

Lemma press_core s1 s2 : core s1 s2 -> In (g_x s1, g_t s1) V ->
  exists s1' s2' p, gerg_pressure s1 = Some (s1', p) /\ gerg_pressure s2 = Some (s2', p) /\
    core s1' s2' /\ g_dpddsave s1' = g_dpddsave s2' /\ g_x s1' = g_x s1 /\ g_t s1' = g_t s1.
Proof.
  intros (Hs & Ed & H1 & H2) Hin. pose proof (ins_in _ _ Hs Hin) as Hin2.
  destruct (press_hist V HV HL s1 H1 Hin) as (s1' & E1 & K1 & F1 & Z1 & D1).
  destruct (press_hist V HV HL s2 H2 Hin2) as (s2' & E2 & K2 & F2 & Z2 & D2).
  destruct Hs as (Ex & Et & Ep). rewrite <- Ex, <- Et, <- Ed in E2, Z2, D2.
  assert (N : ~ In PT [PZ] /\ ~ In PP [PZ] /\ ~ In PD [PZ]) by (repeat split; intros [|[]]; discriminate). destruct N as (NT & NP & ND).
  pose proof (proj2 F1 PT NT) as T1. pose proof (proj2 F2 PT NT) as T2.
  pose proof (proj2 F1 PP NP) as P1. pose proof (proj2 F2 PP NP) as P2.
  pose proof (proj2 F1 PD ND) as Q1. pose proof (proj2 F2 PD ND) as Q2.
  cbn [gread] in *. destruct F1 as [X1 _]. destruct F2 as [X2 _].
  exists s1', s2'. eexists. split; [exact E1|]. split; [exact E2|]. split; [|split; [congruence|now split]].
  split; [split; [congruence|split; congruence]|]. split; [congruence|now split].
Qed.
Lemma props_core s1 s2 : core s1 s2 -> In (g_x s1, g_t s1) V ->
  exists s1' s2' p, gerg_properties s1 = Some (s1', p) /\ gerg_properties s2 = Some (s2', p) /\
    gsame s1' s2' /\ core s1' s2' /\ g_x s1' = g_x s1 /\ g_t s1' = g_t s1.
Proof.
  intros (Hs & Ed & H1 & H2) Hin. pose proof (ins_in _ _ Hs Hin) as Hin2.
  destruct (props_hist V HV HL s1 H1 Hin) as (s1' & E1 & K1 & X1 & F1).
  destruct (props_hist V HV HL s2 H2 Hin2) as (s2' & E2 & K2 & X2 & F2).
  destruct Hs as (Ex & Et & Ep). rewrite <- Ex, <- Et, <- Ed in E2.
  assert (S : gsame s1' s2').
  { split; [congruence|]. intros f. rewrite F1, F2. rewrite <- Ex, <- Et, <- Ed. destruct f; try reflexivity; [exact Et|exact Ep|exact Ed]. }
  exists s1', s2'. eexists. split; [exact E1|]. split; [exact E2|]. split; [exact S|].
  split; [|split; [exact X1|exact (F1 PT)]].
  split; [split; [apply S|split; [exact (proj2 S PT)|exact (proj2 S PP)]]|]. split; [exact (proj2 S PD)|now split].
Qed.

Definition corer (s1 : Gerg) (m1 m2 : option (Gerg * result DensityError)) : Prop :=
  exists s1' s2' r, m1 = Some (s1', r) /\ m2 = Some (s2', r) /\ core s1' s2' /\
    g_x s1' = g_x s1 /\ g_t s1' = g_t s1.
Lemma fail_core s1 s2 : core s1 s2 -> corer s1 (Some (gdensity_fail s1)) (Some (gdensity_fail s2)).
Proof.
  intros (Hs & _ & H1 & H2). unfold gdensity_fail. do 3 eexists. split; [reflexivity|].
  split; [reflexivity|]. split; [|split; reflexivity].
  destruct Hs as (Ex & Et & Ep). rewrite <- Et, <- Ep. apply core_set_d; [now split|exact H1|exact H2].
Qed.
Lemma corer_trans s0 s1 m1 m2 : g_x s1 = g_x s0 -> g_t s1 = g_t s0 -> corer s1 m1 m2 -> corer s0 m1 m2.
Proof.
  intros Ex Et (t1 & t2 & r & R1 & R2 & R3 & R4 & R5). exists t1, t2, r.
  split; [exact R1|]. split; [exact R2|]. split; [exact R3|]. split; congruence.
Qed.
Lemma check_core s1 s2 : core s1 s2 -> In (g_x s1, g_t s1) V ->
  corer s1 (gdensity_check s1) (gdensity_check s2).
Proof.
  intros Hs Hin. unfold gdensity_check.
  destruct (props_core _ _ Hs Hin) as (s1' & s2' & p & E1 & E2 & Sm & Hs2 & Ex & Et).
  rewrite E1, E2. cbn [bind]. apply (corer_trans s1 s1'); [assumption|assumption|].
  assert (Eq : forall f, gread f s2' = gread f s1') by (intros f; symmetry; apply Sm).
  pose proof (Eq PDpDd) as Q1. pose proof (Eq PD2pDtd) as Q2. pose proof (Eq PCv) as Q3.
  pose proof (Eq PCp) as Q4. pose proof (Eq PW) as Q5. cbn in Q1, Q2, Q3, Q4, Q5.
  rewrite Q1, Q2, Q3, Q4, Q5.
  match goal with |- corer _ (if ?b then _ else _) _ => destruct b end; [now apply fail_core|].
  do 3 eexists. split; [reflexivity|]. split; [reflexivity|]. split; [assumption|]. split; reflexivity.
Qed.
Lemma core_again w s1 s2 : core s1 s2 -> core (set_g_d w s1) (set_g_d w s2).
Proof. intros (Hs & _ & K1 & K2). now apply core_set_d. Qed.

Lemma step_body_core iflag dcx plog it b v s1 s2 k :
  core s1 s2 -> In (g_x s1, g_t s1) V ->
  (forall b v t1 t2, core t1 t2 -> In (g_x t1, g_t t1) V -> corer t1 (k b v t1) (k b v t2)) ->
  corer s1 (gdensity_step iflag dcx plog it b v s1 k) (gdensity_step iflag dcx plog it b v s2 k).
Proof.
  intros Hs Hin Hk. unfold gdensity_step. cbv zeta.
  pose proof (core_again (fexp (- v)) _ _ Hs) as Hs'.
  destruct (press_core _ _ Hs' Hin) as (s1' & s2' & p & E1 & E2 & Hs2 & Ed & Ex & Et).
  rewrite E1, E2. cbn [bind]. rewrite <- Ed.
  assert (Edd : g_d s2' = g_d s1') by (symmetry; apply Hs2).
  rewrite Edd.
  assert (Hin' : In (g_x s1', g_t s1') V) by (rewrite Ex, Et; exact Hin).
  apply (corer_trans s1 s1'); [exact Ex|exact Et|].
  destruct (_ || _); [now apply Hk|]. destruct (fabs _ <? TOLR); [|now apply Hk].
  destruct (g_dpddsave s1' <? f0); [now apply Hk|].
  match goal with |- context [set_g_d ?w s1'] => pose proof (core_again w _ _ Hs2) as Hs3 end.
  destruct (0 <? iflag)%Z.
  - exact (check_core _ _ Hs3 Hin').
  - do 3 eexists. split; [reflexivity|]. split; [reflexivity|]. split; [exact Hs3|].
    split; reflexivity.
Qed.

Lemma loop_core iflag dcx plog n : forall it nf b v s1 s2, core s1 s2 -> In (g_x s1, g_t s1) V ->
  corer s1 (gdensity_loop n iflag dcx plog it nf b v s1) (gdensity_loop n iflag dcx plog it nf b v s2).
Proof.
  induction n as [|n IH]; intros it nf b v s1 s2 Hs Hin; cbn [gdensity_loop].
  - now apply fail_core.
  - destruct (negb (vlog_ok v) || _ || _ || _ || b).
    + destruct (Nat.ltb 2 nf); [now apply fail_core|]. cbv zeta. gsimp.
      assert (Edd : g_d s2 = g_d s1) by (symmetry; apply Hs).
      rewrite Edd.
      apply (corer_trans s1 (set_g_d (grestart_d (S nf) dcx (g_d s1)) s1)); [reflexivity|reflexivity|].
      apply step_body_core; [now apply core_again|exact Hin|]. intros; now apply IH.
    + apply step_body_core; [assumption|exact Hin|]. intros; now apply IH.
Qed.

(* the density before the call is irrelevant if it is not a guess *)
Lemma density_core i s1 s2 : gins s1 s2 -> hinv V s1 -> hinv V s2 -> (- GEPSILON <? g_d s1) = true -> (- GEPSILON <? g_d s2) = true -> In (g_x s1, g_t s1) V ->
  corer s1 (gerg_density i s1) (gerg_density i s2).
Proof.
  intros Hs H1 H2 G1 G2 Hin. unfold gerg_density. pose proof H1 as (c1 & W1 & _). pose proof H2 as (c2 & W2 & _).
  pose proof (gw_x _ _ W1) as L1. pose proof (gw_x _ _ W2) as L2. pose proof Hs as (Hx & Et & Ep).
  rewrite !pcp_ok by assumption. cbn [bind]. cbv zeta. rewrite !gdensity_start_eq by assumption.
  assert (Eg : gguess i s2 = gguess i s1).
  { unfold gguess. now rewrite G1, G2, Hx, Ep, Et. }
  rewrite Eg. gsimp. rewrite <- Ep, <- Hx.
  eapply corer_trans; [| |apply loop_core; [now apply core_set_d|exact Hin]]; reflexivity.
Qed.
End Hist.

Lemma greuse {A : Arith} : (flt (fneg GEPSILON) f0) = true -> forall k l s r c t p i, gexec k l = Some (s, r) -> comp_check c = ROk -> flt (fneg GEPSILON) (g_d s) = true ->
  let l2 := [SetComp c; Poke PT t; Poke PP p; Density i; Properties] in
  separated 1 (gasked (l ++ l2)) ->
  exists s1 s2 r2, grun l2 s = Some (s1, r2) /\ gexec k l2 = Some (s2, r2) /\ gsame s1 s2.
Proof.
  intros G0 k l s r c t p i E Hc G l2 HV. unfold gexec in *.
  set (V := gasked (l ++ l2)) in *.
  assert (HL : forall x t, In (x, t) V -> length x = 22%nat).
  { intros x u. apply asked_lengths. reflexivity. }
  assert (H0 : exists s0, gstart k = Some s0 /\ @hinv _ (gpar k) V s0
    /\ g_x s0 = repeat f0 22 /\ g_t s0 = f0 /\ g_d s0 = f0).
  { destruct k; cbn [gstart gpar].
    - exists gerg_fresh. split; [exact gerg_new_ok|]. split; [|split; [|split]; reflexivity].
      exists gc_zero. split; [exact gwf_fresh|]. left. intros j Hj. reflexivity.
    - exists gerg_default. split; [reflexivity|]. split; [|split; [|split]; reflexivity].
      exists gc_zero. split; [exact gwf_default|]. left. intros j Hj. reflexivity. }
  destruct H0 as (s0 & E0 & H0 & Ex0 & Et0 & Ed0). rewrite E0 in E |- *. cbn [bind] in E |- *.
  assert (Hin : incl (asked 22 (fun c => f0 :: fractions c) (g_x s0) (g_t s0) (l ++ l2)) V).
  { rewrite Ex0, Et0. apply incl_refl. }
  destruct (@run_hinv _ (gpar k) V HV HL l l2 s0 s r H0 Hin E) as [H1 Hin1].
  assert (Hv : In (f0 :: fractions c, t) V).
  { apply Hin1. cbn [l2 asked]. rewrite Hc. now left. }
  assert (L0 : length (g_x s0) = 22%nat) by (rewrite Ex0; reflexivity).
  assert (L1 : length (g_x s) = 22%nat) by (destruct H1 as (cc & W & _); exact (gw_x _ _ W)).
  set (st := fun u : Gerg => set_g_p p (set_g_t t (set_g_x (f0 :: fractions c) u))).
  assert (Q : forall u, @hinv _ (gpar k) V u -> @hinv _ (gpar k) V (st u)).
  { intros u Hu. apply (hinv_poke V PP), (hinv_poke V PT), hinv_set_x; [reflexivity|exact Hu]. }
  destruct (@density_core _ (gpar k) V HV HL i (st s) (st s0))
    as (a & b & rr & D1 & D2 & Co & Xa & Ta).
  { split; [|split]; reflexivity. } { now apply Q. } { now apply Q. } { exact G. } { change (flt (fneg GEPSILON) (g_d s0) = true). now rewrite Ed0. } { exact Hv. }
  destruct (@props_core _ (gpar k) V HV HL a b Co) as (a' & b' & pq & P1 & P2 & Sm & _).
  { rewrite Xa, Ta. exact Hv. }
  exists a', b', [OComp ROk; OUnit; OUnit; ODens rr; OVal pq].
  assert (R : forall u u1 u2, length (g_x u) = 22%nat -> gerg_density i (st u) = Some (u1, rr) -> gerg_properties u1 = Some (u2, pq) ->
    grun l2 u = Some (u2, [OComp ROk; OUnit; OUnit; ODens rr; OVal pq])).
  { intros u u1 u2 Lu Ha Hb. unfold l2. cbn [grun gstep bind]. rewrite gset_comp by exact Lu. rewrite Hc. cbn [bind gpoke].
    change (gerg_density i _) with (gerg_density i (st u)). rewrite Ha. cbn [bind]. rewrite Hb. reflexivity. }
  split; [exact (R _ _ _ L1 D1 P1)|]. split; [exact (R _ _ _ L0 D2 P2)|exact Sm].
Qed.
