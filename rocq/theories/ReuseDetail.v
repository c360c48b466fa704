(* A reused DETAIL object gives what a new one gives: the outcome of density() and properties() depends on the composition,
   temperature, pressure and guess only, not on the other public fields (separated histories). *)
From Coq Require Import ZArith List Bool Lia.
From Verif Require Import FArith Prelude Tab Composition DetailTables DetailModel DetailPure
  DetailRefine DetailEval GergModel Api ApiSafe SpecGeneric SpecHistory DensityProofs BasicProofs
  GenericLemmas HistoryDetail.
Import ListNotations.

Section Hist.
Context {A : Arith} {P : DParams}.
Local Open Scope bool_scope.
Local Open Scope F_scope.
Local Opaque ar_of ar00 ar01 ar02 ar03 ar10 ar11 ar20 cTun cBs cCsn cK3 x_diff pa0 pmm tab
  pressure properties.
Variable V : list (list F * F).
Hypothesis HV : separated 0 V.
Hypothesis HL : forall x t, In (x, t) V -> length x = 21%nat.

(* the same inputs *)
Definition dins (s1 s2 : Detail) : Prop := d_x s1 = d_x s2 /\ d_t s1 = d_t s2 /\ d_p s1 = d_p s2.
Definition core (s1 s2 : Detail) : Prop := dins s1 s2 /\ d_d s1 = d_d s2 /\ hinv V s1 /\ hinv V s2.
Lemma ins_in s1 s2 : dins s1 s2 -> In (d_x s1, d_t s1) V -> In (d_x s2, d_t s2) V.
Proof. intros (Hx & Ht & _) H. now rewrite <- Hx, <- Ht. Qed.
Lemma core_set_d v s1 s2 : dins s1 s2 -> hinv V s1 -> hinv V s2 -> core (set_d_d v s1) (set_d_d v s2).
Proof. intros H H1 H2. split; [exact H|]. split; [reflexivity|]. split; now apply (hinv_poke V PD). Qed.

Lemma press_core s1 s2 : core s1 s2 -> In (d_x s1, d_t s1) V ->
  exists s1' s2' p, pressure s1 = Some (s1', p) /\ pressure s2 = Some (s2', p) /\
    core s1' s2' /\ d_dp_dd_save s1' = d_dp_dd_save s2' /\ d_x s1' = d_x s1 /\ d_t s1' = d_t s1.
Proof.
  intros (Hs & Ed & H1 & H2) Hin. pose proof (ins_in _ _ Hs Hin) as Hin2.
  destruct (press_hist V HV HL s1 H1 Hin) as (s1' & E1 & K1 & F1 & Z1 & D1).
  destruct (press_hist V HV HL s2 H2 Hin2) as (s2' & E2 & K2 & F2 & Z2 & D2).
  destruct Hs as (Ex & Et & Ep). rewrite <- Ex, <- Et, <- Ed in E2, Z2, D2.
  assert (N : ~ In PT [PZ] /\ ~ In PP [PZ] /\ ~ In PD [PZ]) by (repeat split; intros [|[]]; discriminate). destruct N as (NT & NP & ND).
  pose proof (proj2 F1 PT NT) as T1. pose proof (proj2 F2 PT NT) as T2.
  pose proof (proj2 F1 PP NP) as P1. pose proof (proj2 F2 PP NP) as P2.
  pose proof (proj2 F1 PD ND) as Q1. pose proof (proj2 F2 PD ND) as Q2.
  cbn [dread] in *. destruct F1 as [X1 _]. destruct F2 as [X2 _].
  exists s1', s2'. eexists. split; [exact E1|]. split; [exact E2|]. split; [|split; [congruence|now split]].
  split; [split; [congruence|split; congruence]|]. split; [congruence|now split].
Qed.
Lemma loop_core plog n : forall v s1 s2, core s1 s2 -> In (d_x s1, d_t s1) V ->
  exists s1' s2' r, density_loop n plog v s1 = Some (s1', r) /\
    density_loop n plog v s2 = Some (s2', r) /\ core s1' s2' /\ d_x s1' = d_x s1 /\ d_t s1' = d_t s1.
Proof.
  assert (Hfail : forall s1 s2, core s1 s2 -> exists s1' s2' r,
    Some (density_fail s1) = Some (s1', r) /\ Some (density_fail s2) = Some (s2', r) /\
    core s1' s2' /\ d_x s1' = d_x s1 /\ d_t s1' = d_t s1).
  { intros s1 s2 (Hs & _ & H1 & H2). unfold density_fail. do 3 eexists. split; [reflexivity|].
    split; [reflexivity|]. split; [|split; reflexivity]. destruct Hs as (Ex & Et & Ep). rewrite <- Et, <- Ep. apply core_set_d; [now split|exact H1|exact H2]. }
  induction n as [|n IH]; intros v s1 s2 Hs Hin; cbn [density_loop].
  - now apply Hfail.
  - destruct (negb (vlog_ok v)); [now apply Hfail|]. cbv zeta.
    assert (Hs' : core (set_d_d (fexp (- v)) s1) (set_d_d (fexp (- v)) s2)) by (destruct Hs as (Hs & _ & H1 & H2); now apply core_set_d).
    destruct (press_core _ _ Hs' Hin) as (s1' & s2' & p & E1 & E2 & Hs2 & Ed & Ex & Et).
    rewrite E1, E2. cbn [bind]. rewrite <- Ed.
    assert (Edd : d_d s1' = d_d s2') by apply Hs2. rewrite <- Edd.
    assert (Hin' : In (d_x s1', d_t s1') V) by (rewrite Ex, Et; exact Hin).
    assert (Hrec : forall v', exists t1 t2 r, density_loop n plog v' s1' = Some (t1, r) /\
      density_loop n plog v' s2' = Some (t2, r) /\ core t1 t2 /\ d_x t1 = d_x s1 /\ d_t t1 = d_t s1).
    { intros v'. destruct (IH v' _ _ Hs2 Hin') as (t1 & t2 & r & R1 & R2 & R3 & R4 & R5).
      exists t1, t2, r. split; [exact R1|]; split; [exact R2|]; split; [exact R3|]; split; [rewrite R4; exact Ex|rewrite R5; exact Et]. }
    destruct (_ || _); [apply Hrec|]. destruct (fabs _ <? TOLR); [|apply Hrec].
    do 3 eexists. split; [reflexivity|]. split; [reflexivity|].
    split; [destruct Hs2 as (Hs2 & _ & K1 & K2); now apply core_set_d|]. split; assumption.
Qed.
(* the density before the call is irrelevant if it is not a guess *)
Lemma density_core s1 s2 : dins s1 s2 -> hinv V s1 -> hinv V s2 -> (- EPSILON <? d_d s1) = true -> (- EPSILON <? d_d s2) = true -> In (d_x s1, d_t s1) V ->
  exists s1' s2' r, density s1 = Some (s1', r) /\ density s2 = Some (s2', r) /\ core s1' s2' /\ d_x s1' = d_x s1 /\ d_t s1' = d_t s1.
Proof.
  intros Hs H1 H2 G1 G2 Hin. unfold density. pose proof Hs as (Ex & Et & Ep). rewrite <- Ep. destruct (fabs (d_p s1) <? EPSILON).
  - do 3 eexists. split; [reflexivity|]. split; [reflexivity|]. split; [now apply core_set_d|]. split; reflexivity.
  - cbv zeta. rewrite !density_start_eq. unfold dguess. rewrite G1, G2, <- Ep, <- Et.
    set (g := d_p s1 / RDETAIL / d_t s1). dsimp. rewrite <- Ep.
    destruct (loop_core (fln (d_p s1)) 20 (- fln g) _ _ (core_set_d g _ _ Hs H1 H2) Hin) as (s1' & s2' & r & R). exists s1', s2', r. exact R.
Qed.
Lemma props_core s1 s2 : core s1 s2 -> In (d_x s1, d_t s1) V ->
  exists s1' s2', properties s1 = Some s1' /\ properties s2 = Some s2' /\ dsame s1' s2'.
Proof.
  intros (Hs & Ed & H1 & H2) Hin. pose proof (ins_in _ _ Hs Hin) as Hin2.
  destruct (props_hist V HV HL s1 H1 Hin) as (s1' & E1 & K1 & X1 & F1).
  destruct (props_hist V HV HL s2 H2 Hin2) as (s2' & E2 & K2 & X2 & F2).
  destruct Hs as (Ex & Et & Ep).
  exists s1', s2'. split; [assumption|]. split; [assumption|]. split; [congruence|]. intros f. rewrite F1, F2.
  rewrite <- Ex, <- Et, <- Ed. destruct f; try reflexivity; [exact Et|exact Ed].
Qed.
End Hist.

Lemma dreuse {A : Arith} : (flt (fneg EPSILON) f0) = true -> forall k l s r c t p i, dexec k l = Some (s, r) -> comp_check c = ROk -> flt (fneg EPSILON) (d_d s) = true ->
  let l2 := [SetComp c; Poke PT t; Poke PP p; Density i; Properties] in
  separated 0 (dasked (l ++ l2)) ->
  exists s1 s2 r2, drun l2 s = Some (s1, r2) /\ dexec k l2 = Some (s2, r2) /\ dsame s1 s2.
Proof.
  intros G0 k l s r c t p i E Hc G l2 HV. unfold dexec in *.
  set (V := dasked (l ++ l2)) in *.
  assert (HL : forall x t, In (x, t) V -> length x = 21%nat).
  { intros x u. apply asked_lengths. reflexivity. }
  assert (H0 : exists s0, dstart k = Some s0 /\ @hinv _ (dpar k) V s0
    /\ d_x s0 = repeat f0 21 /\ d_t s0 = f0 /\ d_d s0 = f0).
  { destruct k; cbn [dstart dpar].
    - exists detail_fresh. split; [exact detail_new_ok|]. split; [|split; [|split]; reflexivity].
      exists None, None. split; [exact wf_fresh|]. split; left; split; reflexivity.
    - exists detail_default. split; [reflexivity|]. split; [|split; [|split]; reflexivity].
      exists None, None. split; [exact wf_default|]. split; left; split; reflexivity. }
  destruct H0 as (s0 & E0 & H0 & Ex0 & Et0 & Ed0). rewrite E0 in E |- *. cbn [bind] in E |- *.
  assert (Hin : incl (asked 21 fractions (d_x s0) (d_t s0) (l ++ l2)) V).
  { rewrite Ex0, Et0. apply incl_refl. }
  destruct (@run_hinv _ (dpar k) V HV HL l l2 s0 s r H0 Hin E) as [H1 Hin1].
  assert (Hv : In (fractions c, t) V).
  { apply Hin1. cbn [l2 asked]. rewrite Hc. now left. }
  assert (L0 : length (d_x s0) = 21%nat) by (rewrite Ex0; reflexivity).
  assert (L1 : length (d_x s) = 21%nat) by (destruct H1 as (cx & ct & W & _); exact (wf_x _ _ _ W)).
  assert (Q : forall u, @hinv _ (dpar k) V u -> @hinv _ (dpar k) V (set_d_p p (set_d_t t (set_d_x (fractions c) u)))).
  { intros u Hu. apply (hinv_poke V PP), (hinv_poke V PT), hinv_set_x; [reflexivity|exact Hu]. }
  destruct (@density_core _ (dpar k) V HV HL (set_d_p p (set_d_t t (set_d_x (fractions c) s))) (set_d_p p (set_d_t t (set_d_x (fractions c) s0))))
    as (a & b & rr & D1 & D2 & Co & Xa & Ta).
  { split; [|split]; reflexivity. } { now apply Q. } { now apply Q. } { exact G. } { change (flt (fneg EPSILON) (d_d s0) = true). now rewrite Ed0. } { exact Hv. }
  destruct (@props_core _ (dpar k) V HV HL a b Co) as (a' & b' & P1 & P2 & Sm).
  { rewrite Xa, Ta. exact Hv. }
  exists a', b', [OComp ROk; OUnit; OUnit; ODens rr; OUnit].
  assert (R : forall u u1 u2, length (d_x u) = 21%nat -> density (set_d_p p (set_d_t t (set_d_x (fractions c) u))) = Some (u1, rr) -> properties u1 = Some u2 ->
    drun l2 u = Some (u2, [OComp ROk; OUnit; OUnit; ODens rr; OUnit])).
  { intros u u1 u2 Lu Ha Hb. unfold l2. cbn [drun dstep bind]. rewrite (set_composition_ok c u Lu), Hc. cbn [bind dpoke].
    change (comp_slots c) with (fractions c). rewrite Ha. cbn [bind]. rewrite Hb. reflexivity. }
  split; [exact (R _ _ _ L1 D1 P1)|]. split; [exact (R _ _ _ L0 D2 P2)|exact Sm].
Qed.
