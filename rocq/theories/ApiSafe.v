(* Every API history runs to completion; the invariant of all reachable objects. *)
From Coq Require Import ZArith List Bool Lia.
From Verif Require Import FArith Prelude Tab Composition DetailTables DetailModel DetailPure
  DetailRefine DetailEval GergTables GergModel GergPure GergRefine GergEval Api.
Import ListNotations.

Section Safe.
Context {A : Arith}.

Section D.
Context {P : DParams}.
Definition dinv (s : Detail) : Prop := exists cx ct, wf cx ct s.

Lemma wf_poke f v cx ct s : wf cx ct s -> wf cx ct (dpoke f v s).
Proof.
  intros H. destruct f; cbn [dpoke];
  (apply (wf_ext cx ct s _ H); unfold wf_fields_eq; dsimp; repeat split; trivial;
   apply (static_ext s _ (wf_static _ _ _ H)); reflexivity).
Qed.
Lemma wf_set_x l cx ct s : length l = 21%nat -> wf cx ct s -> wf cx ct (set_d_x l s).
Proof.
  intros Hl [Hs H1 H2 H3 H4 H5 H6 H7 H8]. constructor; dsimp; try assumption.
  now apply (static_ext s).
Qed.
Lemma comp_slots_length c : length (comp_slots c) = 21%nat.
Proof. reflexivity. Qed.

Lemma dstep_inv o s : dinv s -> exists s' r, dstep o s = Some (s', r) /\ dinv s'.
Proof.
  intros (cx & ct & H). destruct o; cbn [dstep].
  - do 2 eexists. split; [reflexivity|]. exists cx, ct. now apply wf_poke.
  - do 2 eexists. split; [reflexivity|]. exists cx, ct. apply wf_set_x; [|assumption].
    now rewrite map_length, seq_length.
  - rewrite set_composition_ok by apply H. destruct (comp_check c); cbn [bind];
    do 2 eexists; (split; [reflexivity|]); exists cx, ct;
      [apply wf_set_x; [reflexivity|assumption]|assumption].
  - rewrite molar_mass_ok by apply H. cbn [bind]. do 2 eexists. split; [reflexivity|].
    exists cx, ct. now apply wf_set_mm.
  - rewrite (pressure_ok _ _ _ H). cbn [bind]. do 2 eexists. split; [reflexivity|].
    eexists _, _. apply wf_press; eassumption.
  - destruct (density_wf _ _ _ H) as (s' & r & cx' & ct' & E & H'). rewrite E. cbn [bind].
    do 2 eexists. split; [reflexivity|]. now exists cx', ct'.
  - rewrite (properties_ok _ _ _ H). cbn [bind]. do 2 eexists. split; [reflexivity|].
    eexists _, _. apply wf_props; eassumption.
Qed.
Lemma drun_inv l : forall s, dinv s -> exists s' r, drun l s = Some (s', r) /\ dinv s'.
Proof.
  induction l as [|o l IH]; intros s H; cbn [drun].
  - now exists s, [].
  - destruct (dstep_inv o s H) as (s1 & r1 & E1 & H1). rewrite E1. cbn [bind].
    destruct (IH s1 H1) as (s2 & r2 & E2 & H2). rewrite E2. cbn [bind].
    do 2 eexists. split; [reflexivity|assumption].
Qed.
End D.

Definition dpar (k : start) : DParams := match k with New => dp_new | Default => dp_zero end.
Lemma dstart_inv k : exists s, dstart k = Some s /\ @dinv (dpar k) s.
Proof.
  destruct k; cbn [dstart dpar].
  - exists detail_fresh. split; [exact detail_new_ok|]. exists None, None. exact wf_fresh.
  - exists detail_default. split; [reflexivity|]. exists None, None. exact wf_default.
Qed.
Lemma dexec_inv k l : exists s r, dexec k l = Some (s, r) /\ @dinv (dpar k) s.
Proof.
  unfold dexec. destruct (dstart_inv k) as (s & E & H). rewrite E. cbn [bind].
  now apply (@drun_inv (dpar k)).
Qed.
Lemma dreach_inv s : dreach s -> exists k, @dinv (dpar k) s.
Proof.
  intros (k & l & r & E). exists k. destruct (dexec_inv k l) as (s' & r' & E' & H). congruence.
Qed.
(* every reachable object satisfies the invariant for one of the two parameter sets *)
Lemma dreach_wf s : dreach s -> exists P cx ct, @wf _ P cx ct s.
Proof. intros H. destruct (dreach_inv s H) as (k & cx & ct & W). eauto. Qed.

Section G.
Context {P : GParams}.
Definition ginv (s : Gerg) : Prop := exists c, gwf c s.

Lemma gwf_poke f v c s : gwf c s -> gwf c (gpoke f v s).
Proof.
  intros H. destruct f; cbn [gpoke];
  (apply (gwf_ext c s _ H); unfold gwf_fields_eq; gsimp; repeat split; trivial;
   try apply (gw_a0 _ _ H); apply (gstatic_ext s _ (gw_static _ _ H)); reflexivity).
Qed.
Lemma gwf_set_x l c s : length l = 22%nat -> gwf c s -> gwf c (set_g_x l s).
Proof.
  intros Hl [Hs H1 H2 H3 H4 H5 H6 H7 H8 H9 H10]. constructor; gsimp; try assumption.
  now apply (gstatic_ext s).
Qed.

Lemma gstep_inv o s : ginv s -> exists s' r, gstep o s = Some (s', r) /\ ginv s'.
Proof.
  intros (c & H). destruct o as [f v|v|c0| | |i|]; cbn [gstep].
  - do 2 eexists. split; [reflexivity|]. exists c. now apply gwf_poke.
  - do 2 eexists. split; [reflexivity|]. exists c. apply gwf_set_x; [|assumption].
    now rewrite map_length, seq_length.
  - rewrite gset_composition_ok by apply H. destruct (comp_check c0); cbn [bind];
    do 2 eexists; (split; [reflexivity|]); exists c;
      [apply gwf_set_x; [reflexivity|assumption]|assumption].
  - rewrite gmm_ok by apply H. cbn [bind]. do 2 eexists. split; [reflexivity|].
    exists c. now apply gwf_set_mm.
  - rewrite (gpressure_ok _ _ H). cbn [bind]. do 2 eexists. split; [reflexivity|].
    eexists. apply gwf_press; eassumption.
  - destruct (gdensity_wf i _ _ H) as (s' & r & c' & E & H'). rewrite E. cbn [bind].
    do 2 eexists. split; [reflexivity|]. now exists c'.
  - rewrite (gproperties_ok _ _ H). cbn [bind]. do 2 eexists. split; [reflexivity|].
    eexists. apply gwf_props; eassumption.
Qed.
Lemma grun_inv l : forall s, ginv s -> exists s' r, grun l s = Some (s', r) /\ ginv s'.
Proof.
  induction l as [|o l IH]; intros s H; cbn [grun].
  - now exists s, [].
  - destruct (gstep_inv o s H) as (s1 & r1 & E1 & H1). rewrite E1. cbn [bind].
    destruct (IH s1 H1) as (s2 & r2 & E2 & H2). rewrite E2. cbn [bind].
    do 2 eexists. split; [reflexivity|assumption].
Qed.
End G.

Definition gpar (k : start) : GParams := match k with New => gp_new | Default => gp_zero end.
Lemma gstart_inv k : exists s, gstart k = Some s /\ @ginv (gpar k) s.
Proof.
  destruct k; cbn [gstart gpar].
  - exists gerg_fresh. split; [exact gerg_new_ok|]. exists gc_zero. exact gwf_fresh.
  - exists gerg_default. split; [reflexivity|]. exists gc_zero. exact gwf_default.
Qed.
Lemma gexec_inv k l : exists s r, gexec k l = Some (s, r) /\ @ginv (gpar k) s.
Proof.
  unfold gexec. destruct (gstart_inv k) as (s & E & H). rewrite E. cbn [bind].
  now apply (@grun_inv (gpar k)).
Qed.
Lemma greach_wf s : greach s -> exists P c, @gwf _ P c s.
Proof.
  intros (k & l & r & E). destruct (gexec_inv k l) as (s' & r' & E' & c & H).
  exists (gpar k), c. congruence.
Qed.

(* reachability is closed under use *)
Lemma drun_app l1 l2 s : drun (l1 ++ l2) s
  = ('(s, r1) <- drun l1 s ;; '(s, r2) <- drun l2 s ;; Some (s, r1 ++ r2)).
Proof.
  revert s; induction l1 as [|o l1 IH]; intros s; cbn [app drun bind].
  - destruct (drun l2 s) as [[s' r]|]; reflexivity.
  - destruct (dstep o s) as [[s1 r1]|]; [|reflexivity]. cbn [bind]. rewrite IH.
    destruct (drun l1 s1) as [[s2 r2]|]; [|reflexivity]. cbn [bind].
    destruct (drun l2 s2) as [[s3 r3]|]; reflexivity.
Qed.
Lemma dreach_run s l s' r : dreach s -> drun l s = Some (s', r) -> dreach s'.
Proof.
  intros (k & l0 & r0 & E) H. exists k, (l0 ++ l). unfold dexec in *.
  destruct (dstart k) as [s0|]; [|discriminate]. cbn [bind] in *.
  rewrite drun_app, E. cbn [bind]. rewrite H. cbn [bind]. eauto.
Qed.
Lemma grun_app l1 l2 s : grun (l1 ++ l2) s
  = ('(s, r1) <- grun l1 s ;; '(s, r2) <- grun l2 s ;; Some (s, r1 ++ r2)).
Proof.
  revert s; induction l1 as [|o l1 IH]; intros s; cbn [app grun bind].
  - destruct (grun l2 s) as [[s' r]|]; reflexivity.
  - destruct (gstep o s) as [[s1 r1]|]; [|reflexivity]. cbn [bind]. rewrite IH.
    destruct (grun l1 s1) as [[s2 r2]|]; [|reflexivity]. cbn [bind].
    destruct (grun l2 s2) as [[s3 r3]|]; reflexivity.
Qed.
Lemma greach_run s l s' r : greach s -> grun l s = Some (s', r) -> greach s'.
Proof.
  intros (k & l0 & r0 & E) H. exists k, (l0 ++ l). unfold gexec in *.
  destruct (gstart k) as [s0|]; [|discriminate]. cbn [bind] in *.
  rewrite grun_app, E. cbn [bind]. rewrite H. cbn [bind]. eauto.
Qed.

End Safe.
