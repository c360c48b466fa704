(* End to end runs: from set_composition(), through the C interface, after normalize(). *)
From Coq Require Import Reals ZArith List Bool Lra Lia Psatz.
From Flocq Require Import Core BinarySingleNaN.
From Verif Require Import FArith Prelude Composition DetailModel GergModel Api ApiSafe DetailRefine GergRefine DetailEval GergEval Drift Ffi SpecFfi FfiProofs
  ArithB64 B64Lemmas B64Check SpecB64 SpecGeneric SpecGerg SpecStd SpecGas SpecAcc SpecGasState GasProps GasPropsG SpecSession.
Import ListNotations.
Local Open Scope R_scope.

(* any number of calls on one object *)
Section Trace.
Context {A : Arith}.
Inductive dtrace : list use -> Detail -> list Ffi.answer -> Detail -> Prop :=
| dt_nil s : dtrace [] s [] s
| dt_cons u us s o s1 x xs s' : drun (rust_ops u) s = Some (s1, o) -> answers dread u o s1 x -> dtrace us s1 xs s' -> dtrace (u :: us) s (x :: xs) s'.
Inductive gtrace : list use -> Gerg -> list Ffi.answer -> Gerg -> Prop :=
| gt_nil s : gtrace [] s [] s
| gt_cons u us s o s1 x xs s' : grun (rust_ops u) s = Some (s1, o) -> answers gread u o s1 x -> gtrace us s1 xs s' -> gtrace (u :: us) s (x :: xs) s'.
Lemma duses a us : a <> null -> forall h s, h a = Some (ODetail s) -> dreach s ->
  exists h' xs s', ffi_run (map (Use KDetail a) us) h = Ret h' xs /\ dtrace us s xs s' /\ elsewhere a h h' /\ h' a = Some (ODetail s').
Proof.
  intros N. induction us as [|u us IH]; intros h s E R; cbn [map ffi_run].
  - exists h, [], s. repeat split; [constructor|exact E].
  - destruct (use_detail_ok a u h s N E R) as (s1 & o & x & E1 & An & E2). cbn [ffi_step]. rewrite E2.
    destruct R as (k & l & r & R). destruct (FfiProofs.dexec_app _ _ _ _ _ _ _ R E1) as (r2 & R2).
    destruct (IH (hset h a (Some (ODetail s1))) s1 (hset_same _ _ _)) as (h' & xs & s' & Er & Tr & El & Eh); [now exists k, (l ++ rust_ops u), r2|].
    rewrite Er. cbn [omap]. exists h', (x :: xs), s'. split; [reflexivity|]. split; [econstructor; eassumption|]. split; [|exact Eh].
    intros b Nb. rewrite (El b Nb). now apply hset_other.
Qed.
Lemma guses a us : a <> null -> forall h s, h a = Some (OGerg s) -> greach s ->
  exists h' xs s', ffi_run (map (Use KGerg a) us) h = Ret h' xs /\ gtrace us s xs s' /\ elsewhere a h h' /\ h' a = Some (OGerg s').
Proof.
  intros N. induction us as [|u us IH]; intros h s E R; cbn [map ffi_run].
  - exists h, [], s. repeat split; [constructor|exact E].
  - destruct (use_gerg_ok a u h s N E R) as (s1 & o & x & E1 & An & E2). cbn [ffi_step]. rewrite E2.
    destruct R as (k & l & r & R). destruct (FfiProofs.gexec_app _ _ _ _ _ _ _ R E1) as (r2 & R2).
    destruct (IH (hset h a (Some (OGerg s1))) s1 (hset_same _ _ _)) as (h' & xs & s' & Er & Tr & El & Eh); [now exists k, (l ++ rust_ops u), r2|].
    rewrite Er. cbn [omap]. exists h', (x :: xs), s'. split; [reflexivity|]. split; [econstructor; eassumption|]. split; [|exact Eh].
    intros b Nb. rewrite (El b Nb). now apply hset_other.
Qed.

(* one operation at a time *)
Lemma drun_cons o l s s' r rs : drun (o :: l) s = Some (s', r :: rs) -> exists s1, dstep o s = Some (s1, r) /\ drun l s1 = Some (s', rs).
Proof.
  cbn [drun]. destruct (dstep o s) as [[s1 r1]|]; [|discriminate]. cbn [bind]. destruct (drun l s1) as [[s2 r2]|] eqn:E; [|discriminate]. cbn [bind].
  intros [= -> -> ->]. eauto.
Qed.
Lemma grun_cons o l s s' r rs : grun (o :: l) s = Some (s', r :: rs) -> exists s1, gstep o s = Some (s1, r) /\ grun l s1 = Some (s', rs).
Proof.
  cbn [grun]. destruct (gstep o s) as [[s1 r1]|]; [|discriminate]. cbn [bind]. destruct (grun l s1) as [[s2 r2]|] eqn:E; [|discriminate]. cbn [bind].
  intros [= -> -> ->]. eauto.
Qed.
Lemma drun_1 o s s1 r x : dstep o s = Some (s1, r) -> drun [o] s = Some x -> x = (s1, [r]).
Proof. intros E. cbn [drun]. rewrite E. cbn [bind]. congruence. Qed.
Lemma grun_1 o s s1 r x : gstep o s = Some (s1, r) -> grun [o] s = Some x -> x = (s1, [r]).
Proof. intros E. cbn [grun]. rewrite E. cbn [bind]. congruence. Qed.
Lemma drun_0 s s' o : drun [] s = Some (s', o) -> s' = s.
Proof. cbn. congruence. Qed.
Lemma grun_0 s s' o : grun [] s = Some (s', o) -> s' = s.
Proof. cbn. congruence. Qed.

Definition struct {S} (read : pfield -> S -> F) (s : S) : FProperties := mkFProperties (read PD s) (read PMM s) (read PZ s)
  (read PDpDd s) (read PD2pDd2 s) (read PDpDt s) (read PU s) (read PH s) (read PS s)
  (read PCv s) (read PCp s) (read PW s) (read PG s) (read PJt s) (read PKappa s).

Lemma dsession a c t p h s : a <> null ->
  dexec Api.New [SetComp c; Poke PT t; Poke PP p; Density 0; Properties] = Some (s, [OComp ROk; OUnit; OUnit; ODens ROk; OUnit]) ->
  exists h', ffi_run (session KDetail a c t p) h = Ret h' (no_error a (struct dread s) (dread PT s) (dread PP s)) /\ elsewhere a h h'.
Proof.
  intros N E. destruct (new_object KDetail) as (o & (s0 & r0 & E0 & ->) & Hn).
  unfold session. cbn [ffi_run]. rewrite Hn.
  assert (R0 : dreach s0) by (exists Api.New, [], r0; exact E0).
  destruct (duses a [USetComposition c; USet IT t; USet IP p; UDensity; UProperties; UGetProperties; UGet IT; UGet IP] N (hset h a (Some (ODetail s0))) s0 (hset_same _ _ _) R0)
    as (h' & xs & s' & Er & Tr & El & _).
  rewrite Er. cbn [omap]. exists h'. split; [|intros b Nb; rewrite (El b Nb); now apply hset_other]. unfold no_error. do 2 f_equal. clear Er El Hn.
  apply dexec_new_inv in E. apply dexec_new_inv in E0. apply drun_0 in E0. subst s0. clear R0. revert Tr E. generalize (@detail_fresh A). intros s0 Tr E.
  apply drun_cons in E. destruct E as (s1 & E1 & E). apply drun_cons in E. destruct E as (s2 & E2 & E). apply drun_cons in E. destruct E as (s3 & E3 & E).
  apply drun_cons in E. destruct E as (s4 & E4 & E). apply drun_cons in E. destruct E as (s5 & E5 & E). apply drun_0 in E. subst s5.
  inversion Tr as [|u1 us1 q1 o1 p1 x1 xs1 f1 R1 A1 T1]; subst; clear Tr. apply (drun_1 _ _ _ _ _ E1) in R1. injection R1 as -> ->.
  inversion T1 as [|u2 us2 q2 o2 p2 x2 xs2 f2 R2 A2 T2]; subst; clear T1. apply (drun_1 _ _ _ _ _ E2) in R2. injection R2 as -> ->.
  inversion T2 as [|u3 us3 q3 o3 p3 x3 xs3 f3 R3 A3 T3]; subst; clear T2. apply (drun_1 _ _ _ _ _ E3) in R3. injection R3 as -> ->.
  inversion T3 as [|u4 us4 q4 o4 p4 x4 xs4 f4 R4 A4 T4]; subst; clear T3. apply (drun_1 _ _ _ _ _ E4) in R4. injection R4 as -> ->.
  inversion T4 as [|u5 us5 q5 o5 p5 x5 xs5 f5 R5 A5 T5]; subst; clear T4. apply (drun_1 _ _ _ _ _ E5) in R5. injection R5 as -> ->.
  inversion T5 as [|u6 us6 q6 o6 p6 x6 xs6 f6 R6 A6 T6]; subst; clear T5. apply drun_0 in R6. subst p6.
  inversion T6 as [|u7 us7 q7 o7 p7 x7 xs7 f7 R7 A7 T7]; subst; clear T6. apply drun_0 in R7. subst p7.
  inversion T7 as [|u8 us8 q8 o8 p8 x8 xs8 f8 R8 A8 T8]; subst; clear T7. apply drun_0 in R8. subst p8.
  inversion T8; subst. cbn [answers ifield_of] in *. destruct A1 as (r1 & [= <-] & ->). destruct A4 as (r4 & [= <-] & ->). subst. reflexivity.
Qed.
Lemma gsession a c t p h s v : a <> null ->
  gexec Api.New [SetComp c; Poke PT t; Poke PP p; Density 0; Properties] = Some (s, [OComp ROk; OUnit; OUnit; ODens ROk; OVal v]) ->
  exists h', ffi_run (session KGerg a c t p) h = Ret h' (no_error a (struct gread s) (gread PT s) (gread PP s)) /\ elsewhere a h h'.
Proof.
  intros N E. destruct (new_object KGerg) as (o & (s0 & r0 & E0 & ->) & Hn).
  unfold session. cbn [ffi_run]. rewrite Hn.
  assert (R0 : greach s0) by (exists Api.New, [], r0; exact E0).
  destruct (guses a [USetComposition c; USet IT t; USet IP p; UDensity; UProperties; UGetProperties; UGet IT; UGet IP] N (hset h a (Some (OGerg s0))) s0 (hset_same _ _ _) R0)
    as (h' & xs & s' & Er & Tr & El & _).
  rewrite Er. cbn [omap]. exists h'. split; [|intros b Nb; rewrite (El b Nb); now apply hset_other]. unfold no_error. do 2 f_equal. clear Er El Hn.
  apply gexec_new_inv in E. apply gexec_new_inv in E0. apply grun_0 in E0. subst s0. clear R0. revert Tr E. generalize (@gerg_fresh A). intros s0 Tr E.
  apply grun_cons in E. destruct E as (s1 & E1 & E). apply grun_cons in E. destruct E as (s2 & E2 & E). apply grun_cons in E. destruct E as (s3 & E3 & E).
  apply grun_cons in E. destruct E as (s4 & E4 & E). apply grun_cons in E. destruct E as (s5 & E5 & E). apply grun_0 in E. subst s5.
  inversion Tr as [|u1 us1 q1 o1 p1 x1 xs1 f1 R1 A1 T1]; subst; clear Tr. apply (grun_1 _ _ _ _ _ E1) in R1. injection R1 as -> ->.
  inversion T1 as [|u2 us2 q2 o2 p2 x2 xs2 f2 R2 A2 T2]; subst; clear T1. apply (grun_1 _ _ _ _ _ E2) in R2. injection R2 as -> ->.
  inversion T2 as [|u3 us3 q3 o3 p3 x3 xs3 f3 R3 A3 T3]; subst; clear T2. apply (grun_1 _ _ _ _ _ E3) in R3. injection R3 as -> ->.
  inversion T3 as [|u4 us4 q4 o4 p4 x4 xs4 f4 R4 A4 T4]; subst; clear T3. apply (grun_1 _ _ _ _ _ E4) in R4. injection R4 as -> ->.
  inversion T4 as [|u5 us5 q5 o5 p5 x5 xs5 f5 R5 A5 T5]; subst; clear T4. apply (grun_1 _ _ _ _ _ E5) in R5. injection R5 as -> ->.
  inversion T5 as [|u6 us6 q6 o6 p6 x6 xs6 f6 R6 A6 T6]; subst; clear T5. apply grun_0 in R6. subst p6.
  inversion T6 as [|u7 us7 q7 o7 p7 x7 xs7 f7 R7 A7 T7]; subst; clear T6. apply grun_0 in R7. subst p7.
  inversion T7 as [|u8 us8 q8 o8 p8 x8 xs8 f8 R8 A8 T8]; subst; clear T7. apply grun_0 in R8. subst p8.
  inversion T8; subst. cbn [answers ifield_of] in *. destruct A1 as (r1 & [= <-] & ->). destruct A4 as (r4 & [= <-] & ->). subst. reflexivity.
Qed.

(* set_composition() is SetX when check() accepts *)
Lemma dset_comp c (x : nat -> F) l s r : comp_check c = ROk -> map x (seq 0 21) = fractions c ->
  dexec Api.New (SetX x :: l) = Some (s, OUnit :: r) -> dexec Api.New (SetComp c :: l) = Some (s, OComp ROk :: r).
Proof.
  intros K X E. apply dexec_new. apply dexec_new_inv in E. revert E. assert (Hl : length (d_x (@detail_fresh A)) = 21%nat) by reflexivity.
  revert Hl. generalize (@detail_fresh A). intros s0 Hl E. cbn [drun dstep bind] in *. rewrite X in E. rewrite (set_composition_ok c s0 Hl), K. cbn [bind].
  change (comp_slots c) with (fractions c). destruct (drun l (set_d_x (fractions c) s0)) as [[s1 r1]|]; [|discriminate E]. cbn [bind] in *. congruence.
Qed.
Lemma gset_comp c (x : nat -> F) l s r : comp_check c = ROk -> map x (seq 0 22) = f0 :: fractions c ->
  gexec Api.New (SetX x :: l) = Some (s, OUnit :: r) -> gexec Api.New (SetComp c :: l) = Some (s, OComp ROk :: r).
Proof.
  intros K X E. apply gexec_new. apply gexec_new_inv in E. revert E. assert (Hl : length (g_x (@gerg_fresh A)) = 22%nat) by reflexivity.
  revert Hl. generalize (@gerg_fresh A). intros s0 Hl E. cbn [grun gstep bind] in *. rewrite X in E. rewrite (gset_composition_ok c s0 Hl), K. cbn [bind].
  change (comp_slots c) with (fractions c). destruct (grun l (set_g_x (f0 :: fractions c) s0)) as [[s1 r1]|]; [|discriminate E]. cbn [bind] in *. congruence.
Qed.
End Trace.

(* double precision *)
Section D.
Variable m : Libm.
Local Notation B := (ArithB64 m).
Lemma tot_exact (c : @Composition B) : tot 21 (fun i => bR (nth i (bfractions m c) B0)) = exact_sum m c.
Proof. unfold exact_sum, bfractions, fractions. cbn [tot nth map Rsum fold_right]. ring. Qed.
Lemma gas_usable c : gas_comp m c -> usable (bfractions m c).
Proof.
  intros (H & (_ & Hl & _) & _). unfold usable. apply Forall_forall. intros y Hy. destruct (In_nth _ _ B0 Hy) as (i & Hi & <-).
  assert (Hi' : (i < 21)%nat) by exact Hi. split; [apply H, Hi'|apply (Hl i Hi')].
Qed.
Lemma gas_check c : gas_comp m c -> comp_check (A := B) c = ROk.
Proof.
  intros H. pose proof (gas_usable c H) as U. destruct H as (_ & _ & Hs).
  refine (proj1 (proj2 (proj2 (check_decides m c U _ _ eq_refl))) Hs).
  apply Rle_trans with 4; [|replace 4 with (bpow radix2 2) by (cbn; lra); apply bpow_le; lia].
  assert (0 < / 10 ^ 14) by (apply Rinv_0_lt_compat; lra). lra.
Qed.

Variable A : accurate m.
Variables (c : @Composition B) (t P : b64).
Hypothesis Hc : gas_comp m c.
Hypothesis Ht : fin t /\ 270 <= bR t <= 350.
Hypothesis HP : fin P /\ 1 / 10 <= bR P <= 110.
Lemma rust_detail i : exists s, @dexec B Api.New [SetComp (A := B) c; Poke (A := B) PT t; Poke (A := B) PP P; Density (A := B) i; Properties (A := B)]
    = Some (s, [OComp (A := B) ROk; OUnit; OUnit; ODens (A := B) ROk; OUnit]) /\
  gas_state (831451 / 100000) (bR t) (bR P) (bR (dread (A := B) PP s)) (fun k => dread (A := B) k s).
Proof.
  destruct Hc as (Hx & Hg & Hs).
  destruct (gas_state_detail m A (fun j => nth j (bfractions m c) B0) t P i) as (s & E & G); try assumption.
  { intros j Hj. destruct (Hx j Hj) as [F [Z|Z]]; split; try exact F; [now left|right]. apply Rle_trans with (2 := Z). apply bpow_le. lia. }
  exists s. split; [|exact G]. apply (dset_comp (A := B) c (fun j => nth j (bfractions m c) B0)); [exact (gas_check c Hc)|reflexivity|exact E].
Qed.
Lemma rust_gerg i : (i <= 0)%Z -> exists s v, @gexec B Api.New [SetComp (A := B) c; Poke (A := B) PT t; Poke (A := B) PP P; Density (A := B) i; Properties (A := B)]
    = Some (s, [OComp (A := B) ROk; OUnit; OUnit; ODens (A := B) ROk; OVal (A := B) v]) /\ fin v /\
  gas_state Rg (bR t) (bR P) (bR v) (fun k => gread (A := B) k s).
Proof.
  intros Hi. destruct Hc as (Hx & Hg & Hs). pose (x := fun j => match j with O => B0 | S k => nth k (bfractions m c) B0 end).
  destruct (gas_state_gerg m A x t P i) as (s & v & E & Fv & G); try assumption.
  { intros [|j] Hj; [lia|]. apply (Hx j). lia. }
  exists s, v. split; [|split; [exact Fv|exact G]]. apply (gset_comp (A := B) c x); [exact (gas_check c Hc)|reflexivity|exact E].
Qed.
End D.
