(* The round trip of RoundSame, from C. *)
From Coq Require Import Reals ZArith List Bool Lra Lia Psatz.
From Flocq Require Import Core BinarySingleNaN.
From Verif Require Import FArith Prelude Composition DetailModel GergModel Api ApiSafe DetailRefine GergRefine Ffi SpecFfi FfiProofs Drift GenericLemmas
  ArithB64 B64Lemmas SpecB64 SpecGas SpecAcc SpecSession SpecLogger SpecSens SpecRound SpecRoundC Session RoundSame.
Import ListNotations.
Local Open Scope R_scope.

Section G.
Context {A : Arith}.
Lemma dround a c t d v h s o : a <> null -> dexec Api.New (gauge c t d ++ evaluate 0 c t v) = Some (s, gauged v ++ measured ++ [o]) ->
  exists h', ffi_run (round_c KDetail a c t d v) h = Ret h' (round_answers a v (dread PD s)) /\ elsewhere a h h'.
Proof.
  intros N E. destruct (new_object KDetail) as (o0 & (s0 & r0 & E0 & ->) & Hn).
  unfold round_c. cbn [ffi_run]. rewrite Hn.
  assert (R0 : dreach s0) by (exists Api.New, [], r0; exact E0).
  destruct (duses a [USetComposition c; USet IT t; USet ID d; UPressure; USetComposition c; USet IT t; USet IP v; UDensity; UProperties; UGet ID] N (hset h a (Some (ODetail s0))) s0 (hset_same _ _ _) R0)
    as (h' & xs & s' & Er & Tr & El & _).
  rewrite Er. cbn [omap]. exists h'. split; [|intros b Nb; rewrite (El b Nb); now apply hset_other]. unfold round_answers. do 2 f_equal. clear Er El Hn.
  apply dexec_new_inv in E. apply dexec_new_inv in E0. apply drun_0 in E0. subst s0. clear R0. revert Tr E. generalize (@detail_fresh A). intros s0 Tr E.
  unfold gauge, evaluate, gauged, measured in E. cbn [app] in E.
  apply drun_cons in E. destruct E as (s1 & E1 & E).
  apply drun_cons in E. destruct E as (s2 & E2 & E).
  apply drun_cons in E. destruct E as (s3 & E3 & E).
  apply drun_cons in E. destruct E as (s4 & E4 & E).
  apply drun_cons in E. destruct E as (s5 & E5 & E).
  apply drun_cons in E. destruct E as (s6 & E6 & E).
  apply drun_cons in E. destruct E as (s7 & E7 & E).
  apply drun_cons in E. destruct E as (s8 & E8 & E).
  apply drun_cons in E. destruct E as (s9 & E9 & E).
  apply drun_0 in E. subst s9.
  inversion Tr as [|u1 us1 q1 o1 p1 x1 xs1 f1 R1 A1 T1]; subst; clear Tr. apply (drun_1 _ _ _ _ _ E1) in R1. injection R1 as -> ->.
  inversion T1 as [|u2 us2 q2 o2 p2 x2 xs2 f2 R2 A2 T2]; subst; clear T1. apply (drun_1 _ _ _ _ _ E2) in R2. injection R2 as -> ->.
  inversion T2 as [|u3 us3 q3 o3 p3 x3 xs3 f3 R3 A3 T3]; subst; clear T2. apply (drun_1 _ _ _ _ _ E3) in R3. injection R3 as -> ->.
  inversion T3 as [|u4 us4 q4 o4 p4 x4 xs4 f4 R4 A4 T4]; subst; clear T3. apply (drun_1 _ _ _ _ _ E4) in R4. injection R4 as -> ->.
  inversion T4 as [|u5 us5 q5 o5 p5 x5 xs5 f5 R5 A5 T5]; subst; clear T4. apply (drun_1 _ _ _ _ _ E5) in R5. injection R5 as -> ->.
  inversion T5 as [|u6 us6 q6 o6 p6 x6 xs6 f6 R6 A6 T6]; subst; clear T5. apply (drun_1 _ _ _ _ _ E6) in R6. injection R6 as -> ->.
  inversion T6 as [|u7 us7 q7 o7 p7 x7 xs7 f7 R7 A7 T7]; subst; clear T6. apply (drun_1 _ _ _ _ _ E7) in R7. injection R7 as -> ->.
  inversion T7 as [|u8 us8 q8 o8 p8 x8 xs8 f8 R8 A8 T8]; subst; clear T7. apply (drun_1 _ _ _ _ _ E8) in R8. injection R8 as -> ->.
  inversion T8 as [|u9 us9 q9 o9 p9 x9 xs9 f9 R9 A9 T9]; subst; clear T8. apply (drun_1 _ _ _ _ _ E9) in R9. injection R9 as -> ->.
  inversion T9 as [|u10 us10 q10 o10 p10 x10 xs10 f10 R10 A10 T10]; subst; clear T9. apply drun_0 in R10. subst p10.
  inversion T10; subst. cbn [answers ifield_of] in *. destruct A1 as (r1 & [= <-] & ->). destruct A5 as (r5 & [= <-] & ->). destruct A8 as (r8 & [= <-] & ->).
  destruct A4 as (r4 & [= <-] & ->). subst. reflexivity.
Qed.
Lemma ground a c t d v h s o : a <> null -> gexec Api.New (gauge c t d ++ evaluate 0 c t v) = Some (s, gauged v ++ measured ++ [o]) ->
  exists h', ffi_run (round_c KGerg a c t d v) h = Ret h' (round_answers a v (gread PD s)) /\ elsewhere a h h'.
Proof.
  intros N E. destruct (new_object KGerg) as (o0 & (s0 & r0 & E0 & ->) & Hn).
  unfold round_c. cbn [ffi_run]. rewrite Hn.
  assert (R0 : greach s0) by (exists Api.New, [], r0; exact E0).
  destruct (guses a [USetComposition c; USet IT t; USet ID d; UPressure; USetComposition c; USet IT t; USet IP v; UDensity; UProperties; UGet ID] N (hset h a (Some (OGerg s0))) s0 (hset_same _ _ _) R0)
    as (h' & xs & s' & Er & Tr & El & _).
  rewrite Er. cbn [omap]. exists h'. split; [|intros b Nb; rewrite (El b Nb); now apply hset_other]. unfold round_answers. do 2 f_equal. clear Er El Hn.
  apply gexec_new_inv in E. apply gexec_new_inv in E0. apply grun_0 in E0. subst s0. clear R0. revert Tr E. generalize (@gerg_fresh A). intros s0 Tr E.
  unfold gauge, evaluate, gauged, measured in E. cbn [app] in E.
  apply grun_cons in E. destruct E as (s1 & E1 & E).
  apply grun_cons in E. destruct E as (s2 & E2 & E).
  apply grun_cons in E. destruct E as (s3 & E3 & E).
  apply grun_cons in E. destruct E as (s4 & E4 & E).
  apply grun_cons in E. destruct E as (s5 & E5 & E).
  apply grun_cons in E. destruct E as (s6 & E6 & E).
  apply grun_cons in E. destruct E as (s7 & E7 & E).
  apply grun_cons in E. destruct E as (s8 & E8 & E).
  apply grun_cons in E. destruct E as (s9 & E9 & E).
  apply grun_0 in E. subst s9.
  inversion Tr as [|u1 us1 q1 o1 p1 x1 xs1 f1 R1 A1 T1]; subst; clear Tr. apply (grun_1 _ _ _ _ _ E1) in R1. injection R1 as -> ->.
  inversion T1 as [|u2 us2 q2 o2 p2 x2 xs2 f2 R2 A2 T2]; subst; clear T1. apply (grun_1 _ _ _ _ _ E2) in R2. injection R2 as -> ->.
  inversion T2 as [|u3 us3 q3 o3 p3 x3 xs3 f3 R3 A3 T3]; subst; clear T2. apply (grun_1 _ _ _ _ _ E3) in R3. injection R3 as -> ->.
  inversion T3 as [|u4 us4 q4 o4 p4 x4 xs4 f4 R4 A4 T4]; subst; clear T3. apply (grun_1 _ _ _ _ _ E4) in R4. injection R4 as -> ->.
  inversion T4 as [|u5 us5 q5 o5 p5 x5 xs5 f5 R5 A5 T5]; subst; clear T4. apply (grun_1 _ _ _ _ _ E5) in R5. injection R5 as -> ->.
  inversion T5 as [|u6 us6 q6 o6 p6 x6 xs6 f6 R6 A6 T6]; subst; clear T5. apply (grun_1 _ _ _ _ _ E6) in R6. injection R6 as -> ->.
  inversion T6 as [|u7 us7 q7 o7 p7 x7 xs7 f7 R7 A7 T7]; subst; clear T6. apply (grun_1 _ _ _ _ _ E7) in R7. injection R7 as -> ->.
  inversion T7 as [|u8 us8 q8 o8 p8 x8 xs8 f8 R8 A8 T8]; subst; clear T7. apply (grun_1 _ _ _ _ _ E8) in R8. injection R8 as -> ->.
  inversion T8 as [|u9 us9 q9 o9 p9 x9 xs9 f9 R9 A9 T9]; subst; clear T8. apply (grun_1 _ _ _ _ _ E9) in R9. injection R9 as -> ->.
  inversion T9 as [|u10 us10 q10 o10 p10 x10 xs10 f10 R10 A10 T10]; subst; clear T9. apply grun_0 in R10. subst p10.
  inversion T10; subst. cbn [answers ifield_of] in *. destruct A1 as (r1 & [= <-] & ->). destruct A5 as (r5 & [= <-] & ->). destruct A8 as (r8 & [= <-] & ->).
  destruct A4 as (r4 & [= <-] & ->). subst. reflexivity.
Qed.
End G.

Section X.
Variable m : Libm.
Variable A : accurate m.
Local Notation B := (ArithB64 m).
Variable c : @Composition B.
Hypothesis Hc : gas_comp m c.
Variables t d : b64.
Hypothesis Ht : fin t /\ 270 <= bR t <= 350.
Lemma c_round_detail a h : fin d /\ 1 / 10000 <= bR d <= 55 / 100 -> a <> null -> exists h' v d',
  ffi_run (A := B) (round_c (A := B) KDetail a c t d v) h = Ret (A := B) h' (round_answers (A := B) a v d') /\ elsewhere a h h' /\ fin v /\ fin d' /\ returns (bR d) (bR d').
Proof.
  intros Hd N. destruct (same_detail m A c Hc t d Ht 0%Z Hd) as (s & v & s' & o & _ & Fv & E & Fd & Q).
  destruct (dround (A := B) a c t d v h s' o N E) as (h' & R & El). exists h', v, (dread (A := B) PD s'). repeat (split; [assumption|]). exact Q.
Qed.
Lemma c_round_gerg a h : fin d /\ 1 / 10000 <= bR d <= 40 / 100 -> a <> null -> exists h' v d',
  ffi_run (A := B) (round_c (A := B) KGerg a c t d v) h = Ret (A := B) h' (round_answers (A := B) a v d') /\ elsewhere a h h' /\ fin v /\ fin d' /\ returns (bR d) (bR d').
Proof.
  intros Hd N. destruct (same_gerg m A c Hc t d Ht 0%Z ltac:(lia) Hd) as (s & v & s' & o & _ & Fv & E & Fd & Q).
  destruct (ground (A := B) a c t d v h s' o N E) as (h' & R & El). exists h', v, (gread (A := B) PD s'). repeat (split; [assumption|]). exact Q.
Qed.
End X.
