(* The round trip of RoundMed on one object. *)
From Coq Require Import Reals ZArith List Bool Lra Lia Psatz.
From Flocq Require Import Core BinarySingleNaN.
From Verif Require Import FArith Prelude Composition DetailModel GergModel Api ApiSafe DetailRefine GergRefine Drift GenericLemmas ReuseDetail ReuseGerg
  ArithB64 B64Lemmas B64Check SpecB64 SpecGeneric SpecHistory SpecGerg SpecStd SpecGas SpecAcc SpecSession SpecLogger SpecSens SpecRound Session RoundMed.
From Verif Require AccDensProof Logger.
Import ListNotations.
Local Open Scope R_scope.

Section G.
Context {A : Arith}.
Lemma dgauge c t d v s : dexec Api.New (gauge c t d) = Some (s, gauged v) -> d_d s = d.
Proof.
  intros E. apply dexec_new_inv in E. pose proof (@dexec_new A) as NN. revert NN E. generalize (@detail_fresh A). intros s0 NN E.
  apply drun_cons in E. destruct E as (s1 & E1 & E). apply drun_cons in E. destruct E as (s2 & E2 & E). apply drun_cons in E. destruct E as (s3 & E3 & E).
  apply drun_cons in E. destruct E as (s4 & E4 & E). apply drun_0 in E. subst s4.
  assert (R3 : dreach s3).
  { exists Api.New, [SetComp c; Poke PT t; Poke PD d], [OComp ROk; OUnit; OUnit]. apply NN. cbn [bind drun]. rewrite E1. cbn [bind]. rewrite E2. cbn [bind]. now rewrite E3. }
  destruct (proj1 (dconfined s3 s (OVal v) R3) E4) as [_ Ff]. pose proof (Ff PD) as K. cbn [dread] in K. rewrite K by (cbn; intuition discriminate). cbn [dstep] in E3. injection E3 as <-. reflexivity.
Qed.
Lemma ggauge c t d v s : gexec Api.New (gauge c t d) = Some (s, gauged v) -> g_d s = d.
Proof.
  intros E. apply gexec_new_inv in E. pose proof (@gexec_new A) as NN. revert NN E. generalize (@gerg_fresh A). intros s0 NN E.
  apply grun_cons in E. destruct E as (s1 & E1 & E). apply grun_cons in E. destruct E as (s2 & E2 & E). apply grun_cons in E. destruct E as (s3 & E3 & E).
  apply grun_cons in E. destruct E as (s4 & E4 & E). apply grun_0 in E. subst s4.
  assert (R3 : greach s3).
  { exists Api.New, [SetComp c; Poke PT t; Poke PD d], [OComp ROk; OUnit; OUnit]. apply NN. cbn [bind grun]. rewrite E1. cbn [bind]. rewrite E2. cbn [bind]. now rewrite E3. }
  destruct (proj1 (gconfined s3 s (OVal v) R3) E4) as [_ Ff]. pose proof (Ff PD) as K. cbn [gread] in K. rewrite K by (cbn; intuition discriminate). cbn [gstep] in E3. injection E3 as <-. reflexivity.
Qed.
(* properties() after density() leaves the density alone *)
Lemma dafter i c t v s s2 r2 : dexec Api.New (measure i c t v) = Some (s, measured) -> dexec Api.New (evaluate i c t v) = Some (s2, r2) -> (exists o, r2 = measured ++ [o]) /\ dread PD s2 = dread PD s.
Proof.
  intros E E2. assert (R : dreach s) by (eexists; eexists; eexists; exact E). apply dexec_new_inv in E, E2. change (evaluate i c t v) with (measure i c t v ++ [Properties]) in E2. rewrite Drift.drun_app, E in E2. cbn [drun] in E2.
  destruct (dstep Properties s) as [[s3 o]|] eqn:P; [|discriminate E2]. cbn [bind] in E2. injection E2 as <- <-. split; [now exists o|]. exact (proj1 (proj2 (proj2 (dconfined s s3 o R) P))).
Qed.
Lemma gafter i c t v s s2 r2 : gexec Api.New (measure i c t v) = Some (s, measured) -> gexec Api.New (evaluate i c t v) = Some (s2, r2) -> (exists o, r2 = measured ++ [o]) /\ gread PD s2 = gread PD s.
Proof.
  intros E E2. assert (R : greach s) by (eexists; eexists; eexists; exact E). apply gexec_new_inv in E, E2. change (evaluate i c t v) with (measure i c t v ++ [Properties]) in E2. rewrite Drift.grun_app, E in E2. cbn [grun] in E2.
  destruct (gstep Properties s) as [[s3 o]|] eqn:P; [|discriminate E2]. cbn [bind] in E2. injection E2 as <- <-. split; [now exists o|]. exact (proj1 (proj2 (proj2 (proj2 (gconfined s s3 o R) P)))).
Qed.
(* one composition and one temperature only *)
Lemma one_asked n fr x0 t0 i c t d v y u : comp_check c = ROk -> In (y, u) (asked n fr x0 t0 (gauge c t d ++ evaluate i c t v)) -> y = fr c /\ u = t.
Proof. intros K H. cbn [gauge evaluate app asked] in H. rewrite K in H. destruct H as [[= <- <-]|[[= <- <-]|[[= <- <-]|[]]]]; now split. Qed.
End G.

Section X.
Variable m : Libm.
Variable A : accurate m.
Local Notation B := (ArithB64 m).
Variable c : @Composition B.
Hypothesis Hc : gas_comp m c.
Variables t d : b64.
Hypothesis Ht : fin t /\ 270 <= bR t <= 350.
Lemma rd_ok : reading_ok m (mkReading c t (bofZ 101)).
Proof. split; [exact Hc|]. split; [exact Ht|]. cbn [r_p]. rewrite AccDensProof.ofZ_R by reflexivity. split; [reflexivity|lra]. Qed.
Lemma sep_d i v : separated (A := B) 0 (dasked (A := B) (gauge (A := B) c t d ++ evaluate (A := B) i c t v)).
Proof.
  pose proof (gas_check m c Hc) as K. split.
  - intros x u x' u' I1 I2. unfold dasked in I1, I2. destruct (one_asked _ _ _ _ _ _ _ _ _ _ _ K I1) as [-> ->]. destruct (one_asked _ _ _ _ _ _ _ _ _ _ _ K I2) as [-> ->]. split; now left.
  - intros x u I1. unfold dasked in I1. destruct (one_asked _ _ _ _ _ _ _ _ _ _ _ K I1) as [-> ->]. split; [|exact (Logger.apart_t0 m _ rd_ok)]. exists 0%nat. split; [split; [lia|cbn; lia]|]. exact (Logger.apart_x0 m _ rd_ok).
Qed.
Lemma sep_g i v : separated (A := B) 1 (gasked (A := B) (gauge (A := B) c t d ++ evaluate (A := B) i c t v)).
Proof.
  pose proof (gas_check m c Hc) as K. split.
  - intros x u x' u' I1 I2. unfold gasked in I1, I2. destruct (one_asked _ _ _ _ _ _ _ _ _ _ _ K I1) as [-> ->]. destruct (one_asked _ _ _ _ _ _ _ _ _ _ _ K I2) as [-> ->]. split; now left.
  - intros x u I1. unfold gasked in I1. destruct (one_asked _ _ _ _ _ _ _ _ _ _ _ K I1) as [-> ->]. split; [|exact (Logger.apart_t0 m _ rd_ok)]. exists 1%nat. split; [split; [lia|cbn; lia]|]. exact (Logger.apart_x0 m _ rd_ok).
Qed.
Lemma same_detail i : fin d /\ 1 / 10000 <= bR d <= 55 / 100 -> exists s v s' o, @dexec B Api.New (gauge (A := B) c t d) = Some (s, gauged (A := B) v) /\ fin v /\
  @dexec B Api.New (gauge (A := B) c t d ++ evaluate (A := B) i c t v) = Some (s', gauged (A := B) v ++ measured (A := B) ++ [o]) /\ fin (dread (A := B) PD s') /\ returns (bR d) (bR (dread (A := B) PD s')).
Proof.
  intros Hd. destruct (round_detail m A c Hc t d Ht i Hd) as (s & v & s1 & E & Fv & E1 & F1 & Q). destruct Hd as [Fd Hd].
  assert (D : @flt B (@fneg B (@EPSILON B)) (d_d s) = true) by (rewrite (dgauge (A := B) c t d v s E); apply Logger.eps_ok; [exact Fd|lra]).
  destruct (@dreuse B (Logger.eps_ok m (@f0 B) eq_refl ltac:(change (bR (@f0 B)) with 0; lra)) Api.New _ s _ c t v i E (gas_check m c Hc) D (sep_d i v)) as (s2 & s3 & r2 & R1 & R2 & Sm).
  destruct (dafter (A := B) i c t v s1 s3 r2 E1 R2) as [[o ->] Ed]. exists s, v, s2, o. split; [exact E|]. split; [exact Fv|]. split; [exact (dexec_app _ _ _ _ _ _ _ E R1)|].
  rewrite (proj2 Sm PD), Ed. now split.
Qed.
Lemma same_gerg i : (i <= 0)%Z -> fin d /\ 1 / 10000 <= bR d <= 40 / 100 -> exists s v s' o, @gexec B Api.New (gauge (A := B) c t d) = Some (s, gauged (A := B) v) /\ fin v /\
  @gexec B Api.New (gauge (A := B) c t d ++ evaluate (A := B) i c t v) = Some (s', gauged (A := B) v ++ measured (A := B) ++ [o]) /\ fin (gread (A := B) PD s') /\ returns (bR d) (bR (gread (A := B) PD s')).
Proof.
  intros Hi Hd. destruct (round_gerg m A c Hc t d Ht i Hi Hd) as (s & v & s1 & E & Fv & E1 & F1 & Q). destruct Hd as [Fd Hd].
  assert (D : @flt B (@fneg B (@GEPSILON B)) (g_d s) = true) by (rewrite (ggauge (A := B) c t d v s E); apply Logger.geps_ok; [exact Fd|lra]).
  destruct (@greuse B (Logger.geps_ok m (@f0 B) eq_refl ltac:(change (bR (@f0 B)) with 0; lra)) Api.New _ s _ c t v i E (gas_check m c Hc) D (sep_g i v)) as (s2 & s3 & r2 & R1 & R2 & Sm).
  destruct (gafter (A := B) i c t v s1 s3 r2 E1 R2) as [[o ->] Ed]. exists s, v, s2, o. split; [exact E|]. split; [exact Fv|]. split; [exact (gexec_app _ _ _ _ _ _ _ E R1)|].
  rewrite (proj2 Sm PD), Ed. now split.
Qed.
End X.
