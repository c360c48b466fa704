(* Error analysis of the DETAIL ideal-gas part in double precision. *)
From Coq Require Import Reals ZArith List Bool Lra Lia Psatz.
From Flocq Require Import Core BinarySingleNaN.
From Verif Require Import FArith Prelude Tab ArithB64 B64Lemmas ArithR RSum SpecDetail SpecIdeal SpecAcc DetailTables DetailModel DetailPure DetailEval Api ApiSafe SpecReal DetailReal DetailThermo
  DetailEos GergEos IdealGas SpecStd SpecTables SpecAll SpecAllD B64Err AccFold AccMix AccEos GAccRed GAccTerms GAllIdeal.
Import ListNotations.
Local Open Scope R_scope.
Local Instance DB {A : Arith} : DParams := dp_new.

Section M.
Variable m : Libm.
Hypothesis A : accurate m.
Local Notation B := (ArithB64 m).
Local Notation qB := (@q_n0i B DB).
Local Notation qR := (@q_n0i ArithR DB).
Lemma dD0R : @D0 ArithR = ref_density RD.
Proof. unfold D0, ref_density. change (@fdiv ArithR) with Rdiv. change (@flit ArithR) with Rlit. unfold RD, T0, RDETAIL. change (@flit ArithR) with Rlit. cbn. field. Qed.
Lemma daD0 : ap 9 (-7) (-4) (@D0 B) (ref_density RD) (ref_density RD).
Proof.
  unfold D0. cbn [fdiv flit ArithB64].
  assert (ap 1 3 4 (@RDETAIL B) RD RD) as Q by (exact (aR m)).
  assert (ap 1 8 9 (blit (L 29815 (-2))) T0 T0) as Q2 by (eapply ap_eq; [apply (ap_inok (L 29815 (-2)) 8 9); [reflexivity|zc]|reflexivity|reflexivity]).
  assert (ap 1 6 7 (blit (L 101325 (-3))) (101325 / 1000) (101325 / 1000)) as Q1 by (eapply ap_eq; [apply (ap_inok (L 101325 (-3)) 6 7); [reflexivity|zc]|reflexivity|reflexivity]).
  eapply ap_eq; [eapply ap_weak; [eapply ap_div; [eapply ap_div; [exact Q1|exact Q|unfold RD; lra|zc|zc|zc|zc]|exact Q2|unfold T0; lra|zc|zc|zc|zc]|zc|zc|zc]| |];
  unfold ref_density; field; unfold T0, RD; lra.
Qed.
Lemma dD0_pos : 0 < ref_density RD. Proof. unfold ref_density, RD, T0. lra. Qed.
Lemma dalnD0 : ap 18 0 3 (lm_ln m (@D0 B)) (ln (ref_density RD)) (lsize (ref_density RD)).
Proof. exact (aln m A 9 (-7) (-4) _ _ 7 3 daD0 dD0_pos ltac:(zc) ltac:(lia) ltac:(lia) ltac:(lia) ltac:(lia) ltac:(lia)). Qed.
Lemma dn0_chk : forallb (fun e => lit_in (-8) 17 (snd e)) D_setup_n0i = true. Proof. vm_compute. reflexivity. Qed.
Lemma daig i j : (i < 21)%nat -> (j < 7)%nat -> ap 1 (-8) 17 (@aval B D_setup_n0i i j (@f0 B)) (ig i j) (Rabs (ig i j)).
Proof.
  intros Hi Hj. destruct (aval_lit D_setup_n0i (lit_in (-8) 17) i j dn0_chk eq_refl) as (v & Hv & E).
  pose proof (E ArithR) as ER. rewrite cell_aval, d_cell in ER by lia. rewrite (E B), ER. exact (ap_lit v (-8) 17 Hv ltac:(zc)).
Qed.
Lemma dan i j : (i < 21)%nat -> (3 <= j < 7)%nat -> ap 9 (-9) 18 (qB i j) (qR i j) (Rabs (ig i j)).
Proof.
  intros Hi Hj. assert (E : qR i j = ig i j) by exact (dq_hi i j Hi Hj). rewrite E. change (qB i j) with (@Dn0i B i j). unfold Dn0i. cbv zeta.
  replace (Nat.eqb j 2) with false by (symmetry; apply Nat.eqb_neq; lia).
  replace (Nat.eqb j 0) with false by (symmetry; apply Nat.eqb_neq; lia).
  eapply ap_weak; [apply (daig i j); lia|zc|zc|zc].
Qed.
Lemma dan0 i : (i < 21)%nat -> ap 20 (-9) 19 (qB i 0%nat) (qR i 0%nat) (Rabs (ig i 0) + lsize (ref_density RD)).
Proof.
  intros Hi. assert (E : qR i 0%nat = ig i 0 - ln (ref_density RD)) by (rewrite <- dD0R; exact (dq_0 i Hi)). rewrite E. change (qB i 0%nat) with (@Dn0i B i 0). unfold Dn0i. cbn [Nat.eqb fsub fln ArithB64].
  eapply ap_weak; [eapply apS; [apply (daig i 0); lia|exact dalnD0|zc|zc|zc]|zc|zc|zc].
Qed.
Lemma dan1 i : (i < 21)%nat -> ap 1 (-8) 17 (qB i 1%nat) (qR i 1%nat) (Rabs (ig i 1)).
Proof.
  intros Hi. assert (E : qR i 1%nat = ig i 1) by exact (dq_1 i Hi). rewrite E. exact (daig i 1 Hi ltac:(lia)).
Qed.
Lemma dan2 i : (i < 21)%nat -> ap 11 (-9) 19 (qB i 2%nat) (qR i 2%nat) (Rabs (ig i 2) + 1).
Proof.
  intros Hi. assert (E : qR i 2%nat = ig i 2 - 1) by exact (dq_2 i Hi). rewrite E. change (qB i 2%nat) with (@Dn0i B i 2). unfold Dn0i. cbn [Nat.eqb fsub ArithB64].
  eapply ap_weak; [eapply apS; [apply (daig i 2); lia|exact (a1 m)|zc|zc|zc]|zc|zc|zc].
Qed.
(* hyperbolic terms *)
Variable T : b64.
Hypothesis HT : fin T /\ p2 5 <= bR T <= p2 11.
Local Notation t := (bR T).
Section H.
Variables (th : lit).
Hypothesis Hth : lit_in 7 12 th = true.
Hypothesis Hp : 0 < Rlit th.
Local Notation y := (Rlit th / t).
Local Notation yB := (bdiv (blit th) T).
Variables (nB : b64) (nR Mn : R).
Hypothesis Hn : ap 9 (-9) 18 nB nR Mn.
Variables (gB hB : b64) (g h : R).
Hypothesis Hg : ap 9044 (-6) 256 gB g g.
Hypothesis Hh : ap 9044 (-6) 256 hB h h.
Hypothesis h0 : 0 < h.
Lemma dhfr : ap 18200 (-320) 320 (bmul nB (bsub (lm_ln m (Babs hB)) (bdiv (bmul yB gB) hB))) (nR * (ln h - y * g / h)) (Mn * (lsize h + y * g / h)).
Proof.
  eapply ap_weak; [eapply ap_mul; [exact Hn|eapply apS; [
    exact (aln m A 9044 (-6) 256 _ _ 256 9 (ap_abs _ _ _ _ _ Hh h0 ltac:(zc)) h0 ltac:(zc) ltac:(lia) ltac:(lia) ltac:(lia) ltac:(lia) ltac:(lia))|
    eapply ap_div; [eapply ap_mul; [exact (ay T HT th Hth Hp)|exact Hg|zc|zc|zc|zc]|exact Hh|exact h0|zc|zc|zc|zc]|zc|zc|zc]|zc|zc|zc|zc]|zc|zc|zc].
Qed.
Lemma dhsq : ap 18200 (-550) 50 (bmul nB (lm_powi m (bdiv yB hB) 2)) (nR * (y / h) ^ 2) (Mn * (y / h) ^ 2).
Proof.
  assert (ap 9051 (-260) 13 (bdiv yB hB) (y / h) (y / h)) as Q.
  { eapply ap_weak; [eapply ap_div; [exact (ay T HT th Hth Hp)|exact Hh|exact h0|zc|zc|zc|zc]|zc|zc|zc]. }
  assert (rng (-520) 26 ((y / h) ^ 2)) as R2.
  { replace ((y / h) ^ 2) with (y / h * (y / h)) by ring. eapply rng_weak; [eapply rng_mul; [apply Q|apply Q]|lia|lia]. }
  assert (0 <= y / h) as Y0 by exact (rng_ge0 _ _ _ (proj2 (proj2 (proj2 Q)))).
  pose proof (ap_powi m A 2 _ _ _ _ _ 18104 (-520) 26 ltac:(lia) Q Y0 ltac:(zc) ltac:(lia) ltac:(zc) R2 ltac:(lia) ltac:(lia)) as Q2.
  eapply ap_weak; [eapply ap_mul; [exact Hn|exact Q2|zc|zc|zc|zc]|zc|zc|zc].
Qed.
End H.
Lemma dth_chk : forallb (forallb (fun l => lit_in 7 12 l && lnneg l)) D_TH0I = true. Proof. vm_compute. reflexivity. Qed.
Lemma B0lit th c b : lit_in c b th = true -> (-900 <= c)%Z -> (b <= 900)%Z -> 0 < Rlit th -> Bltb (@f0 B) (blit th) = true.
Proof.
  intros H Hc Hb H0. destruct (lit_err th c b H ltac:(zc)) as [F E]. pose proof u_small. pose proof u_pos. rewrite (Rabs_pos_eq (Rlit th)) in E by lra. apply Rabs_le_inv in E.
  rewrite lt_fin by (reflexivity || exact F). apply Rlt_bool_true. change (bR (@f0 B)) with 0. assert (u64 * Rlit th <= 1 / 2 * Rlit th) by (apply Rmult_le_compat_r; lra). lra.
Qed.
Lemma dhstep i j K b v x M : (i < 21)%nat -> (j < 4)%nat -> ap3 K (-550) b v x M -> (18300 <= K <= 100000)%Z -> (330 <= b <= 500)%Z ->
  ap3 (K + 2) (-550) (b + 1) (@hyp_step B DB T i (3 + j) v) (@hyp_step ArithR DB t i (3 + j) x) (fun e => M e + dhyp_size e i j t).
Proof.
  intros Hi Hj P HK Hb. destruct v as [[v0 v1] v2], x as [[x0 x1] x2]. destruct P as (P0 & P1 & P2). cbn [fst snd] in P0, P1, P2.
  pose proof (dan i (3 + j) Hi ltac:(lia)) as Hn.
  assert (Et : @lv2 ArithR D_TH0I i (3 + j) = ig i (7 + j)) by (apply d_th; lia).
  unfold hyp_step. set (n := qB i (3 + j)) in *. set (nR := qR i (3 + j)) in *.
  set (th := nth (3 + j) (nth i D_TH0I []) (L 0 0)).
  change (@lv2 B D_TH0I i (3 + j)) with (blit th). change (@lv2 ArithR D_TH0I i (3 + j)) with (Rlit th) in Et |- *.
  assert (Hq : (lit_in 7 12 th && lnneg th)%bool = true). { unfold th. pose proof dth_chk as G. rewrite forallb_forall in G. destruct (Nat.lt_ge_cases i (length D_TH0I)) as [H1|H1]; [|rewrite (nth_overflow D_TH0I) by exact H1; destruct (3 + j)%nat; reflexivity].
    specialize (G _ (nth_In _ [] H1)). rewrite forallb_forall in G. destruct (Nat.lt_ge_cases (3 + j) (length (nth i D_TH0I []))) as [H2|H2]; [exact (G _ (nth_In _ _ H2))|].
    rewrite nth_overflow by exact H2. reflexivity. }
  apply andb_true_iff in Hq. destruct Hq as [Hq1 Hq2]. apply lnneg_ok in Hq2.
  change (@flt B) with (@Bltb 53 1024). change (@flt ArithR) with Rltb. change (@f0 ArithR) with 0.
  destruct (Rle_lt_or_eq_dec _ _ Hq2) as [Hp|H0].
  - rewrite (B0lit th 7 12 Hq1) by (lia || exact Hp).
    assert (Rltb 0 (Rlit th) = true) as -> by (now apply Rltb_true).
    cbv zeta. cbn [fadd fsub fmul fdiv fneg fexp fln fabs fpowi ArithB64].
    change (@fadd ArithR) with Rplus. change (@fsub ArithR) with Rminus. change (@fmul ArithR) with Rmult. change (@fdiv ArithR) with Rdiv. change (@fexp ArithR) with exp. change (@fln ArithR) with ln. change (@fabs ArithR) with Rabs. change (@fneg ArithR) with Ropp.
    change (@f1 ArithR) with 1. change (@f2 ArithR) with 2.
    pose proof (sh_ge T HT th Hq1 Hp) as (S1 & S2 & S3 & S4 & S5).
    replace (1 / exp (Rlit th / t)) with (/ exp (Rlit th / t)) by (unfold Rdiv; ring). rewrite <- shc, <- chc. rewrite (Rabs_pos_eq (sinh _)), (Rabs_pos_eq (cosh _)) by lra.
    rewrite !(powi_pow _ 2).
    pose proof (ash m A T HT th Hq1 Hp) as Hs. pose proof (ap_weak _ _ _ 9044 (-6) 256 _ _ _ (ach m A T HT th Hq1 Hp) ltac:(lia) ltac:(lia) ltac:(lia)) as Hc.
    assert (forall e, dhyp_size e i j t = Rabs (ig i (3 + j)) * (if Nat.even j then match e with 0%nat => lsize (sinh (Rlit th / t)) | 1%nat => lsize (sinh (Rlit th / t)) + Rlit th / t * cosh (Rlit th / t) / sinh (Rlit th / t) | _ => (Rlit th / t / sinh (Rlit th / t)) ^ 2 end
       else match e with 0%nat => lsize (cosh (Rlit th / t)) | 1%nat => lsize (cosh (Rlit th / t)) + Rlit th / t * sinh (Rlit th / t) / cosh (Rlit th / t) | _ => (Rlit th / t / cosh (Rlit th / t)) ^ 2 end)) as HE.
    { intros e. unfold dhyp_size. rewrite <- Et. cbv zeta. unfold hyp. rewrite Nat.even_succ, <- Nat.negb_even. destruct (Nat.even j); reflexivity. }
    replace (Nat.eqb (3 + j) 3 || Nat.eqb (3 + j) 5)%bool with (Nat.even j) by (do 4 (destruct j as [|j]; [reflexivity|]); lia).
    pose proof (ap_neg _ _ _ _ _ _ Hn) as Hm.
    destruct (Nat.even j); (split; [|split]); rewrite HE; cbn [fst snd].
    + eapply ap_weak; [eapply apA; [exact P0|exact (hln m A n nR _ Hn _ _ Hs S3)|zc|zc|zc]|lia|lia|lia].
    + eapply ap_weak; [eapply apA; [exact P1|exact (dhfr th Hq1 Hp n nR _ Hn _ _ _ _ Hc Hs S3)|zc|zc|zc]|lia|lia|lia].
    + eapply ap_weak; [eapply apA; [exact P2|exact (dhsq th Hq1 Hp n nR _ Hn _ _ Hs S3)|zc|zc|zc]|lia|lia|lia].
    + eapply ap_weak; [eapply apA; [exact P0|exact (hln m A _ _ _ Hm _ _ Hc S4)|zc|zc|zc]|lia|lia|lia].
    + eapply ap_weak; [eapply apA; [exact P1|exact (dhfr th Hq1 Hp _ _ _ Hm _ _ _ _ Hs Hc S4)|zc|zc|zc]|lia|lia|lia].
    + eapply ap_weak; [eapply apA; [exact P2|exact (dhsq th Hq1 Hp n nR _ Hn _ _ Hc S4)|zc|zc|zc]|lia|lia|lia].
  - assert (Hz : forall e, dhyp_size e i j t = 0).
    { intros e. destruct (th_cases i j Hi Hj) as [G|[_ G]]; [lra|]. unfold dhyp_size. rewrite G, Rabs_R0. ring. }
    assert (Rltb 0 (Rlit th) = false) as -> by (apply Rltb_false; lra).
    assert (Bltb (@f0 B) (blit th) = false) as ->.
    { destruct (lit_err th 7 12 Hq1 ltac:(zc)) as [F E]. rewrite <- H0, Rabs_R0, Rmult_0_r in E. rewrite lt_fin by (reflexivity || exact F). apply Rlt_bool_false.
      pose proof (Rabs_pos (bR (blit th) - 0)). assert (Rabs (bR (blit th) - 0) = 0) as E0 by lra. destruct (Req_dec (bR (blit th) - 0) 0) as [E1|E1]; [|apply Rabs_no_R0 in E1; lra].
      change (bR (@f0 B)) with 0. lra. }
    apply (ap3_ext _ _ _ _ _ M); [intros e _; rewrite Hz; ring|].
    split; [|split]; cbn [fst snd]; (eapply ap_weak; [eassumption|lia|lia|lia]).
Qed.
Lemma dahyp i : (i < 21)%nat -> ap3 18308 (-550) 334 (@phyp B DB T i) (@phyp ArithR DB t i) (fun e => tot 4 (fun j => dhyp_size e i j t)).
Proof.
  intros Hi. unfold phyp. cbn [seq fold_left].
  assert (P0 : ap3 18300 (-550) 330 (@f0 B, @f0 B, @f0 B) (@f0 ArithR, @f0 ArithR, @f0 ArithR) (fun _ => 0)).
  { assert (ap 18300 (-550) 330 (@f0 B) (@f0 ArithR) 0) by (eapply ap_weak; [apply (ap_0 (-550) 330)|lia|lia|lia]). split; [|split]; assumption. }
  pose proof (dhstep i 0 _ _ _ _ _ Hi ltac:(lia) P0 ltac:(lia) ltac:(lia)) as P1.
  pose proof (dhstep i 1 _ _ _ _ _ Hi ltac:(lia) P1 ltac:(lia) ltac:(lia)) as P2.
  pose proof (dhstep i 2 _ _ _ _ _ Hi ltac:(lia) P2 ltac:(lia) ltac:(lia)) as P3.
  pose proof (dhstep i 3 _ _ _ _ _ Hi ltac:(lia) P3 ltac:(lia) ltac:(lia)) as P4.
  eapply ap3_ext; [|exact P4]. intros e _. reflexivity.
Qed.
Variable X : nat -> b64.
Hypothesis HX : forall i, (i < 21)%nat -> fin (X i) /\ rng (-50) 1 (bR (X i)).
Variable d : b64.
Hypothesis Hd : fin d /\ p2 (-20) <= bR d <= p2 10.
Lemma dd_gt : 0 < bR d. Proof. destruct Hd as [_ [H _]]. pose proof (bpow_gt_0 radix2 (-20)). lra. Qed.
Lemma dalnd : ap 9 0 5 (@plogd B d) (@plogd ArithR (bR d)) (lsize (bR d)).
Proof.
  pose proof dd_gt as D0. destruct Hd as [Fd [H1 H2]]. change (p2 (-20)) with (/ 1048576) in H1.
  unfold plogd. change (@EPSILON B) with (blit (L 1 (-15))). change (@flt B) with (@Bltb 53 1024). change (@flt ArithR) with Rltb.
  assert (Rltb (@EPSILON ArithR) (bR d) = true) as -> by (apply Rltb_true; rewrite lit15; lra).
  assert (Bltb (blit (L 1 (-15))) d = true) as ->.
  { destruct (lit_err (L 1 (-15)) (-50) (-49) eq_refl ltac:(zc)) as [L1 L2].
    change (Rlit (L 1 (-15))) with (@EPSILON ArithR) in L2; rewrite lit15 in L2. rewrite (Rabs_pos_eq (1 / 1000000000000000)) in L2 by lra. apply Rabs_le_inv in L2.
    pose proof u_small. rewrite lt_fin by assumption. apply Rlt_bool_true. lra. }
  cbn [fln ArithB64]. change (@fln ArithR) with ln.
  assert (ap 0 (-20) 10 d (bR d) (bR d)) as P.
  { eapply ap_eq; [apply ap_exact; [exact Fd|]|reflexivity|]; rewrite Rabs_pos_eq by lra; [right; apply Hd|reflexivity]. }
  exact (aln m A 0 (-20) 10 _ _ 20 5 P D0 ltac:(zc) ltac:(lia) ltac:(lia) ltac:(lia) ltac:(lia) ltac:(lia)).
Qed.
Lemma dastep i K b v x M : (i < 21)%nat -> ap3 K (-700) b v x M -> (18400 <= K <= 100000)%Z -> (350 <= b <= 500)%Z ->
  ap3 (K + 2) (-700) (b + 1) (@a0_step B DB X T d i v) (@a0_step ArithR DB (fun i => bR (X i)) t (bR d) i x)
    (fun e => M e + bR (X i) * dideal_size e i (bR (X i)) t (bR d)).
Proof.
  intros Hi P HK Hb. destruct v as [[v0 v1] v2], x as [[x0 x1] x2]. destruct P as (P0 & P1 & P2). cbn [fst snd] in P0, P1, P2.
  unfold a0_step, pos. change (@flt B) with (@Bltb 53 1024). change (@flt ArithR) with Rltb. change (@f0 ArithR) with 0. destruct (HX i Hi) as [FX RX].
  assert (Bltb (@f0 B) (X i) = Rltb 0 (bR (X i))) as ->.
  { rewrite lt_fin by (reflexivity || exact FX). change (bR (@f0 B)) with 0. destruct (Rltb 0 (bR (X i))) eqn:E; [apply Rlt_bool_true; now apply Rltb_true in E|apply Rlt_bool_false; now apply Rltb_false in E]. }
  destruct (Rltb 0 (bR (X i))) eqn:Ea.
  2: { assert (Z : bR (X i) = 0) by (apply Rltb_false in Ea; pose proof (rng_ge0 _ _ _ RX); lra). rewrite Z. apply (ap3_ext _ _ _ _ _ M); [intros e _; ring|].
       split; [|split]; cbn [fst snd]; (eapply ap_weak; [eassumption|lia|lia|lia]). }
  apply Rltb_true in Ea. rename Ea into Xp.
  assert (aX : ap 0 (-50) 1 (X i) (bR (X i)) (bR (X i))).
  { eapply ap_eq; [apply ap_exact; [exact FX|]|reflexivity|]; rewrite Rabs_pos_eq by lra; [exact RX|reflexivity]. }
  pose proof (aln m A 0 (-50) 1 _ _ 50 6 aX Xp ltac:(zc) ltac:(lia) ltac:(lia) ltac:(lia) ltac:(lia) ltac:(lia)) as aLX.
  pose proof (at_ T HT) as aT. pose proof (t_gt T HT) as T0.
  pose proof (aln m A 0 5 11 _ _ 11 4 aT T0 ltac:(zc) ltac:(lia) ltac:(lia) ltac:(lia) ltac:(lia) ltac:(lia)) as aLT.
  pose proof dalnd as aLD. pose proof (dan0 i Hi) as N1. pose proof (dan1 i Hi) as N2. pose proof (dan2 i Hi) as N3.
  pose proof (dahyp i Hi) as Hh. destruct (@phyp B DB T i) as [[h0 h1] h2]. destruct (@phyp ArithR DB t i) as [[y0 y1] y2].
  destruct Hh as (Q0 & Q1 & Q2). cbn [fst snd] in Q0, Q1, Q2.
  assert (N2t : ap 16 (-20) 15 (bdiv (qB i 1%nat) T) (qR i 1%nat / t) (Rabs (ig i 1) / t)).
  { eapply ap_weak; [eapply ap_div; [exact N2|exact aT|exact T0|zc|zc|zc|zc]|zc|zc|zc]. }
  cbv zeta. cbn [fadd fsub fmul fdiv fneg fln ArithB64].
  change (@fadd ArithR) with Rplus. change (@fsub ArithR) with Rminus. change (@fmul ArithR) with Rmult. change (@fdiv ArithR) with Rdiv. change (@fneg ArithR) with Ropp. change (@fln ArithR) with ln. change (@f1 ArithR) with 1.
  split; [|split]; cbn [fst snd dideal_size]; cbv zeta.
  - eapply ap_weak; [eapply apA; [exact P0|eapply ap_mul; [exact aX|eapply apA; [eapply apS; [eapply apA; [eapply apA; [eapply apA; [exact aLD|exact aLX|zc|zc|zc]|exact N1|zc|zc|zc]|exact N2t|zc|zc|zc]|
      eapply ap_mul; [exact N3|exact aLT|zc|zc|zc|zc]|zc|zc|zc]|exact Q0|zc|zc|zc]|zc|zc|zc|zc]|zc|zc|zc]|lia|lia|lia].
  - eapply ap_weak; [eapply apA; [exact P1|eapply ap_mul; [exact aX|eapply apA; [eapply apS; [eapply apA; [eapply apA; [exact aLD|exact aLX|zc|zc|zc]|exact N1|zc|zc|zc]|
      eapply ap_mul; [exact N3|eapply apA; [exact (a1 m)|exact aLT|zc|zc|zc]|zc|zc|zc|zc]|zc|zc|zc]|exact Q1|zc|zc|zc]|zc|zc|zc|zc]|zc|zc|zc]|lia|lia|lia].
  - eapply ap_weak; [eapply apA; [exact P2|eapply ap_mul; [apply ap_neg; exact aX|eapply apA; [exact N3|exact Q2|zc|zc|zc]|zc|zc|zc|zc]|zc|zc|zc]|lia|lia|lia].
Qed.
Lemma dafold l : forall K b v x M, (forall i, In i l -> (i < 21)%nat) -> ap3 K (-700) b v x M -> (18400 <= K)%Z -> (350 <= b)%Z ->
  (K + 2 * Z.of_nat (length l) <= 100000)%Z -> (b + Z.of_nat (length l) <= 500)%Z ->
  ap3 (K + 2 * Z.of_nat (length l)) (-700) (b + Z.of_nat (length l)) (fold_left (fun st i => @a0_step B DB X T d i st) l v)
    (fold_left (fun st i => @a0_step ArithR DB (fun i => bR (X i)) t (bR d) i st) l x)
    (fun e => M e + rsum (fun i => bR (X i) * dideal_size e i (bR (X i)) t (bR d)) l).
Proof.
  induction l as [|i l IH]; intros K b v x M Hl P HK Hb HK' Hb'.
  - cbn [fold_left length]. apply (ap3_ext _ _ _ _ _ M); [intros e _; unfold rsum; cbn; ring|]. rewrite !Z.add_0_r. exact P.
  - cbn [fold_left length] in *. rewrite Nat2Z.inj_succ in *. pose proof (Hl i (or_introl eq_refl)) as Hi.
    pose proof (dastep i K b v x M ltac:(lia) P ltac:(lia) ltac:(lia)) as Q.
    pose proof (IH _ _ _ _ _ (fun j Hj => Hl j (or_intror Hj)) Q ltac:(lia) ltac:(lia) ltac:(lia) ltac:(lia)) as R.
    replace (K + 2 * Z.succ (Z.of_nat (length l)))%Z with (K + 2 + 2 * Z.of_nat (length l))%Z by lia.
    replace (b + Z.succ (Z.of_nat (length l)))%Z with (b + 1 + Z.of_nat (length l))%Z by lia.
    eapply ap3_ext; [|exact R]. intros e _. cbv beta. rewrite rsum_cons. apply Rplus_assoc.
Qed.
(* the three entries: times RT, R, R *)
Lemma dpa0 : let a e := @xf B (@pa0 B DB X T d) e in let r e := @xf ArithR (@pa0 ArithR DB (fun i => bR (X i)) t (bR d)) e in
  ap 18500 (-700) 390 (a 0%nat) (r 0%nat) (RD * t * dideal_sum 0 (fun i => bR (X i)) t (bR d)) /\
  ap 18500 (-700) 390 (a 1%nat) (r 1%nat) (RD * dideal_sum 1 (fun i => bR (X i)) t (bR d)) /\
  ap 18500 (-700) 390 (a 2%nat) (r 2%nat) (RD * dideal_sum 2 (fun i => bR (X i)) t (bR d)).
Proof.
  assert (P0 : ap3 18400 (-700) 350 (@f0 B, @f0 B, @f0 B) (@f0 ArithR, @f0 ArithR, @f0 ArithR) (fun _ => 0)).
  { assert (ap 18400 (-700) 350 (@f0 B) (@f0 ArithR) 0) by (eapply ap_weak; [apply (ap_0 (-700) 350)|lia|lia|lia]). split; [|split]; assumption. }
  pose proof (dafold (seq 0 21) _ _ _ _ _ ltac:(intros i Hi; apply in_seq in Hi; lia) P0 ltac:(lia) ltac:(lia) ltac:(cbn; lia) ltac:(cbn; lia)) as Q.
  assert (E : forall e, 0 + rsum (fun i => bR (X i) * dideal_size e i (bR (X i)) t (bR d)) (seq 0 21) = dideal_sum e (fun i => bR (X i)) t (bR d)).
  { intros e. rewrite Rplus_0_l, <- sum_rsum. reflexivity. }
  cbv zeta. unfold pa0, pa0sum.
  set (fb := fold_left _ _ (@f0 B, @f0 B, @f0 B)) in *. set (fr := fold_left _ _ (@f0 ArithR, @f0 ArithR, @f0 ArithR)) in *. clearbody fb fr.
  destruct fb as [[b0 b1] b2], fr as [[r0 r1] r2]. destruct Q as (Q0 & Q1 & Q2). cbn [fst snd] in Q0, Q1, Q2. cbv beta in Q0, Q1, Q2. rewrite E in Q0, Q1, Q2.
  change (18400 + 2 * Z.of_nat (length (seq 0 21)))%Z with 18442%Z in *. change (350 + Z.of_nat (length (seq 0 21)))%Z with 371%Z in *.
  pose proof (aR m) as aR. change (831451 / 100000) with RD in aR. pose proof (at_ T HT) as aT. change (@RDETAIL ArithR) with RD.
  cbn [xf nth fmul ArithB64]. change (@fmul ArithR) with Rmult. unfold xf. cbn [nth].
  split; [|split].
  - eapply ap_eq; [eapply ap_weak; [eapply ap_mul; [eapply ap_mul; [exact Q0|exact aR|zc|zc|zc|zc]|exact aT|zc|zc|zc|zc]|zc|zc|zc]|reflexivity|ring].
  - eapply ap_eq; [eapply ap_weak; [eapply ap_mul; [exact Q1|exact aR|zc|zc|zc|zc]|zc|zc|zc]|reflexivity|ring].
  - eapply ap_eq; [eapply ap_weak; [eapply ap_mul; [exact Q2|exact aR|zc|zc|zc|zc]|zc|zc|zc]|reflexivity|ring].
Qed.
End M.
