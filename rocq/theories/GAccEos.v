(* Error analysis of the GERG pressure in double precision. *)
From Coq Require Import Reals ZArith List Bool Lra Lia Psatz.
From Flocq Require Import Core BinarySingleNaN.
From Interval Require Import Tactic.
From Verif Require Import FArith Prelude Tab ArithB64 B64Lemmas ArithR RSum SpecDetail SpecGerg SpecAcc DetailPure GergTables GergModel GergPure GergRefine GergEval Api ApiSafe BasicProofs HistoryGerg SpecReal Thermo DetailReal DetailThermo GergReal GergIdeal GergThermo
  DetailEos GergEos B64Err AccFold AccMix AccEos GAccRed GAccTerms.
Import ListNotations.
Local Open Scope R_scope.
Local Existing Instance gp_new.

Lemma exp245 y : 0 <= y <= 245 -> rng (-354) 0 (exp (- y)).
Proof.
  intros H. assert (EM : forall u v, u <= v -> exp u <= exp v).
  { intros u v [L| ->]; [left; now apply exp_increasing|right; reflexivity]. }
  right. rewrite !p2_Rpower. split; apply EM; [|lra]. assert (0.6925 <= ln 2) by interval. lra.
Qed.
Lemma exp_rng y : Rabs y <= 100 -> rng (-150) 150 (exp y).
Proof.
  intros H. apply Rabs_le_inv in H. assert (EM : forall u v, u <= v -> exp u <= exp v).
  { intros u v [L| ->]; [left; now apply exp_increasing|right; reflexivity]. }
  right. rewrite !p2_Rpower. assert (0.6925 <= ln 2) by interval. split; apply EM; lra.
Qed.
Section M.
Variable m : Libm.
Hypothesis A : accurate m.
Local Notation B := (ArithB64 m).
Variable X : nat -> b64.
Hypothesis HX : forall i, (1 <= i < 22)%nat -> fin (X i) /\ rng (-49) 1 (bR (X i)).
Local Notation Y := (fun i => bR (X i)).
Hypothesis Hs : 99 / 100 <= sumf 0 21 Y <= 101 / 100.
(* powers of tau for the temperature T, evaluation at T2 *)
Variables T T2 d : b64.
Hypothesis HT : fin T /\ p2 5 <= bR T <= p2 11.
Hypothesis HT2 : fin T2 /\ p2 5 <= bR T2 <= p2 11.
Hypothesis Hd : fin d /\ (bR d = 0 \/ p2 (-20) <= bR d).
Local Notation dB := (bdiv d (@gdr B gp_new X)).
Local Notation dR := (bR d / @gdr ArithR gp_new Y).
Hypothesis HD : dR <= 5 / 2.
Local Notation lB T := (lm_ln m (bdiv (@gtr B gp_new X) T)).
Local Notation lR T := (ln (@gtr ArithR gp_new Y / bR T)).

Lemma d_ge : 0 <= bR d. Proof. destruct Hd as [_ [->|H]]; [lra|]. eapply Rle_trans; [apply Rlt_le, bpow_gt_0|exact H]. Qed.
Lemma d_rg : rng (-20) 10 (bR d).
Proof.
  destruct Hd as [_ [E|E]]; [now left|right]. split; [exact E|]. pose proof HD as H.
  destruct (rng_pos _ _ _ (proj2 (proj2 (proj2 (adr m A X HX Hs)))) (Rgt_not_eq _ _ (dr_pos m A X HX Hs))) as [_ L].
  pose proof (dr_pos m A X HX Hs) as Dp. change (p2 8) with 256 in L. change (p2 10) with 1024.
  assert (bR d = dR * @gdr ArithR gp_new Y) as -> by (field; lra). nra.
Qed.
Lemma ad_ : ap 0 (-20) 10 d (bR d) (bR d).
Proof.
  eapply ap_eq; [apply ap_exact; [apply Hd|]|reflexivity|]; rewrite Rabs_pos_eq by exact d_ge; [exact d_rg|reflexivity].
Qed.
Lemma dR_rng : rng (-28) 2 dR.
Proof.
  pose proof (dr_pos m A X HX Hs) as Dp. destruct (rng_pos _ _ _ (proj2 (proj2 (proj2 (adr m A X HX Hs)))) (Rgt_not_eq _ _ Dp)) as [_ L].
  destruct Hd as [_ [E|E]]; [left; rewrite E; unfold Rdiv; apply Rmult_0_l|right]. split; [|change (p2 2) with 4; lra].
  apply Rmult_le_reg_r with (@gdr ArithR gp_new Y); [exact Dp|]. unfold Rdiv. rewrite Rmult_assoc, Rinv_l by lra. rewrite Rmult_1_r.
  apply Rle_trans with (p2 (-28) * p2 8); [apply Rmult_le_compat_l; [apply bpow_ge_0|exact L]|]. rewrite <- bpow_plus. exact E.
Qed.
Lemma dR_ge0 : 0 <= dR. Proof. exact (rng_ge0 _ _ _ dR_rng). Qed.
Lemma adel : ap 507 (-28) 2 dB dR dR.
Proof.
  eapply ap_rng; [|exact dR_rng]. change 507%Z with (0 + 504 + 3)%Z.
  eapply ap_div; [exact ad_|exact (adr m A X HX Hs)|exact (dr_pos m A X HX Hs)|zc|zc|zc|zc].
Qed.
Lemma adp n : (1 <= n <= 7)%nat -> ap (510 * Z.of_nat n - 3) (-28 * Z.of_nat n) (2 * Z.of_nat n) (@gdelp B dB n) (@gdelp ArithR dR n) (dR ^ n).
Proof.
  intros Hn. rewrite gdelp_pow by lia. destruct n as [|n]; [lia|]. induction n as [|n IH].
  - cbn [gdelp]. eapply ap_eq; [eapply ap_weak; [exact adel|zc|zc|zc]|symmetry; apply pow_1|symmetry; apply pow_1].
  - specialize (IH ltac:(lia)). change (@gdelp B dB (S (S n))) with (bmul (@gdelp B dB (S n)) dB).
    eapply ap_eq; [eapply ap_weak; [eapply ap_mul; [exact IH|exact adel|zc|zc|zc|zc]|lia|lia|lia]|cbn [pow]; ring|cbn [pow]; ring].
Qed.
Lemma adp7 n : (1 <= n <= 7)%nat -> ap 3567 (-196) 14 (@gdelp B dB n) (@gdelp ArithR dR n) (dR ^ n).
Proof. intros H. eapply ap_weak; [now apply adp|lia|lia|lia]. Qed.
Lemma dpow_le n : (n <= 6)%nat -> 0 <= dR ^ n <= 245.
Proof.
  intros Hn. pose proof dR_ge0. split; [now apply pow_le|]. apply Rle_trans with ((5/2) ^ n); [apply pow_incr; lra|].
  apply Rle_trans with ((5/2) ^ 6); [apply Rle_pow; [lra|exact Hn]|lra].
Qed.
Lemma aexpd n : (1 <= n <= 6)%nat -> ap 748975 (-354) 0 (@gexpd B dB n) (@gexpd ArithR dR n) (exp (- dR ^ n)).
Proof.
  intros Hn. rewrite gexpd_exp by lia. pose proof (adp n ltac:(lia)) as Q. rewrite gdelp_pow in Q by lia. pose proof (dpow_le n ltac:(lia)) as HP.
  assert (@gexpd B dB n = lm_exp m (Bopp (@gdelp B dB n))) as -> by (destruct n; [lia|reflexivity]).
  apply ap_neg in Q. change 748975%Z with (748965 + 10)%Z. eapply (ap_exp m A).
  - exact (ap_fin _ _ _ _ _ _ Q).
  - destruct Q as (_ & E & _). eapply Rle_trans; [exact E|]. apply Rle_trans with (IZR 3057 * u64 * 245).
    + apply Rmult_le_compat; [apply Rmult_le_pos; [apply IZR_le; lia|apply Rlt_le, u_pos]|apply HP| |apply HP].
      apply Rmult_le_compat_r; [apply Rlt_le, u_pos|]. apply IZR_le. lia.
    + right. ring.
  - zc.
  - rewrite Rabs_Ropp, Rabs_pos_eq; lra.
  - apply exp245, HP.
Qed.
(* pure terms *)
Local Notation TPB := (@tpow B gp_new (lB T)).
Local Notation TPR := (@tpow ArithR gp_new (lR T)).
Local Notation TMB := (@tmow B gp_new (lB T)).
Local Notation TMR := (@tmow ArithR gp_new (lR T)).
Local Notation doik := (nv2 G_DOIK). Local Notation coik := (nv2 G_COIK). Local Notation dijk := (nv2 G_DIJK).
Definition aTPM i k := Rabs (@lv2 ArithR G_NOIK i k) * exp (@q_toik ArithR gp_new (if short_form i then 5 else i)%nat k * lR T).
Definition aTMM mm k := Rabs (@q_nijk ArithR gp_new mm k) * exp (@q_tijk ArithR gp_new mm k * lR T).
Definition MP i k := bR (X i) * dR ^ doik i k * aTPM i k * INR (doik i k).
Definition ME i k := bR (X i) * dR ^ doik i k * aTPM i k * exp (- dR ^ coik i k) * (INR (doik i k) + INR (coik i k) * dR ^ coik i k).
Lemma inat n : (n < 8)%nat -> ap 1 0 3 (bofZ (Z.of_nat n)) (INR n) (INR n).
Proof.
  intros H. eapply ap_rng; [apply anat; lia|]. destruct n as [|n]; [now left|right]. split.
  - change (p2 0) with (INR 1). apply le_INR. lia.
  - change (p2 3) with 8. replace 8 with (INR 8) by (cbn; lra). apply le_INR. lia.
Qed.
Lemma anp i k : (1 <= i < 22)%nat -> (1 <= k <= kpol i + kexp i)%nat ->
  ap 22682 (-618) 258 (bmul (bmul (X i) (@gdelp B dB (doik i k))) (TPB i k)) (bR (X i) * @gdelp ArithR dR (doik i k) * TPR i k) (bR (X i) * dR ^ doik i k * aTPM i k).
Proof.
  intros Hi Hk. destruct (prow_at i k Hi Hk) as (_ & _ & H3 & _).
  eapply ap_weak; [eapply ap_mul; [eapply ap_mul; [exact (aX X HX i Hi)|apply adp7; exact H3|zc|zc|zc|zc]|exact (aTP m A X HX Hs T HT i k Hi Hk)|zc|zc|zc|zc]|zc|zc|zc].
Qed.
Lemma aP i k : (1 <= i < 22)%nat -> (1 <= k <= kpol i)%nat -> ap 774726 (-972) 400 (@pterm B gp_new X dB TPB i k 1%nat) (@pterm ArithR gp_new Y dR TPR i k 1%nat) (MP i k).
Proof.
  intros Hi Hk. destruct (prow_at i k Hi ltac:(lia)) as (_ & _ & H3 & _). unfold pterm, pol_c, MP. cbn [fmul fofnat ArithB64 q_doik gp_new].
  eapply ap_weak; [eapply ap_mul; [apply anp; lia|apply inat; lia|zc|zc|zc|zc]|zc|zc|zc].
Qed.
Lemma aE i k : (1 <= i < 22)%nat -> (kpol i < k <= kpol i + kexp i)%nat -> ap 774726 (-972) 400 (@eterm B gp_new X dB TPB i k 1%nat) (@eterm ArithR gp_new Y dR TPR i k 1%nat) (ME i k).
Proof.
  intros Hi Hk. destruct (prow_at i k Hi ltac:(lia)) as (_ & _ & H3 & H4 & H5). specialize (H5 ltac:(lia)). unfold eterm, exp_c, ME. cbv zeta. cbn [fmul fsub fofnat ArithB64 q_doik q_coik gp_new].
  assert (ap 3061 (-168) 15 (bmul (bofZ (Z.of_nat (coik i k))) (@gdelp B dB (coik i k))) (INR (coik i k) * @gdelp ArithR dR (coik i k)) (INR (coik i k) * dR ^ coik i k)) as Q1.
  { assert (ap 3057 (-168) 12 (@gdelp B dB (coik i k)) (@gdelp ArithR dR (coik i k)) (dR ^ coik i k)) as Q.
    { eapply ap_weak; [apply adp; lia|lia|lia|lia]. }
    eapply ap_weak; [eapply ap_mul; [apply inat; lia|exact Q|zc|zc|zc|zc]|zc|zc|zc]. }
  assert (ap 3063 0 16 (bsub (bofZ (Z.of_nat (doik i k))) (bmul (bofZ (Z.of_nat (coik i k))) (@gdelp B dB (coik i k))))
     (INR (doik i k) - INR (coik i k) * @gdelp ArithR dR (coik i k)) (INR (doik i k) + INR (coik i k) * dR ^ coik i k)) as Q2.
  { pose proof (inat (doik i k) ltac:(lia)) as Qd. change 3063%Z with (Z.max 1 3061 + 2)%Z. eapply ap_sub; [exact Qd|exact Q1|zc|zc|zc|].
    assert (R4 : rng (-168) 15 (INR (coik i k) * dR ^ coik i k)) by apply Q1. pose proof (rng_ge0 _ _ _ R4). pose proof (rng_le _ _ _ R4).
    right. split.
    - change (p2 0) with (INR 1). pose proof (le_INR 1 (doik i k) ltac:(lia)). lra.
    - assert (INR (doik i k) <= p2 3) by (apply (rng_le 0 3); apply Qd). change (p2 16) with 65536. change (p2 3) with 8 in *. change (p2 15) with 32768 in *. lra. }
  eapply ap_weak; [eapply ap_mul; [eapply ap_mul; [apply anp; lia|apply aexpd; lia|zc|zc|zc|zc]|exact Q2|zc|zc|zc|zc]|zc|zc|zc].
Qed.
(* departure terms *)
Local Notation cc mm k := (@aval ArithR G_setup_cijk mm k (@f0 ArithR)).
Local Notation ee mm k := (@aval ArithR G_setup_eijk mm k (@f0 ArithR)).
Local Notation bb mm k := (@aval ArithR G_setup_bijk mm k (@f0 ArithR)).
Local Notation gg mm k := (@aval ArithR G_setup_gijk mm k (@f0 ArithR)).
Lemma ac_ mm k : ap 1 (-2) 0 (@aval B G_setup_cijk mm k (@f0 B)) (cc mm k) (cc mm k).
Proof. apply ap_aval; [vm_compute; reflexivity|zc]. Qed.
Lemma ae_ mm k : ap 1 (-1) (-1) (@aval B G_setup_eijk mm k (@f0 B)) (ee mm k) (ee mm k).
Proof. apply ap_aval; [vm_compute; reflexivity|zc]. Qed.
Lemma ab_ mm k : ap 1 (-1) 2 (@aval B G_setup_bijk mm k (@f0 B)) (bb mm k) (bb mm k).
Proof. apply ap_aval; [vm_compute; reflexivity|zc]. Qed.
Lemma ag_ mm k : ap 1 (-1) (-1) (@aval B G_setup_gijk mm k (@f0 B)) (gg mm k) (gg mm k).
Proof. apply ap_aval; [vm_compute; reflexivity|zc]. Qed.
Lemma cebg mm k : 0 <= cc mm k <= 1 /\ 0 <= ee mm k <= 1/2 /\ 0 <= bb mm k <= 4 /\ 0 <= gg mm k <= 1/2.
Proof.
  destruct (ac_ mm k) as (_ & _ & _ & R1). destruct (ae_ mm k) as (_ & _ & _ & R2). destruct (ab_ mm k) as (_ & _ & _ & R3). destruct (ag_ mm k) as (_ & _ & _ & R4).
  pose proof (rng_ge0 _ _ _ R1). pose proof (rng_ge0 _ _ _ R2). pose proof (rng_ge0 _ _ _ R3). pose proof (rng_ge0 _ _ _ R4).
  apply rng_le in R1, R2, R3, R4. change (p2 0) with 1 in *. change (p2 (-1)) with (/ 2) in *. change (p2 2) with 4 in *. lra.
Qed.
Definition Mc mm k := cc mm k * dR ^ 2.
Definition Me mm k := (2 * cc mm k * ee mm k + bb mm k) * dR.
Definition Mg mm k := cc mm k * ee mm k ^ 2 + bb mm k * gg mm k.
Lemma gec_in mm k : (1 <= mm)%nat -> (1 <= k)%nat -> ingec mm k = true.
Proof. intros H1 H2. apply andb_true_iff. split; apply Nat.leb_le; lia. Qed.
Lemma acij mm k : (1 <= mm)%nat -> (1 <= k)%nat -> ap 1021 (-58) 4 (bmul (@q_cijk B gp_new mm k) (@gdelp B dB 2)) (@q_cijk ArithR gp_new mm k * @gdelp ArithR dR 2) (Mc mm k).
Proof.
  intros H1 H2. cbn [q_cijk gp_new]. unfold Gcijk. rewrite gec_in by assumption. cbn [fneg ArithB64].
  eapply ap_weak; [eapply ap_mul; [apply ap_neg; apply ac_|exact (adp 2 ltac:(lia))|zc|zc|zc|zc]|zc|zc|zc].
Qed.
Lemma aeij mm k : (1 <= mm)%nat -> (1 <= k)%nat -> ap 521 (-30) 5 (bmul (@q_eijk B gp_new mm k) dB) (@q_eijk ArithR gp_new mm k * dR) (Me mm k).
Proof.
  intros H1 H2. cbn [q_eijk gp_new]. unfold Geijk. rewrite gec_in by assumption. cbn [fsub fmul ArithB64].
  assert (ap 9 (-2) 0 (bmul (bmul (@f2 B) (@aval B G_setup_cijk mm k (@f0 B))) (@aval B G_setup_eijk mm k (@f0 B))) (2 * cc mm k * ee mm k) (2 * cc mm k * ee mm k)) as Q1.
  { eapply ap_weak; [eapply ap_mul; [eapply ap_mul; [exact (a2 m)|apply ac_|zc|zc|zc|zc]|apply ae_|zc|zc|zc|zc]|zc|zc|zc]. }
  eapply ap_weak; [eapply ap_mul; [eapply (ap_sub _ _ _ _ _ _ _ _ _ _ _ _ (-2) 3); [exact Q1|apply ab_|zc|zc|zc|]|exact adel|zc|zc|zc|zc]|zc|zc|zc].
  eapply rng_weak; [eapply rng_add; [apply Q1|apply ab_]|lia|lia].
Qed.
Lemma agij mm k : (1 <= mm)%nat -> (1 <= k)%nat -> ap 20 (-4) 2 (@q_gijk B gp_new mm k) (@q_gijk ArithR gp_new mm k) (Mg mm k).
Proof.
  intros H1 H2. cbn [q_gijk gp_new]. unfold Ggijk. rewrite gec_in by assumption. cbn [fadd fmul fneg fpowi ArithB64].
  assert (Ep : forall y : R, @fpowi ArithR y 2 = y ^ 2) by (intros y; change (powerRZ y 2 = y ^ 2); rewrite powi2; ring). rewrite Ep.
  assert (ap 14 (-2) (-2) (lm_powi m (@aval B G_setup_eijk mm k (@f0 B)) 2) (ee mm k ^ 2) (ee mm k ^ 2)) as Q1.
  { pose proof (rng_pow _ _ _ 2 (proj2 (proj2 (proj2 (ae_ mm k)))) ltac:(lia)) as R2.
    apply (ap_powi m A 2 1 (-1) (-1) (@aval B G_setup_eijk mm k (@f0 B)) (ee mm k) 4 (-2) (-2)); try exact R2; try zc; [apply ae_|apply cebg]. }
  assert (ap 18 (-4) (-2) (bmul (Bopp (@aval B G_setup_cijk mm k (@f0 B))) (lm_powi m (@aval B G_setup_eijk mm k (@f0 B)) 2)) (- cc mm k * ee mm k ^ 2) (cc mm k * ee mm k ^ 2)) as Q2.
  { eapply ap_weak; [eapply ap_mul; [apply ap_neg, ac_|exact Q1|zc|zc|zc|zc]|zc|zc|zc]. }
  assert (ap 5 (-2) 1 (bmul (@aval B G_setup_bijk mm k (@f0 B)) (@aval B G_setup_gijk mm k (@f0 B))) (bb mm k * gg mm k) (bb mm k * gg mm k)) as Q3.
  { eapply ap_weak; [eapply ap_mul; [apply ab_|apply ag_|zc|zc|zc|zc]|zc|zc|zc]. }
  change 20%Z with (Z.max 18 5 + 2)%Z. eapply ap_add; [exact Q2|exact Q3|zc|zc|zc|].
  eapply rng_weak; [eapply rng_add; [apply Q2|apply Q3]|lia|lia].
Qed.
Definition yR mm k := @q_cijk ArithR gp_new mm k * @gdelp ArithR dR 2 + @q_eijk ArithR gp_new mm k * dR + @q_gijk ArithR gp_new mm k + @q_tijk ArithR gp_new mm k * lR T2.
Lemma aexpm mm k : (1 <= mm)%nat -> (1 <= k)%nat -> ap 102710 (-150) 150
  (lm_exp m (badd (badd (badd (bmul (@q_cijk B gp_new mm k) (@gdelp B dB 2)) (bmul (@q_eijk B gp_new mm k) dB)) (@q_gijk B gp_new mm k)) (bmul (@q_tijk B gp_new mm k) (lB T2))))
  (exp (yR mm k)) (exp (yR mm k)).
Proof.
  intros H1 H2. pose proof (acij mm k H1 H2) as Q1. pose proof (aeij mm k H1 H2) as Q2. pose proof (agij mm k H1 H2) as Q3. destruct (amt m mm k) as [Qt Ht].
  assert (ap 67 (-2) 9 (bmul (@q_tijk B gp_new mm k) (lB T2)) (@q_tijk ArithR gp_new mm k * lR T2) (Rabs (@q_tijk ArithR gp_new mm k) * (19 / 2))) as Q4.
  { eapply ap_weak; [eapply ap_mul; [exact Qt|exact (alntau m A X HX Hs T2 HT2)|zc|zc|zc|zc]|zc|zc|zc]. }
  pose proof (ap_add _ _ _ _ _ _ _ _ _ _ _ _ (-58) 6 Q1 Q2 ltac:(zc) ltac:(zc) ltac:(zc)) as P1.
  specialize (P1 ltac:(eapply rng_weak; [eapply rng_add; [apply Q1|apply Q2]|lia|lia])).
  pose proof (ap_add _ _ _ _ _ _ _ _ _ _ _ _ (-58) 7 P1 Q3 ltac:(zc) ltac:(zc) ltac:(zc)) as P2.
  specialize (P2 ltac:(eapply rng_weak; [eapply rng_add; [apply P1|apply Q3]|lia|lia])).
  pose proof (ap_add _ _ _ _ _ _ _ _ _ _ _ _ (-58) 10 P2 Q4 ltac:(zc) ltac:(zc) ltac:(zc)) as P3.
  specialize (P3 ltac:(eapply rng_weak; [eapply rng_add; [apply P2|apply Q4]|lia|lia])).
  fold (yR mm k) in P3. clear P1 P2.
  assert (Mc mm k + Me mm k + Mg mm k + Rabs (@q_tijk ArithR gp_new mm k) * (19 / 2) <= 100) as MB.
  { destruct (cebg mm k) as (C1 & C2 & C3 & C4). assert (Rabs (@q_tijk ArithR gp_new mm k) <= 8) by (apply Rabs_le; lra).
    pose proof dR_ge0 as D0. pose proof HD as D1. unfold Mc, Me, Mg.
    assert (dR ^ 2 <= 25/4) by (cbn [pow]; nra). assert (0 <= dR ^ 2) by (apply pow2_ge_0).
    assert (cc mm k * dR ^ 2 <= 25/4) by nra. assert (0 <= cc mm k * ee mm k <= 1/2) by nra.
    assert ((2 * cc mm k * ee mm k + bb mm k) * dR <= 5 * (5/2)) by (apply Rmult_le_compat; nra).
    assert (ee mm k ^ 2 <= 1/4) by (cbn [pow]; nra). assert (0 <= ee mm k ^ 2) by apply pow2_ge_0.
    assert (cc mm k * ee mm k ^ 2 <= 1/4) by nra. assert (bb mm k * gg mm k <= 2) by nra. lra. }
  change 102710%Z with (102700 + 10)%Z. destruct P3 as (F & E & L & R3). eapply (ap_exp m A).
  - exact F.
  - eapply Rle_trans; [exact E|]. apply Rle_trans with (1027 * u64 * 100); [|right; lra].
    apply Rmult_le_compat_l; [pose proof u_pos; lra|exact MB].
  - zc.
  - lra.
  - apply exp_rng. lra.
Qed.
Definition MM i j k := let mm := mnumb i j in bR (X i) * bR (X j) * Rabs (@lv2 ArithR G_FIJ i j) * dR ^ dijk mm k * aTMM mm k * INR (dijk mm k).
Definition MX i j k := let mm := mnumb i j in bR (X i) * bR (X j) * Rabs (@lv2 ArithR G_FIJ i j) * Rabs (@q_nijk ArithR gp_new mm k) * dR ^ dijk mm k * exp (yR mm k)
  * (INR (dijk mm k) + 2 * Mc mm k + Me mm k).
Lemma aF i j : ap 1 (-6) 0 (@lv2 B G_FIJ i j) (@lv2 ArithR G_FIJ i j) (Rabs (@lv2 ArithR G_FIJ i j)).
Proof.
  assert (H : forallb (forallb (lit_in (-6) 0)) G_FIJ = true) by reflexivity. apply ap_lit; [|zc].
  destruct (nth_in_or_default j (nth i G_FIJ []) (L 0 0)) as [I| ->]; [|reflexivity].
  destruct (nth_in_or_default i G_FIJ []) as [I2|E2]; [|rewrite E2 in I; destruct I].
  exact (proj1 (forallb_forall _ _) (proj1 (forallb_forall _ _) H _ I2) _ I).
Qed.
Lemma dijk_rg i j k : (i < 22)%nat -> (j < 22)%nat -> (0 < mnumb i j)%nat -> (1 <= k <= kpolij (mnumb i j) + kexpij (mnumb i j))%nat -> (1 <= dijk (mnumb i j) k <= 7)%nat.
Proof.
  intros Hi Hj Hm Hk. destruct (mexps_at (mnumb i j) k (mnumb_in i j Hi Hj Hm) Hk) as [E1 E2]. rewrite E1. split; [exact E2|].
  rewrite <- E1. pose proof (nv2_lt G_DIJK 8 eq_refl lt08 (mnumb i j) k). lia.
Qed.
Lemma aMix i j k : (1 <= i < j)%nat -> (j < 22)%nat -> (0 < mnumb i j)%nat -> (1 <= k <= kpolij (mnumb i j))%nat ->
  ap 774726 (-972) 400 (@mpterm B gp_new X dB TMB i j (mnumb i j) k 1%nat) (@mpterm ArithR gp_new Y dR TMR i j (mnumb i j) k 1%nat) (MM i j k).
Proof.
  intros Hi Hj Hm Hk. pose proof (dijk_rg i j k ltac:(lia) Hj Hm ltac:(lia)) as Hd7. unfold mpterm, pol_c, MM. cbv zeta. cbn [fmul fofnat ArithB64 q_dijk gp_new].
  eapply ap_weak; [eapply ap_mul; [eapply ap_mul; [eapply ap_mul; [eapply ap_mul; [eapply ap_mul; [apply (aX X HX i); lia|apply (aX X HX j); lia|zc|zc|zc|zc]|apply aF|zc|zc|zc|zc]|
    apply adp7; exact Hd7|zc|zc|zc|zc]|apply (aTM m A X HX Hs T HT)|zc|zc|zc|zc]|apply inat; lia|zc|zc|zc|zc]|zc|zc|zc].
Qed.
Lemma aMex i j k : (1 <= i < j)%nat -> (j < 22)%nat -> (0 < mnumb i j)%nat -> (kpolij (mnumb i j) < k <= kpolij (mnumb i j) + kexpij (mnumb i j))%nat ->
  ap 774726 (-972) 400 (@meterm B gp_new X dB (lB T2) i j (mnumb i j) k 1%nat) (@meterm ArithR gp_new Y dR (lR T2) i j (mnumb i j) k 1%nat) (MX i j k).
Proof.
  intros Hi Hj Hm Hk. pose proof (dijk_rg i j k ltac:(lia) Hj Hm ltac:(lia)) as Hd7. unfold meterm, mexp_c, MX. cbv zeta. cbn [fmul fadd fexp fofnat ArithB64 q_dijk gp_new].
  set (mm := mnumb i j) in *. pose proof (acij mm k ltac:(lia) ltac:(lia)) as Q1. pose proof (aeij mm k ltac:(lia) ltac:(lia)) as Q2.
  pose proof (inat (dijk mm k) ltac:(lia)) as Qd.
  assert (ap 1025 (-57) 5 (bmul (@f2 B) (bmul (@q_cijk B gp_new mm k) (@gdelp B dB 2))) (2 * (@q_cijk ArithR gp_new mm k * @gdelp ArithR dR 2)) (2 * Mc mm k)) as Q3.
  { eapply ap_weak; [eapply ap_mul; [exact (a2 m)|exact Q1|zc|zc|zc|zc]|zc|zc|zc]. }
  pose proof (rng_ge0 _ _ _ (proj2 (proj2 (proj2 Q3)))) as G3. pose proof (rng_ge0 _ _ _ (proj2 (proj2 (proj2 Q2)))) as G2.
  pose proof (rng_le _ _ _ (proj2 (proj2 (proj2 Q3)))) as L3. pose proof (rng_le _ _ _ (proj2 (proj2 (proj2 Q2)))) as L2. pose proof (rng_le _ _ _ (proj2 (proj2 (proj2 Qd)))) as Ld.
  pose proof (le_INR 1 (dijk mm k) ltac:(lia)) as D1. change (INR 1) with 1 in D1.
  change (p2 5) with 32 in *. change (p2 3) with 8 in *.
  pose proof (ap_add _ _ _ _ _ _ _ _ _ _ _ _ 0 6 Qd Q3 ltac:(zc) ltac:(zc) ltac:(zc)) as P1.
  specialize (P1 ltac:(right; change (p2 0) with 1; change (p2 6) with 64; lra)).
  pose proof (ap_add _ _ _ _ _ _ _ _ _ _ _ _ 0 7 P1 Q2 ltac:(zc) ltac:(zc) ltac:(zc)) as P2.
  specialize (P2 ltac:(right; change (p2 0) with 1; change (p2 7) with 128; lra)). clear P1.
  eapply ap_weak; [eapply ap_mul; [eapply ap_mul; [eapply ap_mul; [eapply ap_mul; [eapply ap_mul; [eapply ap_mul; [apply (aX X HX i); lia|apply (aX X HX j); lia|zc|zc|zc|zc]|apply aF|zc|zc|zc|zc]|
    apply (amn m)|zc|zc|zc|zc]|apply adp7; exact Hd7|zc|zc|zc|zc]|apply aexpm; lia|zc|zc|zc|zc]|exact P2|zc|zc|zc|zc]|zc|zc|zc].
Qed.

(* the sum *)
Definition Mden (u : desc) : R := match u with DP i k => MP i k | DE i k => ME i k | DM i j k => MM i j k | DX i j k => MX i j k end.
Local Notation LB := (@gterms B gp_new X dB (lB T2) TPB TMB).
Local Notation LR := (@gterms ArithR gp_new Y dR (lR T2) TPR TMR).
Local Notation ds := (descs (fun i => @act ArithR (bR (X i)))).
Lemma descs_ext a b : (forall i, (1 <= i < 22)%nat -> a i = b i) -> descs a = descs b.
Proof.
  intros H. unfold descs. apply f_equal2; apply flat_map_ext_in; intros i Hi; apply in_seq in Hi.
  - unfold dpure. now rewrite H by lia.
  - unfold drow. rewrite H by lia. destruct (b i); [|reflexivity]. apply flat_map_ext_in. intros j Hj. apply in_seq in Hj. unfold dmix. now rewrite H by lia.
Qed.
Lemma aS : ap 775598 (-972) 409 (@arS B LB 1) (@arS ArithR LR 1) (rsum Mden ds).
Proof.
  rewrite !arS_descs. rewrite (descs_ext (fun i => @act B (X i)) (fun i => @act ArithR (bR (X i)))) by (intros i Hi; apply (act_Y m X HX i Hi)).
  pose proof (descs_len (fun i => @act ArithR (bR (X i)))) as HL.
  eapply ap_weak; [|apply (Z.add_le_mono_l (2 * Z.of_nat (length ds)) 872 774726); lia|apply Z.le_refl|apply Z.le_refl].
  change (@f0 B) with B0. cbn [fadd ArithB64]. change 409%Z with (400 + 9)%Z.
  eapply ap_eq; [apply (ap_fold (fun _ => true) (fun u => @den B gp_new X dB (lB T2) TPB TMB u 1%nat)
    (fun u => @den ArithR gp_new Y dR (lR T2) TPR TMR u 1%nat) Mden 774726 (-972) 400 9 ds B0 0 0 774726 0)|symmetry; apply rsum_fold|apply Rplus_0_l]; try zc.
  - intros u Hu _. apply descs_ok in Hu. destruct u as [i k|i k|i j k|i j k]; cbn [den Mden okd] in *.
    + now apply aP.
    + now apply aE.
    + now apply aMix.
    + now apply aMex.
  - apply (ap_weak 0 (-972) (400 + 9)); [apply ap_0|lia|lia|lia].
  - rewrite Rmult_0_l. apply Rle_refl.
Qed.
Lemma apzG : ap 775600 0 410 (@gpz B LB) (1 + @arS ArithR LR 1) (1 + rsum Mden ds).
Proof.
  unfold gpz. cbn [fadd ArithB64]. pose proof aS as Q. change 775600%Z with (Z.max 1 775598 + 2)%Z. eapply ap_add; [exact (a1 m)|exact Q|zc|zc|zc|].
  assert (R1 : rng (-972) 409 (rsum Mden ds)) by apply Q. pose proof (rng_ge0 _ _ _ R1). pose proof (rng_le _ _ _ R1) as R2. right.
  change (p2 0) with 1. split; [lra|]. change 410%Z with (1 + 409)%Z. rewrite bpow_plus. change (p2 1) with 2.
  assert (1 <= p2 409) by (change 1 with (p2 0); apply bpow_le; lia). lra.
Qed.
Lemma aRG : ap 1 3 4 (@RGERG B) Rg Rg.
Proof. eapply ap_eq; [apply (ap_inok (L 8314472 (-6)) 3 4); [reflexivity|zc]| |]; reflexivity. Qed.
Lemma appG : ap 775610 (-20) 500 (@gpp B LB T2 d) (bR d * Rg * bR T2 * (1 + @arS ArithR LR 1)) (bR d * Rg * bR T2 * (1 + rsum Mden ds)).
Proof.
  unfold gpp. cbn [fmul ArithB64].
  eapply ap_weak; [eapply ap_mul; [eapply ap_mul; [eapply ap_mul; [exact ad_|exact aRG|zc|zc|zc|zc]|exact (aTT T2 HT2)|zc|zc|zc|zc]|exact apzG|zc|zc|zc|zc]|zc|zc|zc].
Qed.
End M.
