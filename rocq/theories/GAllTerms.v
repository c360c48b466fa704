(* Error analysis of all entries of the GERG residual part in double precision. *)
From Coq Require Import Reals ZArith List Bool Lra Lia Psatz.
From Flocq Require Import Core BinarySingleNaN.
From Verif Require Import FArith Prelude Tab ArithB64 B64Lemmas ArithR RSum SpecDetail SpecGerg SpecAcc DetailPure GergTables GergModel GergPure GergRefine GergEval Api ApiSafe BasicProofs HistoryGerg SpecReal Thermo DetailReal DetailThermo GergReal GergIdeal GergThermo
  DetailEos GergEos StdGerg SpecStd SpecTables StdGergProof SpecAll B64Err AccFold AccMix AccEos GAccRed GAccTerms GAccEos GAccSize GAllCoef.
Import ListNotations.
Local Open Scope R_scope.
Local Existing Instance gp_new.

Definition orow (p : nat * nat) : bool := let '(i, k) := p in
  (tsmall (nth k (nth i G_TOIK []) (L 0 0)) && Nat.leb 1 (nv2 G_DOIK i k) && Nat.leb (nv2 G_DOIK i k) 7)%bool.
Lemma orow_ok : forallb orow ilist = true. Proof. vm_compute. reflexivity. Qed.
Lemma orow_at i k : (1 <= i < 22)%nat -> (1 <= k <= kpol i + kexp i)%nat -> tsmall (nth k (nth i G_TOIK []) (L 0 0)) = true /\ (1 <= nv2 G_DOIK i k <= 7)%nat.
Proof.
  intros Hi Hk. pose proof (proj1 (forallb_forall orow ilist) orow_ok (i, k) (in_ilist i k Hi Hk)) as H. unfold orow in H.
  apply andb_true_iff in H. destruct H as [H H3]. apply andb_true_iff in H. destruct H as [H1 H2]. apply Nat.leb_le in H2, H3. split; [exact H1|lia].
Qed.
Section M.
Variable m : Libm.
Hypothesis A : accurate m.
Local Notation B := (ArithB64 m).
Variable X : nat -> b64.
Hypothesis HX : forall i, (1 <= i < 22)%nat -> fin (X i) /\ rng (-49) 1 (bR (X i)).
Local Notation Y := (fun i => bR (X i)).
Hypothesis Hs : 99 / 100 <= sumf 0 21 Y <= 101 / 100.
Variables T T2 d : b64.
Hypothesis HT : fin T /\ p2 5 <= bR T <= p2 11.
Hypothesis HT2 : fin T2 /\ p2 5 <= bR T2 <= p2 11.
Hypothesis Hd : fin d /\ (bR d = 0 \/ p2 (-20) <= bR d).
Local Notation dB := (bdiv d (@gdr B gp_new X)).
Local Notation dR := (bR d / @gdr ArithR gp_new Y).
Hypothesis HD : dR <= 5 / 2.
Local Notation lB T := (lm_ln m (bdiv (@gtr B gp_new X) T)).
Local Notation lR T := (ln (@gtr ArithR gp_new Y / bR T)).
Local Notation TPB := (@tpow B gp_new (lB T)).
Local Notation TPR := (@tpow ArithR gp_new (lR T)).
Local Notation TMB := (@tmow B gp_new (lB T)).
Local Notation TMR := (@tmow ArithR gp_new (lR T)).
Local Notation doik := (nv2 G_DOIK). Local Notation coik := (nv2 G_COIK). Local Notation dijk := (nv2 G_DIJK).
Local Notation toik := (@lv2 ArithR G_TOIK).
Local Notation tijk := (@q_tijk ArithR gp_new).
Lemma atoik i k : (1 <= i < 22)%nat -> (1 <= k <= kpol i + kexp i)%nat -> ap 1 (-5) 5 (@lv2 B G_TOIK i k) (toik i k) (Rabs (toik i k)).
Proof.
  intros Hi Hk. destruct (orow_at i k Hi Hk) as [H _]. apply tsmall_ok in H. destruct H as [H _]. apply andb_true_iff in H. destruct H as [H _].
  eapply ap_weak; [apply ap_lit; [exact H|zc]|zc|zc|zc].
Qed.
(* sizes *)
Definition NP i k := bR (X i) * dR ^ doik i k * aTPM X T i k.
Definition NE i k := NP i k * exp (- dR ^ coik i k).
Definition NM i j k := let mm := mnumb i j in bR (X i) * bR (X j) * Rabs (@lv2 ArithR G_FIJ i j) * dR ^ dijk mm k * aTMM X T mm k.
Definition NX i j k := let mm := mnumb i j in bR (X i) * bR (X j) * Rabs (@lv2 ArithR G_FIJ i j) * Rabs (@q_nijk ArithR gp_new mm k) * dR ^ dijk mm k * exp (yR X T2 d mm k).
Definition Wden (e : nat) (u : desc) : R := match u with
  | DP i k => NP i k * pure_factor (doik i k) 0 (Rabs (toik i k)) 0 e
  | DE i k => NE i k * pure_factor (doik i k) (coik i k) (Rabs (toik i k)) dR e
  | DM i j k => NM i j k * pure_factor (dijk (mnumb i j) k) 0 (Rabs (tijk (mnumb i j) k)) 0 e
  | DX i j k => NX i j k * dep_factor (dijk (mnumb i j) k) (Rabs (tijk (mnumb i j) k)) (Mc X d (mnumb i j) k) (Me X d (mnumb i j) k) e
  end.
Lemma wP i k e : (1 <= i < 22)%nat -> (1 <= k <= kpol i)%nat ->
  ap 790000 (-990) 400 (@pterm B gp_new X dB TPB i k e) (@pterm ArithR gp_new Y dR TPR i k e) (Wden e (DP i k)).
Proof.
  intros Hi Hk. destruct (orow_at i k Hi ltac:(lia)) as (_ & H3). unfold pterm. cbn [Wden fmul fofnat ArithB64 q_doik q_toik gp_new].
  pose proof (anp m A X HX Hs T d HT Hd HD i k Hi ltac:(lia)) as Q.
  eapply ap_weak; [exact (apol m _ _ _ _ _ _ _ _ _ Q ltac:(zc) ltac:(zc) ltac:(zc) (atoik i k Hi ltac:(lia)) H3 e)|zc|zc|zc].
Qed.
Lemma wE i k e : (1 <= i < 22)%nat -> (kpol i < k <= kpol i + kexp i)%nat ->
  ap 790000 (-990) 400 (@eterm B gp_new X dB TPB i k e) (@eterm ArithR gp_new Y dR TPR i k e) (Wden e (DE i k)).
Proof.
  intros Hi Hk. destruct (prow_at i k Hi ltac:(lia)) as (_ & _ & H3 & H4 & H5). specialize (H5 ltac:(lia)). unfold eterm. cbn [Wden fmul fofnat ArithB64 q_doik q_toik q_coik gp_new].
  assert (Q : ap 771670 (-972) 258 (bmul (bmul (bmul (X i) (@gdelp B dB (doik i k))) (TPB i k)) (@gexpd B dB (coik i k)))
     (bR (X i) * @gdelp ArithR dR (doik i k) * TPR i k * @gexpd ArithR dR (coik i k)) (NE i k)).
  { eapply ap_weak; [eapply ap_mul; [apply (anp m A X HX Hs T d HT Hd HD); lia|apply (aexpd m A X HX Hs d Hd HD); lia|zc|zc|zc|zc]|zc|zc|zc]. }
  assert (Q2 : ap 3057 (-168) 12 (@gdelp B dB (coik i k)) (dR ^ coik i k) (dR ^ coik i k)).
  { pose proof (adp m A X HX Hs d Hd HD (coik i k) ltac:(lia)) as P. rewrite gdelp_pow in P by lia. eapply ap_weak; [exact P|lia|lia|lia]. }
  pose proof (aexpc m _ _ _ _ _ _ _ _ _ Q ltac:(zc) ltac:(zc) ltac:(zc) (atoik i k Hi ltac:(lia)) H3 (coik i k) (@gdelp B dB (coik i k)) dR ltac:(lia) Q2 e) as P.
  rewrite <- (gdelp_pow dR (coik i k)) in P at 1 by lia.
  eapply ap_weak; [exact P|zc|zc|zc].
Qed.
Lemma wM i j k e : (1 <= i < j)%nat -> (j < 22)%nat -> (0 < mnumb i j)%nat -> (1 <= k <= kpolij (mnumb i j))%nat ->
  ap 790000 (-990) 400 (@mpterm B gp_new X dB TMB i j (mnumb i j) k e) (@mpterm ArithR gp_new Y dR TMR i j (mnumb i j) k e) (Wden e (DM i j k)).
Proof.
  intros Hi Hj Hm Hk. pose proof (dijk_rg i j k ltac:(lia) Hj Hm ltac:(lia)) as Hd7. unfold mpterm. cbn [Wden fmul fofnat ArithB64 q_dijk q_tijk gp_new].
  set (mm := mnumb i j) in *.
  assert (Q : ap 30000 (-700) 300 (bmul (bmul (bmul (bmul (X i) (X j)) (@lv2 B G_FIJ i j)) (@gdelp B dB (dijk mm k))) (TMB mm k))
     (bR (X i) * bR (X j) * @lv2 ArithR G_FIJ i j * @gdelp ArithR dR (dijk mm k) * TMR mm k) (NM i j k)).
  { unfold NM. fold mm. eapply ap_weak; [eapply ap_mul; [eapply ap_mul; [eapply ap_mul; [eapply ap_mul; [apply (aX X HX i); lia|apply (aX X HX j); lia|zc|zc|zc|zc]|apply (aF m)|zc|zc|zc|zc]|
    apply (adp7 m A X HX Hs d Hd HD); exact Hd7|zc|zc|zc|zc]|apply (aTM m A X HX Hs T HT)|zc|zc|zc|zc]|zc|zc|zc]. }
  destruct (amt m mm k) as [Qt _].
  eapply ap_weak; [exact (apol m _ _ _ _ _ _ _ _ _ Q ltac:(zc) ltac:(zc) ltac:(zc) Qt Hd7 e)|zc|zc|zc].
Qed.
Lemma wX i j k e : (1 <= i < j)%nat -> (j < 22)%nat -> (0 < mnumb i j)%nat -> (kpolij (mnumb i j) < k <= kpolij (mnumb i j) + kexpij (mnumb i j))%nat ->
  ap 790000 (-990) 400 (@meterm B gp_new X dB (lB T2) i j (mnumb i j) k e) (@meterm ArithR gp_new Y dR (lR T2) i j (mnumb i j) k e) (Wden e (DX i j k)).
Proof.
  intros Hi Hj Hm Hk. pose proof (dijk_rg i j k ltac:(lia) Hj Hm ltac:(lia)) as Hd7. unfold meterm. cbv zeta. cbn [Wden fmul fadd fexp fofnat ArithB64 q_dijk q_tijk gp_new].
  set (mm := mnumb i j) in *.
  assert (Q : ap 110000 (-700) 300 (bmul (bmul (bmul (bmul (bmul (X i) (X j)) (@lv2 B G_FIJ i j)) (@q_nijk B gp_new mm k)) (@gdelp B dB (dijk mm k)))
      (lm_exp m (badd (badd (badd (bmul (@q_cijk B gp_new mm k) (@gdelp B dB 2)) (bmul (@q_eijk B gp_new mm k) dB)) (@q_gijk B gp_new mm k)) (bmul (@q_tijk B gp_new mm k) (lB T2)))))
     (bR (X i) * bR (X j) * @lv2 ArithR G_FIJ i j * @q_nijk ArithR gp_new mm k * @gdelp ArithR dR (dijk mm k) * exp (yR X T2 d mm k)) (NX i j k)).
  { unfold NX. fold mm. eapply ap_weak; [eapply ap_mul; [eapply ap_mul; [eapply ap_mul; [eapply ap_mul; [eapply ap_mul; [apply (aX X HX i); lia|apply (aX X HX j); lia|zc|zc|zc|zc]|apply (aF m)|zc|zc|zc|zc]|
    apply (amn m)|zc|zc|zc|zc]|apply (adp7 m A X HX Hs d Hd HD); exact Hd7|zc|zc|zc|zc]|apply (aexpm m A X HX Hs T2 d HT2 Hd HD); lia|zc|zc|zc|zc]|zc|zc|zc]. }
  destruct (amt m mm k) as [Qt _].
  eapply ap_weak; [exact (amexpc m _ _ _ _ _ _ _ _ _ Q ltac:(zc) ltac:(zc) ltac:(zc) Qt Hd7 _ _ _ _ _ _ (acij m A X HX Hs d Hd HD mm k ltac:(lia) ltac:(lia)) (aeij m A X HX Hs d Hd HD mm k ltac:(lia) ltac:(lia)) e)|zc|zc|zc].
Qed.
Local Notation LB := (@gterms B gp_new X dB (lB T2) TPB TMB).
Local Notation LR := (@gterms ArithR gp_new Y dR (lR T2) TPR TMR).
Local Notation ds := (descs (fun i => @act ArithR (bR (X i)))).
Lemma wS e : ap 790872 (-990) 409 (@arS B LB e) (@arS ArithR LR e) (rsum (Wden e) ds).
Proof.
  rewrite !arS_descs. rewrite (descs_ext (fun i => @act B (X i)) (fun i => @act ArithR (bR (X i)))) by (intros i Hi; apply (act_Y m X HX i Hi)).
  pose proof (descs_len (fun i => @act ArithR (bR (X i)))) as HL.
  eapply ap_weak; [|apply (Z.add_le_mono_l (2 * Z.of_nat (length ds)) 872 790000); lia|apply Z.le_refl|apply Z.le_refl].
  change (@f0 B) with B0. cbn [fadd ArithB64]. change 409%Z with (400 + 9)%Z.
  eapply ap_eq; [apply (ap_fold (fun _ => true) (fun u => @den B gp_new X dB (lB T2) TPB TMB u e)
    (fun u => @den ArithR gp_new Y dR (lR T2) TPR TMR u e) (Wden e) 790000 (-990) 400 9 ds B0 0 0 790000 0)|symmetry; apply rsum_fold|apply Rplus_0_l]; try zc.
  - intros u Hu _. apply descs_ok in Hu. destruct u as [i k|i k|i j k|i j k]; cbn [den okd] in *.
    + now apply wP.
    + now apply wE.
    + now apply wM.
    + now apply wX.
  - apply (ap_weak 0 (-990) (400 + 9)); [apply ap_0|lia|lia|lia].
  - rewrite Rmult_0_l. apply Rle_refl.
Qed.
End M.
