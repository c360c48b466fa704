(* The fields of properties() of GERG-2008 in double precision. *)
From Coq Require Import Reals ZArith List Bool Lra Lia Psatz FunctionalExtensionality.
From Coquelicot Require Import Coquelicot.
From Flocq Require Import Core BinarySingleNaN.
From Verif Require Import FArith Prelude Tab ArithB64 B64Lemmas ArithR RSum SpecDetail SpecGerg SpecIdeal SpecTables StdGerg SpecStd SpecAcc SpecAccG SpecAll SpecAllF SpecHistory DetailPure GergTables GergModel GergPure GergRefine GergEval Api ApiSafe BasicProofs HistoryGerg SpecReal Thermo DetailReal DetailThermo GergReal GergIdeal GergThermo
  DetailEos GergEos Drift StdDetailProof StdGergProof NewtonReal B64Err AccFold AccMix AccEos AccProof GAccRed GAccTerms GAccEos GAccSize GAccProof AccSlope GAllCoef GAllTerms GAllSize GAllIdeal GAllIdeal2.
Import ListNotations.
Local Open Scope R_scope.
Local Existing Instance gp_new.

Section T.
Variable m : Libm.
Hypothesis A : accurate m.
Local Notation B := (ArithB64 m).
Variables (lB : list (nat -> b64)) (lR : list (nat -> R)) (S : nat -> R).
Hypothesis HS : forall e, ap 790872 (-990) 409 (@arS B lB e) (@arS ArithR lR e) (S e).
Variables (X : nat -> b64) (I : nat -> R).
Local Notation Y := (fun i => bR (X i)).
Variables T d : b64.
Hypothesis HT : fin T /\ p2 5 <= bR T <= p2 11.
Hypothesis Hd : fin d /\ p2 (-20) <= bR d <= p2 10.
Local Notation t := (bR T).
Local Notation aB := (@ga0 B gp_new X T d).
Local Notation aR := (@ga0 ArithR gp_new Y t (bR d)).
Hypothesis HI : forall e, (e < 3)%nat -> ap 18400 (-700) 350 (@xf B aB e) (@xf ArithR aR e) (I e).
Lemma S_ge e : 0 <= S e. Proof. apply (ap_M _ _ _ _ _ _ (HS e)). Qed.
Lemma I_ge e : (e < 3)%nat -> 0 <= I e. Proof. intros H. apply (ap_M _ _ _ _ _ _ (HI e H)). Qed.
Lemma art : ap 4 8 15 (@grt B T) (Rg * t) (Rg * t).
Proof. unfold grt. cbn [fmul ArithB64]. eapply ap_weak; [eapply ap_mul; [exact (aRG m)|exact (at_ T HT)|zc|zc|zc|zc]|zc|zc|zc]. Qed.
Lemma addd : ap 0 (-20) 10 d (bR d) (bR d).
Proof. pose proof (d_gt d Hd). eapply ap_eq; [apply ap_exact; [apply Hd|]|reflexivity|]; rewrite Rabs_pos_eq by lra; [right; apply Hd|reflexivity]. Qed.
Lemma dg : 0 < bR d. Proof. exact (d_gt d Hd). Qed.
Lemma pos1 k a b v x M N : ap k a b v x M -> M = 1 + N -> 0 <= N -> ap k 0 b v x M.
Proof. intros P -> H. eapply ap_rng; [exact P|]. destruct P as (_ & _ & _ & R). apply (rng_one a); [exact R|lra]. Qed.
Local Notation KB := 790910%Z.
Lemma fz : ap KB 0 450 (@gqz B lB) (@gqz ArithR lR) (1 + S 1%nat).
Proof.
  unfold gqz. cbn [fadd ArithB64]. eapply (pos1 _ (-990)); [|reflexivity|apply S_ge]. eapply ap_weak; [eapply apA; [exact (a1 m)|exact (HS 1%nat)|zc|zc|zc]|zc|zc|zc].
Qed.
Lemma fp : ap KB (-20) 480 (@gqp B lB T d) (@gqp ArithR lR t (bR d)) (bR d * (Rg * t) * (1 + S 1%nat)).
Proof.
  assert (ap 790880 0 450 (@gqz B lB) (@gqz ArithR lR) (1 + S 1%nat)) as Q.
  { unfold gqz. cbn [fadd ArithB64]. eapply (pos1 _ (-990)); [|reflexivity|apply S_ge]. eapply ap_weak; [eapply apA; [exact (a1 m)|exact (HS 1%nat)|zc|zc|zc]|zc|zc|zc]. }
  unfold gqp. cbn [fmul ArithB64]. eapply ap_weak; [eapply ap_mul; [eapply ap_mul; [exact addd|exact art|zc|zc|zc|zc]|exact Q|zc|zc|zc|zc]|zc|zc|zc].
Qed.
Lemma f2S e : ap 790876 (-990) 410 (bmul (@f2 B) (@arS B lB e)) (2 * @arS ArithR lR e) (2 * S e).
Proof. eapply ap_weak; [eapply ap_mul; [exact (a2 m)|exact (HS e)|zc|zc|zc|zc]|zc|zc|zc]. Qed.
Lemma fbr : ap 790880 0 450 (badd (badd (@f1 B) (bmul (@f2 B) (@arS B lB 1))) (@arS B lB 2)) (1 + 2 * @arS ArithR lR 1 + @arS ArithR lR 2) (1 + 2 * S 1%nat + S 2%nat).
Proof.
  eapply (pos1 _ (-990)); [|rewrite Rplus_assoc; reflexivity|pose proof (S_ge 1); pose proof (S_ge 2); lra].
  eapply ap_weak; [eapply apA; [eapply apA; [exact (a1 m)|exact (f2S 1)|zc|zc|zc]|exact (HS 2%nat)|zc|zc|zc]|zc|zc|zc].
Qed.
Lemma fdpdd : ap KB 0 480 (@gqdpdd B lB T) (@gqdpdd ArithR lR t) (Rg * t * (1 + 2 * S 1%nat + S 2%nat)).
Proof.
  unfold gqdpdd. cbn [fmul fadd ArithB64]. eapply ap_weak; [eapply ap_mul; [exact art|exact fbr|zc|zc|zc|zc]|zc|zc|zc].
Qed.
Lemma fdpdt : ap KB (-20) 480 (@gqdpdt B lB d) (@gqdpdt ArithR lR (bR d)) (bR d * Rg * (1 + S 1%nat + S 5%nat)).
Proof.
  unfold gqdpdt. cbn [fmul fadd fsub ArithB64].
  eapply ap_weak; [eapply ap_mul; [eapply ap_mul; [exact addd|exact (aRG m)|zc|zc|zc|zc]|eapply pos1; [eapply apS; [eapply apA; [exact (a1 m)|exact (HS 1%nat)|zc|zc|zc]|exact (HS 5%nat)|zc|zc|zc]|rewrite Rplus_assoc; reflexivity|
    pose proof (S_ge 1); pose proof (S_ge 5); lra]|zc|zc|zc|zc]|zc|zc|zc].
Qed.
Lemma fd2dt : ap KB (-990) 480 (@gqd2pdtd B lB) (@gqd2pdtd ArithR lR) (Rg * (1 + 2 * S 1%nat + S 2%nat + 2 * S 5%nat + S 6%nat)).
Proof.
  unfold gqd2pdtd. cbn [fmul fadd fsub ArithB64].
  eapply ap_weak; [eapply ap_mul; [exact (aRG m)|eapply apS; [eapply apS; [exact fbr|exact (f2S 5)|zc|zc|zc]|exact (HS 6%nat)|zc|zc|zc]|zc|zc|zc|zc]|zc|zc|zc].
Qed.
Lemma dense_B : @gqdense B d = true.
Proof.
  destruct Hd as [Fd [H1 _]]. change (p2 (-20)) with (/ 1048576) in H1. change (Bltb (blit (L 1 (-15))) d = true).
  destruct (lit_err (L 1 (-15)) (-50) (-49) eq_refl ltac:(zc)) as [L1 L2].
  change (Rlit (L 1 (-15))) with (@GEPSILON ArithR) in L2; rewrite glit15 in L2. rewrite (Rabs_pos_eq (1 / 1000000000000000)) in L2 by lra. apply Rabs_le_inv in L2.
  pose proof u_small. rewrite lt_fin by assumption. apply Rlt_bool_true. lra.
Qed.
Lemma dense_R : @gqdense ArithR (bR d) = true.
Proof.
  destruct Hd as [Fd [H1 _]]. change (p2 (-20)) with (/ 1048576) in H1. change (Rltb (@GEPSILON ArithR) (bR d) = true). apply Rltb_true. rewrite glit15. lra.
Qed.
Lemma fd2dd : ap KB (-995) 480 (@gqd2pdd2 B lB T d) (@gqd2pdd2 ArithR lR t (bR d)) (Rg * t * (2 * S 1%nat + 4 * S 2%nat + S 3%nat) / bR d).
Proof.
  unfold gqd2pdd2. rewrite dense_B, dense_R. cbn [fmul fadd fdiv ArithB64].
  assert (ap 1 2 2 (@f4 B) 4 4) as a4 by (eapply ap_eq; [apply (ap_inok (L 4 0) 2 2); [reflexivity|zc]|reflexivity|reflexivity]).
  eapply ap_weak; [eapply ap_div; [eapply ap_mul; [exact art|eapply apA; [eapply apA; [exact (f2S 1)|eapply ap_mul; [exact a4|exact (HS 2%nat)|zc|zc|zc|zc]|zc|zc|zc]|exact (HS 3%nat)|zc|zc|zc]|zc|zc|zc|zc]|
    exact addd|exact dg|zc|zc|zc|zc]|zc|zc|zc].
Qed.
Lemma fu : ap KB (-990) 480 (@gqu B gp_new lB X T d) (@gqu ArithR gp_new lR Y t (bR d)) (Rg * t * (I 1%nat + S 4%nat)).
Proof.
  unfold gqu. cbn [fmul fadd ArithB64].
  eapply ap_weak; [eapply ap_mul; [exact art|eapply apA; [exact (HI 1%nat ltac:(lia))|exact (HS 4%nat)|zc|zc|zc]|zc|zc|zc|zc]|zc|zc|zc].
Qed.
Lemma fh : ap KB (-990) 480 (@gqh B gp_new lB X T d) (@gqh ArithR gp_new lR Y t (bR d)) (Rg * t * (1 + S 1%nat + I 1%nat + S 4%nat)).
Proof.
  unfold gqh. cbn [fmul fadd ArithB64].
  eapply ap_weak; [eapply ap_mul; [exact art|eapply apA; [eapply apA; [eapply apA; [exact (a1 m)|exact (HS 1%nat)|zc|zc|zc]|exact (HI 1%nat ltac:(lia))|zc|zc|zc]|exact (HS 4%nat)|zc|zc|zc]|zc|zc|zc|zc]|zc|zc|zc].
Qed.
Lemma fg : ap KB (-990) 480 (@gqg B gp_new lB X T d) (@gqg ArithR gp_new lR Y t (bR d)) (Rg * t * (1 + S 1%nat + I 0%nat + S 0%nat)).
Proof.
  unfold gqg. cbn [fmul fadd ArithB64].
  eapply ap_weak; [eapply ap_mul; [exact art|eapply apA; [eapply apA; [eapply apA; [exact (a1 m)|exact (HS 1%nat)|zc|zc|zc]|exact (HI 0%nat ltac:(lia))|zc|zc|zc]|exact (HS 0%nat)|zc|zc|zc]|zc|zc|zc|zc]|zc|zc|zc].
Qed.
Lemma fs : ap KB (-990) 480 (@gqs B gp_new lB X T d) (@gqs ArithR gp_new lR Y t (bR d)) (Rg * (I 1%nat + S 4%nat + I 0%nat + S 0%nat)).
Proof.
  unfold gqs. cbn [fmul fadd fsub ArithB64].
  eapply ap_weak; [eapply ap_mul; [exact (aRG m)|eapply apS; [eapply apS; [eapply apA; [exact (HI 1%nat ltac:(lia))|exact (HS 4%nat)|zc|zc|zc]|exact (HI 0%nat ltac:(lia))|zc|zc|zc]|exact (HS 0%nat)|zc|zc|zc]|zc|zc|zc|zc]|zc|zc|zc].
Qed.
Lemma fcv : ap KB (-990) 480 (@gqcv B gp_new lB X T d) (@gqcv ArithR gp_new lR Y t (bR d)) (Rg * (I 2%nat + S 7%nat)).
Proof.
  unfold gqcv. cbn [fmul fadd fneg ArithB64].
  eapply ap_weak; [eapply ap_mul; [apply ap_neg; exact (aRG m)|eapply apA; [exact (HI 2%nat ltac:(lia))|exact (HS 7%nat)|zc|zc|zc]|zc|zc|zc|zc]|zc|zc|zc].
Qed.
End T.

(* molar mass *)
Lemma mm_chk : forallb (inok 1 8) G_MMI_GERG = true. Proof. reflexivity. Qed.
