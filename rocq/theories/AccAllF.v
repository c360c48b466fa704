(* The fields of properties() of DETAIL in double precision. *)
From Coq Require Import Reals ZArith List Bool Lra Lia Psatz FunctionalExtensionality.
From Coquelicot Require Import Coquelicot.
From Flocq Require Import Core BinarySingleNaN.
From Verif Require Import FArith Prelude Tab ArithB64 B64Lemmas ArithR RSum SpecDetail SpecIdeal SpecStd SpecAcc SpecAll SpecAllF SpecAllD SpecHistory DetailTables DetailModel DetailPure DetailRefine DetailEval Api ApiSafe BasicProofs HistoryDetail SpecReal Thermo DetailReal DetailThermo
  DetailEos Drift StdDetailProof NewtonReal B64Err AccFold AccMix AccMix2 AccEos AccProof AccSlope AccDensProof GAllIdeal GAllIdeal2 GAllProps GAllFin AccAll1 AccAll2 AccAllI.
Import ListNotations.
Local Open Scope R_scope.
Local Instance DB {A : Arith} : DParams := dp_new.

Section T.
Variable m : Libm.
Local Notation B := (ArithB64 m).
Variables (kB : @cache B) (kR : @cache ArithR) (S : nat -> nat -> R).
Variables T d : b64.
Local Notation t := (bR T).
Hypothesis H00 : ap 1194071 (-927) 454 (@ar00 B kB T d) (@ar00 ArithR kR t (bR d)) (RD * t * S 0%nat 0%nat).
Hypothesis H01 : ap 1202361 (-927) 471 (@ar01 B kB T d) (@ar01 ArithR kR t (bR d)) (RD * t * S 0%nat 1%nat).
Hypothesis H02 : ap 1210653 (-927) 489 (@ar02 B kB T d) (@ar02 ArithR kR t (bR d)) (RD * t * S 0%nat 2%nat).
Hypothesis H03 : ap 1218953 (-927) 509 (@ar03 B kB T d) (@ar03 ArithR kR t (bR d)) (RD * t * S 0%nat 3%nat).
Hypothesis H10 : ap 1194074 (-932) 449 (@ar10 B kB d) (@ar10 ArithR kR (bR d)) (RD * S 1%nat 0%nat).
Hypothesis H11 : ap 1202364 (-932) 466 (@ar11 B kB d) (@ar11 ArithR kR (bR d)) (RD * S 1%nat 1%nat).
Hypothesis H20 : ap 1194078 (-934) 454 (@ar20 B kB d) (@ar20 ArithR kR (bR d)) (RD * S 2%nat 0%nat).
Variables (X : nat -> b64) (I : nat -> R).
Local Notation Y := (fun i => bR (X i)).
Hypothesis HT : fin T /\ p2 5 <= bR T <= p2 11.
Hypothesis Hd : fin d /\ p2 (-20) <= bR d <= p2 10.
Local Notation aB := (@pa0 B DB X T d).
Local Notation aR := (@pa0 ArithR DB Y t (bR d)).
Hypothesis I0 : ap 18500 (-700) 390 (@xf B aB 0) (@xf ArithR aR 0) (RD * t * I 0%nat).
Hypothesis I1 : ap 18500 (-700) 390 (@xf B aB 1) (@xf ArithR aR 1) (RD * I 1%nat).
Hypothesis I2 : ap 18500 (-700) 390 (@xf B aB 2) (@xf ArithR aR 2) (RD * I 2%nat).
Local Notation KB := 1218990%Z.
Lemma RDp : 0 < RD. Proof. unfold RD. lra. Qed.
Lemma tp : 0 < t. Proof. exact (t_gt T HT). Qed.
Lemma rtp : 0 < RD * t. Proof. apply Rmult_lt_0_compat; [exact RDp|exact tp]. Qed.
Lemma art : ap 4 8 15 (@qrt B T) (@qrt ArithR t) (RD * t). Proof. exact (aRT m T HT). Qed.
Lemma div_S a v : 0 < a -> 0 <= a * v -> 0 <= v.
Proof. intros Ha H. destruct (Rle_lt_dec 0 v) as [|Hv]; [assumption|]. exfalso. assert (0 < a * (- v)) by (apply Rmult_lt_0_compat; lra). lra. Qed.
Lemma S01p : 0 <= S 0%nat 1%nat. Proof. apply (div_S (RD * t)); [exact rtp|]. apply (ap_M _ _ _ _ _ _ H01). Qed.
Lemma S02p : 0 <= S 0%nat 2%nat. Proof. apply (div_S (RD * t)); [exact rtp|]. apply (ap_M _ _ _ _ _ _ H02). Qed.
Lemma S11p : 0 <= S 1%nat 1%nat. Proof. apply (div_S RD); [exact RDp|]. apply (ap_M _ _ _ _ _ _ H11). Qed.
Ltac R1 := change (@fadd ArithR) with Rplus; change (@fsub ArithR) with Rminus; change (@fmul ArithR) with Rmult; change (@fdiv ArithR) with Rdiv; change (@fneg ArithR) with Ropp; change (@f1 ArithR) with 1; change (@f2 ArithR) with 2;
  cbn [fadd fsub fmul fdiv fneg ArithB64].
Lemma fz : ap 1202380 0 470 (@qz B kB T d) (@qz ArithR kR t (bR d)) (1 + S 0%nat 1%nat).
Proof.
  unfold qz. R1. pose proof rtp as H.
  assert (ap 1202370 (-945) 465 (bdiv (@ar01 B kB T d) (@qrt B T)) (@ar01 ArithR kR t (bR d) / @qrt ArithR t) (S 0%nat 1%nat)) as Q.
  { eapply ap_eq; [eapply ap_weak; [eapply ap_div; [exact H01|exact art|exact H|zc|zc|zc|zc]|zc|zc|zc]|reflexivity|]. change (@qrt ArithR t) with (RD * t). pose proof RDp. pose proof tp. field. lra. }
  eapply (pos1 _ (-945)); [|reflexivity|exact S01p]. eapply ap_weak; [eapply apA; [exact (a1 m)|exact Q|zc|zc|zc]|zc|zc|zc].
Qed.
Lemma fp : ap KB (-20) 600 (@qp B kB T d) (@qp ArithR kR t (bR d)) (bR d * (RD * t) * (1 + S 0%nat 1%nat)).
Proof.
  unfold qp. R1. eapply ap_weak; [eapply ap_mul; [eapply ap_mul; [exact (addd d Hd)|exact art|zc|zc|zc|zc]|exact fz|zc|zc|zc|zc]|zc|zc|zc].
Qed.
Lemma fpd : ap KB 7 620 (bdiv (@qp B kB T d) d) (@qp ArithR kR t (bR d) / bR d) (RD * t * (1 + S 0%nat 1%nat)).
Proof.
  assert (ap 1202400 (-20) 600 (@qp B kB T d) (@qp ArithR kR t (bR d)) (bR d * (RD * t) * (1 + S 0%nat 1%nat))) as Q.
  { unfold qp. R1. eapply ap_weak; [eapply ap_mul; [eapply ap_mul; [exact (addd d Hd)|exact art|zc|zc|zc|zc]|exact fz|zc|zc|zc|zc]|zc|zc|zc]. }
  pose proof (dg d Hd) as D0.
  eapply (ap_rng _ (-31) 621); [eapply ap_eq; [eapply ap_weak; [eapply ap_div; [exact Q|exact (addd d Hd)|exact D0|zc|zc|zc|zc]|zc|zc|zc]|reflexivity|field; lra]|].
  pose proof art as (_ & _ & _ & Ra). pose proof fz as (_ & _ & _ & Rz). eapply rng_weak; [eapply rng_mul; [exact Ra|exact Rz]|lia|lia].
Qed.
Lemma f21 : ap 1202370 (-927) 480 (bmul (@f2 B) (@ar01 B kB T d)) (2 * @ar01 ArithR kR t (bR d)) (RD * t * (2 * S 0%nat 1%nat)).
Proof. eapply ap_eq; [eapply ap_weak; [eapply ap_mul; [exact (a2 m)|exact H01|zc|zc|zc|zc]|zc|zc|zc]|reflexivity|ring]. Qed.
Lemma fdpdd : ap KB 8 600 (@qdpdd B kB T d) (@qdpdd ArithR kR t (bR d)) (RD * t * (1 + 2 * S 0%nat 1%nat + S 0%nat 2%nat)).
Proof.
  unfold qdpdd. R1. 
  assert (G : p2 8 <= RD * t). { destruct art as (_ & _ & _ & [E|[E _]]); [|exact E]. exfalso. pose proof rtp. lra. }
  pose proof rtp. pose proof S01p. pose proof S02p.
  assert (ap KB (-927) 600 (badd (badd (@qrt B T) (bmul (@f2 B) (@ar01 B kB T d))) (@ar02 B kB T d)) (@qrt ArithR t + 2 * @ar01 ArithR kR t (bR d) + @ar02 ArithR kR t (bR d)) (RD * t * (1 + 2 * S 0%nat 1%nat + S 0%nat 2%nat))) as Q.
  { eapply ap_eq; [eapply ap_weak; [eapply apA; [eapply apA; [exact art|exact f21|zc|zc|zc]|exact H02|zc|zc|zc]|zc|zc|zc]|reflexivity|ring]. }
  eapply ap_rng; [exact Q|]. right. split; [|exact (rng_le _ _ _ (proj2 (proj2 (proj2 Q))))].
  assert (RD * t * 1 <= RD * t * (1 + 2 * S 0%nat 1%nat + S 0%nat 2%nat)) by (apply Rmult_le_compat_l; lra). lra.
Qed.
Lemma fdpdt : ap KB (-20) 500 (@qdpdt B kB d) (@qdpdt ArithR kR (bR d)) (bR d * RD * (1 + S 1%nat 1%nat)).
Proof.
  unfold qdpdt. R1. pose proof (AccEos.aR m) as aRD. change (831451 / 100000) with RD in aRD. pose proof (dg d Hd) as D0. pose proof RDp. pose proof S11p.
  assert (ap KB (-960) 500 (badd (bmul d (@RDETAIL B)) (bmul d (@ar11 B kB d))) (bR d * @RDETAIL ArithR + bR d * @ar11 ArithR kR (bR d)) (bR d * RD * (1 + S 1%nat 1%nat))) as Q.
  { eapply ap_eq; [eapply ap_weak; [eapply apA; [eapply ap_mul; [exact (addd d Hd)|exact aRD|zc|zc|zc|zc]|eapply ap_mul; [exact (addd d Hd)|exact H11|zc|zc|zc|zc]|zc|zc|zc]|zc|zc|zc]|reflexivity|ring]. }
  eapply ap_rng; [exact Q|]. right. split; [|exact (rng_le _ _ _ (proj2 (proj2 (proj2 Q))))].
  assert (p2 (-20) * 1 <= bR d * RD * (1 + S 1%nat 1%nat)); [|lra]. apply Rmult_le_compat; [apply Rlt_le, bpow_gt_0|lra| |lra].
  rewrite <- (Rmult_1_r (p2 (-20))). apply Rmult_le_compat; [apply Rlt_le, bpow_gt_0|lra|apply Hd|unfold RD; lra].
Qed.
Lemma fs' : ap 1194080 (-932) 460 (@qs B DB kB X T d) (@qs ArithR DB kR Y t (bR d)) (RD * (I 1%nat + S 1%nat 0%nat)).
Proof.
  unfold qs. R1. eapply ap_eq; [eapply ap_weak; [eapply apS; [exact (ap_neg _ _ _ _ _ _ I1)|exact H10|zc|zc|zc]|zc|zc|zc]|reflexivity|ring].
Qed.
Lemma fa' : ap 1194080 (-932) 460 (@qa B DB kB X T d) (@qa ArithR DB kR Y t (bR d)) (RD * t * (I 0%nat + S 0%nat 0%nat)).
Proof.
  unfold qa. R1. eapply ap_eq; [eapply ap_weak; [eapply apA; [exact I0|exact H00|zc|zc|zc]|zc|zc|zc]|reflexivity|ring].
Qed.
Lemma fu' : ap 1194090 (-932) 480 (@qu B DB kB X T d) (@qu ArithR DB kR Y t (bR d)) (RD * t * (I 0%nat + S 0%nat 0%nat + (I 1%nat + S 1%nat 0%nat))).
Proof.
  unfold qu. R1. eapply ap_eq; [eapply ap_weak; [eapply apA; [exact fa'|eapply ap_mul; [exact (at_ T HT)|exact fs'|zc|zc|zc|zc]|zc|zc|zc]|zc|zc|zc]|reflexivity|ring].
Qed.
Lemma fs : ap KB (-932) 460 (@qs B DB kB X T d) (@qs ArithR DB kR Y t (bR d)) (RD * (I 1%nat + S 1%nat 0%nat)).
Proof. eapply ap_weak; [exact fs'|zc|zc|zc]. Qed.
Lemma fu : ap KB (-932) 480 (@qu B DB kB X T d) (@qu ArithR DB kR Y t (bR d)) (RD * t * (I 0%nat + S 0%nat 0%nat + (I 1%nat + S 1%nat 0%nat))).
Proof. eapply ap_weak; [exact fu'|zc|zc|zc]. Qed.
Lemma fcv : ap KB (-934) 460 (@qcv B DB kB X T d) (@qcv ArithR DB kR Y t (bR d)) (RD * (I 2%nat + S 2%nat 0%nat)).
Proof.
  unfold qcv. R1. eapply ap_eq; [eapply ap_weak; [apply ap_neg; eapply apA; [exact I2|exact H20|zc|zc|zc]|zc|zc|zc]|reflexivity|ring].
Qed.
Lemma dense_B : @qdense B d = true.
Proof.
  destruct Hd as [Fd [H1 _]]. change (p2 (-20)) with (/ 1048576) in H1. change (Bltb (blit (L 1 (-15))) d = true).
  destruct (lit_err (L 1 (-15)) (-50) (-49) eq_refl ltac:(zc)) as [L1 L2].
  change (Rlit (L 1 (-15))) with (@EPSILON ArithR) in L2; rewrite lit15 in L2. rewrite (Rabs_pos_eq (1 / 1000000000000000)) in L2 by lra. apply Rabs_le_inv in L2.
  pose proof u_small. rewrite lt_fin by assumption. apply Rlt_bool_true. lra.
Qed.
Lemma dense_R : @qdense ArithR (bR d) = true.
Proof.
  destruct Hd as [Fd [H1 _]]. change (p2 (-20)) with (/ 1048576) in H1. change (Rltb (@EPSILON ArithR) (bR d) = true). apply Rltb_true. rewrite lit15. lra.
Qed.
Lemma fpd' : ap 1202410 7 620 (bdiv (@qp B kB T d) d) (@qp ArithR kR t (bR d) / bR d) (RD * t * (1 + S 0%nat 1%nat)).
Proof.
  assert (ap 1202400 (-20) 600 (@qp B kB T d) (@qp ArithR kR t (bR d)) (bR d * (RD * t) * (1 + S 0%nat 1%nat))) as Q.
  { unfold qp. R1. eapply ap_weak; [eapply ap_mul; [eapply ap_mul; [exact (addd d Hd)|exact art|zc|zc|zc|zc]|exact fz|zc|zc|zc|zc]|zc|zc|zc]. }
  pose proof (dg d Hd) as D0.
  eapply (ap_rng _ (-31) 621); [eapply ap_eq; [eapply ap_weak; [eapply ap_div; [exact Q|exact (addd d Hd)|exact D0|zc|zc|zc|zc]|zc|zc|zc]|reflexivity|field; lra]|].
  pose proof art as (_ & _ & _ & Ra). pose proof fz as (_ & _ & _ & Rz). eapply rng_weak; [eapply rng_mul; [exact Ra|exact Rz]|lia|lia].
Qed.
Lemma fh : ap KB (-932) 700 (@qh B DB kB X T d) (@qh ArithR DB kR Y t (bR d)) (RD * t * (1 + S 0%nat 1%nat + I 0%nat + S 0%nat 0%nat + (I 1%nat + S 1%nat 0%nat))).
Proof.
  unfold qh. rewrite dense_B, dense_R. R1. eapply ap_eq; [eapply ap_weak; [eapply apA; [exact fu'|exact fpd'|zc|zc|zc]|zc|zc|zc]|reflexivity|ring].
Qed.
Lemma fg : ap KB (-932) 700 (@qg B DB kB X T d) (@qg ArithR DB kR Y t (bR d)) (RD * t * (1 + S 0%nat 1%nat + I 0%nat + S 0%nat 0%nat)).
Proof.
  unfold qg. rewrite dense_B, dense_R. R1. eapply ap_eq; [eapply ap_weak; [eapply apA; [exact fa'|exact fpd'|zc|zc|zc]|zc|zc|zc]|reflexivity|ring].
Qed.
Lemma a4 : ap 1 2 3 (@f4 B) 4 4.
Proof. eapply ap_eq; [apply (ap_inok (L 4 0) 2 3); [reflexivity|zc]| |]; cbn; lra. Qed.
Lemma fd2 : ap KB (-950) 600 (@qd2pdd2 B kB T d) (@qd2pdd2 ArithR kR t (bR d)) (RD * t * (2 * S 0%nat 1%nat + 4 * S 0%nat 2%nat + S 0%nat 3%nat) / bR d).
Proof.
  unfold qd2pdd2. rewrite dense_B, dense_R. R1. change (@f4 ArithR) with 4. pose proof (dg d Hd) as D0.
  assert (ap 1210660 (-927) 500 (bmul (@f4 B) (@ar02 B kB T d)) (4 * @ar02 ArithR kR t (bR d)) (RD * t * (4 * S 0%nat 2%nat))) as Q4.
  { eapply ap_eq; [eapply ap_weak; [eapply ap_mul; [exact a4|exact H02|zc|zc|zc|zc]|zc|zc|zc]|reflexivity|ring]. }
  eapply ap_eq; [eapply ap_weak; [eapply ap_div; [eapply apA; [eapply apA; [exact f21|exact Q4|zc|zc|zc]|exact H03|zc|zc|zc]|exact (addd d Hd)|exact D0|zc|zc|zc|zc]|zc|zc|zc]|reflexivity|field; lra].
Qed.
End T.
