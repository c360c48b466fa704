(* Error analysis of the density and temperature derivatives of the DETAIL pressure in double precision. *)
From Coq Require Import Reals ZArith List Bool Lra Lia Psatz.
From Flocq Require Import Core BinarySingleNaN.
From Verif Require Import FArith Prelude ArithB64 B64Lemmas ArithR RSum SpecDetail SpecAcc DetailTables DetailModel DetailPure DetailEos B64Err AccFold AccMix AccMix2 AccMix3 AccMix4 AccEos.
Import ListNotations.
Local Open Scope R_scope.

Section T.
Variable m : Libm.
Hypothesis A : accurate m.
Local Notation B := (ArithB64 m).
Variable X : nat -> b64.
Hypothesis HX : forall i, (i < 21)%nat -> fin (X i) /\ rng (-50) 1 (bR (X i)).
Local Notation x := (xr X).
Hypothesis Hs : 99 / 100 <= sum 21 x <= 101 / 100.
Let P : @DParams B := dp_new.
Local Existing Instance P.
Variables T d : b64.
Hypothesis HT : fin T /\ p2 5 <= bR T <= p2 11.
Hypothesis Hd : fin d /\ (bR d = 0 \/ p2 (-20) <= bR d).
Local Notation t := (bR T).
Local Notation D := (sizeK x ^ 3 * bR d).
Hypothesis HD : D <= 3.
Local Notation tu n := (Rpower t (- tb D_UN n)).
Local Notation Dv := (bmul (@pK3 B P X) d).
Local Notation kB := (AccEos.kB m X T).
Local Notation e_ := (AccEos.e_ X d).

(* the factors of the second and third derivatives *)
Definition bk_x n := INR (bn n) - INR (kn n) * D ^ kn n.
Definition bk_M n := INR (bn n) + INR (kn n) * D ^ kn n.
Definition ck_ n := INR (kn n) * INR (kn n) * D ^ kn n.
Definition c2x n := bk_x n * (bk_x n - 1) - ck_ n.
Definition c2M n := bk_M n * (bk_M n + 1) + ck_ n.
Definition c3x n := (bk_x n - 2) * c2x n + ck_ n * (1 - INR (kn n) - 2 * bk_x n).
Definition c3M n := (bk_M n + 2) * c2M n + ck_ n * (1 + INR (kn n) + 2 * bk_M n).
Lemma abk n : (n < 58)%nat -> ap 8287 0 17 (@bkd B Dv n) (bk_x n) (bk_M n).
Proof. exact (abkd m A X HX Hs d Hd HD n). Qed.
Lemma ack n : (n < 58)%nat -> ap 8289 (-112) 24 (@ckd B Dv n) (ck_ n) (ck_ n).
Proof.
  intros H. destruct (bk n H) as [Hb Hk]. unfold ckd, ck_. cbn [fmul fofnat ArithB64].
  pose proof (anat (kn n) ltac:(lia)) as Q2.
  assert (ap 8281 (-112) 8 (@fpw B Dv (kn n)) (D ^ kn n) (D ^ kn n)) as Q3.
  { eapply ap_weak; [apply (afpw m A X HX Hs d Hd HD); lia|lia|lia|lia]. }
  eapply ap_weak; [eapply ap_mul; [eapply ap_mul; [exact Q2|exact Q2|zc|zc|zc|zc]|exact Q3|zc|zc|zc|zc]|zc|zc|zc].
Qed.
Lemma rng_one a b M : rng a b M -> 1 <= M -> rng 0 b M.
Proof. intros R H. right. split; [exact H|exact (rng_le _ _ _ R)]. Qed.
Lemma bk_M1 n : (n < 58)%nat -> 1 <= bk_M n.
Proof.
  intros H. destruct (bk n H) as [Hb _]. unfold bk_M. pose proof (le_INR 1 (bn n) ltac:(lia)) as H1. cbn [INR] in H1.
  pose proof (pos_INR (kn n)). pose proof (pow_le D (kn n) (D_ge0 m A X HX Hs d Hd HD)). nra.
Qed.
Lemma ck_0 n : (n < 58)%nat -> 0 <= ck_ n. Proof. intros H. exact (rng_ge0 _ _ _ (proj2 (proj2 (proj2 (ack n H))))). Qed.
Lemma c2_M1 n : (n < 58)%nat -> 1 <= c2M n.
Proof. intros H. pose proof (bk_M1 n H). pose proof (ck_0 n H). unfold c2M. nra. Qed.
Lemma ac2 n : (n < 58)%nat -> ap 16581 0 36 (bsub (bmul (@bkd B Dv n) (bsub (@bkd B Dv n) (@f1 B))) (@ckd B Dv n)) (c2x n) (c2M n).
Proof.
  intros H. pose proof (abk n H) as Q1. pose proof (ack n H) as Q2.
  assert (ap 8289 0 18 (bsub (@bkd B Dv n) (@f1 B)) (bk_x n - 1) (bk_M n + 1)) as Q3.
  { change 8289%Z with (Z.max 8287 1 + 2)%Z. eapply ap_sub; [exact Q1|exact (a1 m)|zc|zc|zc|]. eapply rng_weak; [eapply rng_add; [apply Q1|apply (a1 m)]|zc|zc]. }
  assert (ap 16579 0 35 (bmul (@bkd B Dv n) (bsub (@bkd B Dv n) (@f1 B))) (bk_x n * (bk_x n - 1)) (bk_M n * (bk_M n + 1))) as Q4.
  { eapply ap_weak; [eapply ap_mul; [exact Q1|exact Q3|zc|zc|zc|zc]|zc|zc|zc]. }
  change 16581%Z with (Z.max 16579 8289 + 2)%Z. unfold c2x, c2M. eapply ap_sub; [exact Q4|exact Q2|zc|zc|zc|].
  apply (rng_one (-112)); [eapply rng_weak; [eapply rng_add; [apply Q4|apply Q2]|zc|zc]|exact (c2_M1 n H)].
Qed.
Lemma c3_M1 n : (n < 58)%nat -> 1 <= c3M n.
Proof.
  intros H. pose proof (bk_M1 n H). pose proof (ck_0 n H). pose proof (c2_M1 n H). pose proof (pos_INR (kn n)). unfold c3M.
  assert (0 <= ck_ n * (1 + INR (kn n) + 2 * bk_M n)) by (apply Rmult_le_pos; lra). nra.
Qed.
Lemma ac3 n : (n < 58)%nat -> ap 24877 0 56 (badd (bmul (bsub (@bkd B Dv n) (@f2 B)) (bsub (bmul (@bkd B Dv n) (bsub (@bkd B Dv n) (@f1 B))) (@ckd B Dv n)))
    (bmul (@ckd B Dv n) (bsub (bsub (@f1 B) (bofZ (Z.of_nat (kn n)))) (bmul (@f2 B) (@bkd B Dv n))))) (c3x n) (c3M n).
Proof.
  intros H. destruct (bk n H) as [Hb Hk]. pose proof (abk n H) as Q1. pose proof (ack n H) as Q2. pose proof (ac2 n H) as Q0.
  assert (ap 8289 0 18 (bsub (@bkd B Dv n) (@f2 B)) (bk_x n - 2) (bk_M n + 2)) as Q3.
  { change 8289%Z with (Z.max 8287 1 + 2)%Z. eapply ap_sub; [exact Q1|exact (a2 m)|zc|zc|zc|]. eapply rng_weak; [eapply rng_add; [apply Q1|apply (a2 m)]|zc|zc]. }
  pose proof (anat (kn n) ltac:(lia)) as QK.
  assert (ap 3 0 9 (bsub (@f1 B) (bofZ (Z.of_nat (kn n)))) (1 - INR (kn n)) (1 + INR (kn n))) as Q4.
  { change 3%Z with (Z.max 1 1 + 2)%Z. eapply ap_sub; [exact (a1 m)|exact QK|zc|zc|zc|]. eapply rng_weak; [eapply rng_add; [apply (a1 m)|apply QK]|zc|zc]. }
  assert (ap 8291 1 18 (bmul (@f2 B) (@bkd B Dv n)) (2 * bk_x n) (2 * bk_M n)) as Q5.
  { eapply ap_weak; [eapply ap_mul; [exact (a2 m)|exact Q1|zc|zc|zc|zc]|zc|zc|zc]. }
  assert (ap 8293 0 19 (bsub (bsub (@f1 B) (bofZ (Z.of_nat (kn n)))) (bmul (@f2 B) (@bkd B Dv n))) (1 - INR (kn n) - 2 * bk_x n) (1 + INR (kn n) + 2 * bk_M n)) as Q6.
  { change 8293%Z with (Z.max 3 8291 + 2)%Z. eapply ap_sub; [exact Q4|exact Q5|zc|zc|zc|]. eapply rng_weak; [eapply rng_add; [apply Q4|apply Q5]|zc|zc]. }
  assert (Q7 := ap_mul _ _ _ _ _ _ _ _ _ _ _ _ Q3 Q0 ltac:(zc) ltac:(zc) ltac:(zc) ltac:(zc)).
  assert (Q8 := ap_mul _ _ _ _ _ _ _ _ _ _ _ _ Q2 Q6 ltac:(zc) ltac:(zc) ltac:(zc) ltac:(zc)).
  eapply ap_weak; [eapply (ap_add _ _ _ _ _ _ _ _ _ _ _ _ 0 56); [exact Q7|exact Q8|zc|zc|zc|]|zc|zc|zc].
  apply (rng_one (-112)); [eapply rng_weak; [eapply rng_add; [apply Q7|apply Q8]|zc|zc]|exact (c3_M1 n H)].
Qed.
(* the common factor of the terms *)
Definition s0x n := Cstar x n * D ^ bn n * tu n * e_ n.
Definition s0M n := Rabs (Cstar x n) * D ^ bn n * tu n * e_ n.
Lemma as0 n : (12 <= n < 58)%nat -> ap 1193946 (-935) 432 (@tsum0 B kB Dv n) (s0x n) (s0M n).
Proof.
  intros H. destruct (bk n ltac:(lia)) as [Hb Hk]. unfold tsum0, s0x, s0M, kB. cbn [ca_csn ca_tun].
  rewrite (proj2 (Nat.leb_le 12 n)) by lia. cbn [fmul ArithB64].
  assert (ap 18631 (-252) 18 (@fpw B Dv (bn n)) (D ^ bn n) (D ^ bn n)) as Q3.
  { eapply ap_weak; [apply (afpw m A X HX Hs d Hd HD); lia|lia|lia|lia]. }
  eapply ap_weak; [eapply ap_mul; [eapply ap_mul; [eapply ap_mul; [apply (aC m A X HX Hs); lia|exact Q3|zc|zc|zc|zc]|apply (atun m A T HT)|zc|zc|zc|zc]|
      apply (aexp m A X HX Hs d Hd HD); lia|zc|zc|zc|zc]|zc|zc|zc].
Qed.
Definition g2x n := if Nat.leb 12 n then s0x n * c2x n else 0.
Definition g2M n := if Nat.leb 12 n then s0M n * c2M n else 0.
Definition g3x n := if Nat.leb 12 n then s0x n * c3x n else 0.
Definition g3M n := if Nat.leb 12 n then s0M n * c3M n else 0.
Lemma ag2 n : (n < 58)%nat -> ap 1210530 (-935) 468 (@ts2 B kB Dv n) (g2x n) (g2M n).
Proof.
  intros H. unfold ts2, cd2, g2x, g2M. destruct (Nat.leb 12 n) eqn:E.
  - apply Nat.leb_le in E. cbn [fmul fsub ArithB64]. eapply ap_weak; [eapply ap_mul; [apply as0; lia|apply ac2; lia|zc|zc|zc|zc]|zc|zc|zc].
  - unfold tsum0. rewrite E. change (@fmul B (@f0 B) (@f0 B)) with B0. eapply ap_weak; [apply (ap_0 0 0)|zc|zc|zc].
Qed.
Lemma ag3 n : (n < 58)%nat -> ap 1218830 (-935) 488 (@ts3 B kB Dv n) (g3x n) (g3M n).
Proof.
  intros H. unfold ts3, cd3, cd2, g3x, g3M. destruct (Nat.leb 12 n) eqn:E.
  - apply Nat.leb_le in E. cbn [fmul fsub fadd fofnat ArithB64]. eapply ap_weak; [eapply ap_mul; [apply as0; lia|apply ac3; lia|zc|zc|zc|zc]|zc|zc|zc].
  - unfold tsum0. rewrite E. change (@fmul B (@f0 B) (@f0 B)) with B0. eapply ap_weak; [apply (ap_0 0 0)|zc|zc|zc].
Qed.
Local Notation RR := (831451 / 100000).
Lemma aRT1 : ap 4 8 15 (bmul (@RDETAIL B) T) (RR * t) (RR * t). Proof. exact (aRT m T HT). Qed.
(* a sum over the 58 terms *)
Lemma asum (f : nat -> b64) (fx fM : nat -> R) k a b : (forall n, (n < 58)%nat -> ap k a b (f n) (fx n) (fM n)) -> (0 <= k <= 2000000)%Z -> inr a (b + 6) ->
  ap (k + 2 * 58) a (b + 6) (fold_left (fun s n => badd s (f n)) (seq 0 58) B0) (sum 58 fx) (sum 58 fM).
Proof.
  intros H Hk Hi. rewrite !sum_rsum. change (2 * 58)%Z with (2 * Z.of_nat (length (seq 0 58)))%Z.
  eapply ap_eq; [apply (ap_fold (fun _ => true) f fx fM k a b 6 (seq 0 58) B0 0 0 k 0)|apply Rplus_0_l|apply Rplus_0_l]; try zc; try lia.
  - intros n Hn _. apply in_seq in Hn. apply H. lia.
  - eapply (ap_weak 0 a (b + 6)); [apply ap_0|lia|lia|lia].
  - rewrite Rmult_0_l. apply Rle_refl.
  - rewrite seq_length. unfold KM. lia.
  - rewrite seq_length. cbn. lia.
Qed.
Lemma aar2 : ap 1210653 (-927) 489 (@ar02 B kB T d) (RR * t * sum 58 g2x) (RR * t * sum 58 g2M).
Proof.
  unfold ar02, facc. change (@dr B kB d) with Dv. cbn [fadd fmul ArithB64]. rewrite <- !sum_scal. change (@f0 B) with B0.
  apply (asum (fun n => bmul (bmul (@RDETAIL B) T) (@ts2 B kB Dv n)) _ _ 1210537 (-927) 483); [|lia|zc].
  intros n Hn. eapply ap_weak; [eapply ap_mul; [exact aRT1|apply ag2; lia|zc|zc|zc|zc]|zc|zc|zc].
Qed.
Lemma aar3 : ap 1218953 (-927) 509 (@ar03 B kB T d) (RR * t * sum 58 g3x) (RR * t * sum 58 g3M).
Proof.
  unfold ar03, facc. change (@dr B kB d) with Dv. cbn [fadd fmul ArithB64]. rewrite <- !sum_scal. change (@f0 B) with B0.
  apply (asum (fun n => bmul (bmul (@RDETAIL B) T) (@ts3 B kB Dv n)) _ _ 1218837 (-927) 503); [|lia|zc].
  intros n Hn. eapply ap_weak; [eapply ap_mul; [exact aRT1|apply ag3; lia|zc|zc|zc|zc]|zc|zc|zc].
Qed.
Lemma aar1 : ap 1202361 (-927) 471 (@ar01 B kB T d) (RR * t * sum 58 (tx X T d)) (RR * t * sum 58 (tM X T d)).
Proof. exact (aar m A X HX Hs T d HT Hd HD T HT). Qed.
Definition sx := 1 + (2 * sum 58 (tx X T d) + sum 58 g2x).
Definition sM := 1 + (2 * sum 58 (tM X T d) + sum 58 g2M).
Lemma adp : ap 1210660 8 500 (@pdpdd B kB T d) (RR * t * sx) (RR * t * sM).
Proof.
  unfold pdpdd. cbn [fadd fmul ArithB64]. pose proof aRT1 as Q0. pose proof aar1 as Q1. pose proof aar2 as Q2.
  assert (Q3 := ap_mul _ _ _ _ _ _ _ _ _ _ _ _ (a2 m) Q1 ltac:(zc) ltac:(zc) ltac:(zc) ltac:(zc)).
  assert (R3 : rng (-926) 473 (RR * t + 2 * (RR * t * sum 58 (tM X T d)))).
  { eapply rng_weak; [eapply rng_add; [apply Q0|apply Q3]|zc|zc]. }
  assert (Q4 := ap_add _ _ _ _ _ _ _ _ _ _ _ _ (-926) 473 Q0 Q3 ltac:(zc) ltac:(zc) ltac:(zc) R3).
  assert (R5 : rng (-927) 500 (RR * t + 2 * (RR * t * sum 58 (tM X T d)) + RR * t * sum 58 g2M)).
  { eapply rng_weak; [eapply rng_add; [apply Q4|apply Q2]|zc|zc]. }
  assert (G : p2 8 <= RR * t). { destruct (proj2 (proj2 (proj2 Q0))) as [E|[E _]]; [|exact E]. exfalso. pose proof (t_pos T HT). lra. }
  pose proof (rng_ge0 _ _ _ (proj2 (proj2 (proj2 Q3)))). pose proof (rng_ge0 _ _ _ (proj2 (proj2 (proj2 Q2)))).
  assert (R6 : rng 8 500 (RR * t + 2 * (RR * t * sum 58 (tM X T d)) + RR * t * sum 58 g2M)).
  { right. split; [lra|exact (rng_le _ _ _ R5)]. }
  eapply ap_eq; [eapply ap_weak; [eapply (ap_add _ _ _ _ _ _ _ _ _ _ _ _ 8 500); [exact Q4|exact Q2|zc|zc|zc|exact R6]|zc|zc|zc]|unfold sx; ring|unfold sM; ring].
Qed.
End T.
