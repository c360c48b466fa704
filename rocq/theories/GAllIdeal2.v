(* The GERG ideal-gas part in double precision: the sum over the components. *)
From Coq Require Import Reals ZArith List Bool Lra Lia Psatz.
From Flocq Require Import Core BinarySingleNaN.
From Verif Require Import FArith Prelude Tab ArithB64 B64Lemmas ArithR RSum SpecDetail SpecGerg SpecIdeal SpecAcc DetailPure GergTables GergModel GergPure GergRefine GergEval Api ApiSafe BasicProofs HistoryGerg SpecReal Thermo DetailReal DetailThermo GergReal GergIdeal GergThermo
  DetailEos GergEos IdealGas StdGerg SpecStd SpecTables StdGergProof SpecAll B64Err AccFold AccMix AccEos GAccRed GAccTerms GAllIdeal.
Import ListNotations.
Local Open Scope R_scope.
Local Existing Instance gp_new.

Section M.
Variable m : Libm.
Hypothesis A : accurate m.
Local Notation B := (ArithB64 m).
Variable X : nat -> b64.
Hypothesis HX : forall i, (1 <= i < 22)%nat -> fin (X i) /\ rng (-49) 1 (bR (X i)).
Variables T d : b64.
Hypothesis HT : fin T /\ p2 5 <= bR T <= p2 11.
Hypothesis Hd : fin d /\ p2 (-20) <= bR d <= p2 10.
Local Notation t := (bR T).
Lemma ahyp i : (i < 21)%nat -> ap3 18208 (-550) 304 (@ghyp B gp_new T (S i)) (@ghyp ArithR gp_new t (S i)) (fun e => tot 4 (fun j => hyp_size e i j t)).
Proof.
  intros Hi. unfold ghyp. cbn [seq fold_left].
  assert (P0 : ap3 18200 (-550) 300 (@f0 B, @f0 B, @f0 B) (@f0 ArithR, @f0 ArithR, @f0 ArithR) (fun _ => 0)).
  { assert (ap 18200 (-550) 300 (@f0 B) (@f0 ArithR) 0) by (eapply ap_weak; [apply (ap_0 (-550) 300)|lia|lia|lia]). split; [|split]; assumption. }
  pose proof (hstep m A T HT i 0 _ _ _ _ _ Hi ltac:(lia) P0 ltac:(lia) ltac:(lia)) as P1.
  pose proof (hstep m A T HT i 1 _ _ _ _ _ Hi ltac:(lia) P1 ltac:(lia) ltac:(lia)) as P2.
  pose proof (hstep m A T HT i 2 _ _ _ _ _ Hi ltac:(lia) P2 ltac:(lia) ltac:(lia)) as P3.
  pose proof (hstep m A T HT i 3 _ _ _ _ _ Hi ltac:(lia) P3 ltac:(lia) ltac:(lia)) as P4.
  eapply ap3_ext; [|exact P4]. intros e _. reflexivity.
Qed.
Lemma d_gt : 0 < bR d. Proof. destruct Hd as [_ [H _]]. pose proof (bpow_gt_0 radix2 (-20)). lra. Qed.
Lemma alnd : ap 9 0 5 (@glogd B d) (@glogd ArithR (bR d)) (lsize (bR d)).
Proof.
  pose proof d_gt as D0. destruct Hd as [Fd [H1 H2]]. change (p2 (-20)) with (/ 1048576) in H1.
  unfold glogd. change (@GEPSILON B) with (blit (L 1 (-15))). change (@flt B) with (@Bltb 53 1024). change (@flt ArithR) with Rltb.
  assert (Rltb (@GEPSILON ArithR) (bR d) = true) as -> by (apply Rltb_true; rewrite glit15; lra).
  assert (Bltb (blit (L 1 (-15))) d = true) as ->.
  { destruct (lit_err (L 1 (-15)) (-50) (-49) eq_refl ltac:(zc)) as [L1 L2].
    change (Rlit (L 1 (-15))) with (@GEPSILON ArithR) in L2; rewrite glit15 in L2. rewrite (Rabs_pos_eq (1 / 1000000000000000)) in L2 by lra. apply Rabs_le_inv in L2.
    pose proof u_small. rewrite lt_fin by assumption. apply Rlt_bool_true. lra. }
  cbn [fln ArithB64]. change (@fln ArithR) with ln.
  assert (ap 0 (-20) 10 d (bR d) (bR d)) as P.
  { eapply ap_eq; [apply ap_exact; [exact Fd|]|reflexivity|]; rewrite Rabs_pos_eq by lra; [right; apply Hd|reflexivity]. }
  exact (aln m A 0 (-20) 10 _ _ 20 5 P D0 ltac:(zc) ltac:(lia) ltac:(lia) ltac:(lia) ltac:(lia) ltac:(lia)).
Qed.
Hypothesis H0 : forall i, (1 <= i < 22)%nat -> @act ArithR (bR (X i)) = false -> bR (X i) = 0.
Lemma astep i K b v x M : (i < 21)%nat -> ap3 K (-700) b v x M -> (18300 <= K <= 100000)%Z -> (320 <= b <= 500)%Z ->
  ap3 (K + 2) (-700) (b + 1) (@ga0_step B gp_new X T d (S i) v) (@ga0_step ArithR gp_new (fun i => bR (X i)) t (bR d) (S i) x)
    (fun e => M e + bR (X (S i)) * ideal_size e i (bR (X (S i))) t (bR d)).
Proof.
  intros Hi P HK Hb. destruct v as [[v0 v1] v2], x as [[x0 x1] x2]. destruct P as (P0 & P1 & P2). cbn [fst snd] in P0, P1, P2.
  unfold ga0_step. destruct (act_Y m X HX (S i) ltac:(lia)) as [-> Ha]. destruct (@act ArithR (bR (X (S i)))) eqn:Ea.
  2: { assert (Z : bR (X (S i)) = 0) by (apply H0; [lia|exact Ea]). rewrite Z. apply (ap3_ext _ _ _ _ _ M); [intros e _; ring|].
       split; [|split]; cbn [fst snd]; (eapply ap_weak; [eassumption|lia|lia|lia]). }
  assert (Xp : 0 < bR (X (S i))) by now apply Ha. destruct (HX (S i) ltac:(lia)) as [FX RX].
  assert (aX : ap 0 (-49) 1 (X (S i)) (bR (X (S i))) (bR (X (S i)))).
  { eapply ap_eq; [apply ap_exact; [exact FX|]|reflexivity|]; rewrite Rabs_pos_eq by lra; [exact RX|reflexivity]. }
  pose proof (aln m A 0 (-49) 1 _ _ 49 6 aX Xp ltac:(zc) ltac:(lia) ltac:(lia) ltac:(lia) ltac:(lia) ltac:(lia)) as aLX.
  pose proof (at_ T HT) as aT. pose proof (t_gt T HT) as T0.
  pose proof (aln m A 0 5 11 _ _ 11 4 aT T0 ltac:(zc) ltac:(lia) ltac:(lia) ltac:(lia) ltac:(lia) ltac:(lia)) as aLT.
  pose proof alnd as aLD. pose proof (an1 m A i Hi) as N1. pose proof (an2 m i Hi) as N2. pose proof (an3 m i Hi) as N3.
  pose proof (ahyp i Hi) as Hh. destruct (@ghyp B gp_new T (S i)) as [[h0 h1] h2]. destruct (@ghyp ArithR gp_new t (S i)) as [[y0 y1] y2].
  destruct Hh as (Q0 & Q1 & Q2). cbn [fst snd] in Q0, Q1, Q2.
  assert (N2t : ap 16 (-20) 15 (bdiv (@gq_n0i B gp_new (S i) 2%nat) T) (@gq_n0i ArithR gp_new (S i) 2%nat / t) (n2size i / t)).
  { eapply ap_weak; [eapply ap_div; [exact N2|exact aT|exact T0|zc|zc|zc|zc]|zc|zc|zc]. }
  cbn [fadd fsub fmul fdiv fneg fln ArithB64].
  change (@fadd ArithR) with Rplus. change (@fsub ArithR) with Rminus. change (@fmul ArithR) with Rmult. change (@fdiv ArithR) with Rdiv. change (@fneg ArithR) with Ropp. change (@fln ArithR) with ln.
  split; [|split]; cbn [fst snd ideal_size].
  - eapply ap_weak; [eapply apA; [exact P0|eapply ap_mul; [exact aX|eapply apA; [eapply apS; [eapply apA; [eapply apA; [eapply apA; [exact aLD|exact aLX|zc|zc|zc]|exact N1|zc|zc|zc]|exact N2t|zc|zc|zc]|
      eapply ap_mul; [exact N3|exact aLT|zc|zc|zc|zc]|zc|zc|zc]|exact Q0|zc|zc|zc]|zc|zc|zc|zc]|zc|zc|zc]|lia|lia|lia].
  - eapply ap_weak; [eapply apA; [exact P1|eapply ap_mul; [exact aX|eapply apA; [eapply apA; [exact N3|exact N2t|zc|zc|zc]|exact Q1|zc|zc|zc]|zc|zc|zc|zc]|zc|zc|zc]|lia|lia|lia].
  - eapply ap_weak; [eapply apA; [exact P2|eapply ap_mul; [apply ap_neg; exact aX|eapply apA; [exact N3|exact Q2|zc|zc|zc]|zc|zc|zc|zc]|zc|zc|zc]|lia|lia|lia].
Qed.
Lemma afold l : forall K b v x M, (forall i, In i l -> (1 <= i < 22)%nat) -> ap3 K (-700) b v x M -> (18300 <= K)%Z -> (320 <= b)%Z ->
  (K + 2 * Z.of_nat (length l) <= 100000)%Z -> (b + Z.of_nat (length l) <= 500)%Z ->
  ap3 (K + 2 * Z.of_nat (length l)) (-700) (b + Z.of_nat (length l)) (fold_left (fun st i => @ga0_step B gp_new X T d i st) l v)
    (fold_left (fun st i => @ga0_step ArithR gp_new (fun i => bR (X i)) t (bR d) i st) l x)
    (fun e => M e + rsum (fun i => bR (X i) * ideal_size e (Init.Nat.pred i) (bR (X i)) t (bR d)) l).
Proof.
  induction l as [|i l IH]; intros K b v x M Hl P HK Hb HK' Hb'.
  - cbn [fold_left length]. apply (ap3_ext _ _ _ _ _ M); [intros e _; unfold rsum; cbn; ring|]. rewrite !Z.add_0_r. exact P.
  - cbn [fold_left length] in *. rewrite Nat2Z.inj_succ in *. pose proof (Hl i (or_introl eq_refl)) as Hi. destruct i as [|i]; [lia|].
    pose proof (astep i K b v x M ltac:(lia) P ltac:(lia) ltac:(lia)) as Q.
    pose proof (IH _ _ _ _ _ (fun j Hj => Hl j (or_intror Hj)) Q ltac:(lia) ltac:(lia) ltac:(lia) ltac:(lia)) as R.
    replace (K + 2 * Z.succ (Z.of_nat (length l)))%Z with (K + 2 + 2 * Z.of_nat (length l))%Z by lia.
    replace (b + Z.succ (Z.of_nat (length l)))%Z with (b + 1 + Z.of_nat (length l))%Z by lia.
    eapply ap3_ext; [|exact R]. intros e _. cbv beta. rewrite rsum_cons. change (Init.Nat.pred (S i)) with i. apply Rplus_assoc.
Qed.
Lemma aga0 : let a e := nth e (@ga0 B gp_new X T d) (@f0 B) in let r e := nth e (@ga0 ArithR gp_new (fun i => bR (X i)) t (bR d)) (@f0 ArithR) in
  forall e, (e < 3)%nat -> ap 18400 (-700) 350 (a e) (r e) (ideal_sum e (fun i => bR (X i)) t (bR d)).
Proof.
  assert (P0 : ap3 18300 (-700) 320 (@f0 B, @f0 B, @f0 B) (@f0 ArithR, @f0 ArithR, @f0 ArithR) (fun _ => 0)).
  { assert (ap 18300 (-700) 320 (@f0 B) (@f0 ArithR) 0) by (eapply ap_weak; [apply (ap_0 (-700) 320)|lia|lia|lia]). split; [|split]; assumption. }
  pose proof (afold (seq 1 21) _ _ _ _ _ ltac:(intros i Hi; apply in_seq in Hi; lia) P0 ltac:(lia) ltac:(lia) ltac:(cbn; lia) ltac:(cbn; lia)) as Q.
  assert (E : forall e, 0 + rsum (fun i => bR (X i) * ideal_size e (Init.Nat.pred i) (bR (X i)) t (bR d)) (seq 1 21) = ideal_sum e (fun i => bR (X i)) t (bR d)).
  { intros e. rewrite Rplus_0_l. unfold ideal_sum. change (tot 21 (fun i => bR (X (S i)) * ideal_size e i (bR (X (S i))) t (bR d)))
      with (sumf 0 21 (fun i => bR (X i) * ideal_size e (Init.Nat.pred i) (bR (X i)) t (bR d))). rewrite sumf_rsum. reflexivity. }
  cbv zeta. intros e He. unfold ga0, ga0sum. 
  set (fb := fold_left _ _ (@f0 B, @f0 B, @f0 B)) in *. set (fr := fold_left _ _ (@f0 ArithR, @f0 ArithR, @f0 ArithR)) in *. clearbody fb fr.
  destruct fb as [[b0 b1] b2], fr as [[r0 r1] r2]. destruct Q as (Q0 & Q1 & Q2). cbn [fst snd] in Q0, Q1, Q2. cbv beta in Q0, Q1, Q2. rewrite E in Q0, Q1, Q2.
  destruct e as [|[|[|e]]]; [| | |lia]; cbn [nth]; (eapply ap_weak; [eassumption|cbn; lia|lia|cbn; lia]).
Qed.
End M.
