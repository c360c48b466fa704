(* The DETAIL residual sums over the reals are those of the error analysis. *)
From Coq Require Import Reals ZArith List Bool Lra Lia Psatz.
From Flocq Require Import Core BinarySingleNaN.
From Verif Require Import FArith Prelude Tab ArithB64 B64Lemmas ArithR RSum SpecReal SpecDetail SpecStd SpecAcc SpecAll SpecAllD DetailTables DetailModel DetailPure DetailEval Api ApiSafe DetailReal DetailThermo DetailEos
  StdDetailProof B64Err AccFold AccMix AccMix2 AccMix3 AccMix4 AccEos AccProof AccSlope AccSlopeProof AccAll1.
Import ListNotations.
Local Open Scope R_scope.
Local Notation RR := (831451 / 100000).

Section R.
Variable m : Libm.
Local Notation B := (ArithB64 m).
Variables (x : nat -> b64) (t d : b64).
Local Notation r := (fun i => bR (x i)).
Hypothesis Hx : forall i, (i < 21)%nat -> fin (x i) /\ (r i = 0 \/ p2 (-50) <= r i).
Hypothesis Hs : 99 / 100 <= tot 21 r <= 101 / 100.
Hypothesis HT : fin t /\ 32 <= bR t <= 2048.
Local Notation X := (@xf B (map x (seq 0 21))).
Local Notation D := (sizeK (xr X) ^ 3 * bR d).
Local Notation kR := (DetailThermo.dk New r (bR t)).
Lemma some_x : exists i, (i < 21)%nat /\ 1 / 10000000 < r i.
Proof. destruct (big_x x Hs) as (i & Hi & H). exists i. split; [exact Hi|lra]. Qed.
Lemma nnX i : (i < 21)%nat -> nn (dX r) i = xr X i.
Proof. intros Hi. rewrite nn_dX by exact Hi. rewrite (xr_r m x i Hi). apply nn_id. exact (r_ge0 x Hx i Hi). Qed.
Lemma k3R : @pK3 ArithR dp_new (dX r) = sizeK (xr X) ^ 3.
Proof. rewrite pK3_ok by exact (dX_pos r some_x). unfold sizeK. now rewrite (K5_ext _ _ nnX). Qed.
Lemma csR n : (12 <= n)%nat -> @pCsn ArithR dp_new (dX r) n = Cstar (xr X) n.
Proof. intros Hn. rewrite pCsn_ok by (exact (dX_pos r some_x) || exact Hn). now apply Cstar_ext, nnX. Qed.
Lemma bsR n : @pBs ArithR dp_new (dX r) n = Bterm (xr X) n.
Proof.
  rewrite pBs_ok by exact (dX_pos r some_x). rewrite <- sum_scal. unfold Bterm. apply sum_ext. intros i Hi. rewrite <- sum_scal. apply sum_ext. intros j Hj. rewrite !nnX by assumption. unfold bsym. ring.
Qed.
Lemma drR : @dr ArithR kR (bR d) = D.
Proof. rewrite (dk_eq r some_x). unfold dr. cbn [ca_k3]. now rewrite k3R. Qed.
Lemma t_p : 0 < bR t. Proof. lra. Qed.
Lemma s0R n : @tsum0 ArithR kR D n = if Nat.leb 12 n then s0x X t d n else 0.
Proof.
  rewrite (dk_eq r some_x). unfold tsum0. cbn [ca_csn ca_tun]. destruct (Nat.leb 12 n) eqn:E; [|reflexivity]. apply Nat.leb_le in E.
  rewrite csR by exact E. rewrite (tun_ok _ t_p), pexpn_expc, DetailEos.fpw_pow. unfold s0x. rewrite <- e_expc. reflexivity.
Qed.
Lemma sbR n : @tsumb ArithR kR D (bR d) n = tbx X t d n.
Proof.
  rewrite (dk_eq r some_x). unfold tsumb, tbx. cbn [ca_csn ca_tun ca_bs]. destruct (Nat.leb n 17) eqn:E; [|reflexivity]. rewrite bsR, (tun_ok _ t_p).
  destruct (Nat.leb 12 n) eqn:E2; [|reflexivity]. apply Nat.leb_le in E2. rewrite csR by exact E2. reflexivity.
Qed.
Lemma bkR n : @bkd ArithR D n = bk_x X d n.
Proof. unfold bkd, bk_x. rewrite DetailEos.fpw_pow. reflexivity. Qed.
Lemma ckR n : @ckd ArithR D n = ck_ X d n.
Proof. unfold ckd, ck_. rewrite DetailEos.fpw_pow. reflexivity. Qed.
Lemma t0R n : @ts0 ArithR kR D (bR d) n = g0x X t d n.
Proof. unfold ts0. rewrite s0R, sbR. reflexivity. Qed.
Lemma t1R n : @ts1 ArithR kR D (bR d) n = tx X t d n.
Proof.
  unfold ts1, cd1. rewrite s0R, sbR, bkR. unfold tx, t0x, s0x, bk_x. destruct (Nat.leb 12 n); [reflexivity|]. unfold f0. rar. cbn [Rlit]. ring.
Qed.
Lemma t2R n : @ts2 ArithR kR D n = g2x X t d n.
Proof.
  unfold ts2, cd2, g2x. rewrite s0R, bkR, ckR. destruct (Nat.leb 12 n); [reflexivity|]. unfold f0. rar. cbn [Rlit]. ring.
Qed.
Lemma t3R n : @ts3 ArithR kR D n = g3x X t d n.
Proof.
  unfold ts3, cd3, cd2, g3x. rewrite s0R, bkR, ckR. destruct (Nat.leb 12 n); [reflexivity|]. unfold f0. rar. cbn [Rlit]. ring.
Qed.
Lemma fdecR f : @fdec ArithR f = - rsum f (seq 0 58).
Proof.
  unfold fdec. enough (forall l a, fold_left (fun a n => (a - f n)%F) l a = a - rsum f l) as -> by (unfold f0; rar; cbn [Rlit]; ring).
  induction l as [|n l IH]; intros a; [cbn; rar; ring|]. cbn [fold_left]. rewrite IH, rsum_cons. rar. ring.
Qed.
Lemma R00 : @ar00 ArithR kR (bR t) (bR d) = RR * bR t * sum 58 (g0x X t d).
Proof. unfold ar00. rewrite facc_rsum, <- sum_rsum, drR, <- sum_scal. apply sum_ext. intros n _. rewrite t0R. reflexivity. Qed.
Lemma R01 : @ar01 ArithR kR (bR t) (bR d) = RR * bR t * sum 58 (tx X t d).
Proof. unfold ar01. rewrite facc_rsum, <- sum_rsum, drR, <- sum_scal. apply sum_ext. intros n _. rewrite t1R. reflexivity. Qed.
Lemma R02 : @ar02 ArithR kR (bR t) (bR d) = RR * bR t * sum 58 (g2x X t d).
Proof. unfold ar02. rewrite facc_rsum, <- sum_rsum, drR, <- sum_scal. apply sum_ext. intros n _. rewrite t2R. reflexivity. Qed.
Lemma R03 : @ar03 ArithR kR (bR t) (bR d) = RR * bR t * sum 58 (g3x X t d).
Proof. unfold ar03. rewrite facc_rsum, <- sum_rsum, drR, <- sum_scal. apply sum_ext. intros n _. rewrite t3R. reflexivity. Qed.
Local Notation w1 n := (tb D_UN n - 1).
Lemma ct1R n : @ct1 ArithR n = RR * w1 n. Proof. reflexivity. Qed.
Lemma R10 : @ar10 ArithR kR (bR d) = - (RR * sum 58 (fun n => w1 n * g0x X t d n)).
Proof. unfold ar10. rewrite fdecR, <- sum_rsum, drR, <- sum_scal. f_equal. apply sum_ext. intros n _. rewrite t0R, ct1R. rar. ring. Qed.
Lemma R11 : @ar11 ArithR kR (bR d) = - (RR * sum 58 (fun n => w1 n * tx X t d n)).
Proof. unfold ar11. rewrite fdecR, <- sum_rsum, drR, <- sum_scal. f_equal. apply sum_ext. intros n _. rewrite t1R, ct1R. rar. ring. Qed.
Lemma R20 : @ar20 ArithR kR (bR d) = RR * sum 58 (fun n => w1 n * tb D_UN n * g0x X t d n).
Proof.
  unfold ar20. rewrite facc_rsum, <- sum_rsum, drR, <- sum_scal. apply sum_ext. intros n _. rewrite t0R. unfold ct2. rewrite ct1R. change (@lv ArithR D_UN n) with (tb D_UN n). rar. ring.
Qed.

(* the sizes *)
Lemma DrX : detail_D r (bR d) = D.
Proof. rewrite detail_D_std. unfold sizeK. now rewrite (K5_ext (xr X) r (xr_r m x)). Qed.
Lemma vnX n : Rabs (virial_n r (bR t) n) = Rabs (Bterm (xr X) n) * Rpower (bR t) (- tb D_UN n).
Proof.
  assert (E : virial_n r (bR t) n = Bterm (xr X) n * Rpower (bR t) (- tb D_UN n)).
  { rewrite Bterm_sum. unfold virial_n. rewrite a_eq, u_eq. f_equal. change (tot 21) with (sum 21). apply sum_ext. intros i Hi. apply sum_ext. intros j Hj.
    rewrite !(xr_r m x) by assumption. rewrite B_std by assumption. unfold Eij. rewrite (pair_bip 0 D_EIJ _ _ E_checked) by lia. now rewrite !E_eq, !K_eq. }
  rewrite E, Rabs_mult. f_equal. apply Rabs_pos_eq, Rlt_le, Rpower_gt0.
Qed.
Lemma dt n e M : (n < 58)%nat -> M = match e with 0%nat => 1 | 1%nat => bk_M X d n | 2%nat => c2M X d n | _ => c3M X d n end ->
  dterm e r (bR t) (bR d) n = (if Nat.leb 12 n then s0M X t d n * M else 0) + match e with 0%nat | 1%nat => tbM X t d n | _ => 0 end.
Proof.
  intros Hn ->. unfold dterm. cbv zeta. rewrite DrX, vnX, (Cr m x), b_eq, k_eq, u_eq. change (nth n D_BN 0%nat) with (bn n). change (nth n D_KN 0%nat) with (kn n).
  assert (L1 : (n <? 12)%nat = negb (Nat.leb 12 n)) by (destruct (Nat.leb_spec 12 n); [apply Nat.ltb_ge|apply Nat.ltb_lt]; lia).
  assert (L2 : (n <? 18)%nat = Nat.leb n 17) by (destruct (Nat.leb_spec n 17); [apply Nat.ltb_lt|apply Nat.ltb_ge]; lia).
  rewrite L1, L2. unfold tbM, s0M, dfactor. unfold c3M, c2M, bk_M, ck_.
  assert (EE : match kn n with 0%nat => 1 | S k => exp (- D ^ S k) end = e_ X d n) by (unfold e_; destruct (kn n); reflexivity). rewrite EE.
  destruct (Nat.leb n 17), (Nat.leb 12 n), e as [|[|[|e]]]; cbn [negb]; ring.
Qed.
Local Notation w1M n := (Rabs (tb D_UN n) + 1).
Lemma dt0 n : (n < 58)%nat -> dterm 0 r (bR t) (bR d) n = g0M X t d n.
Proof. intros Hn. rewrite (dt n 0 1 Hn eq_refl). unfold g0M. destruct (Nat.leb 12 n); ring. Qed.
Lemma dt1 n : (n < 58)%nat -> dterm 1 r (bR t) (bR d) n = tM X t d n.
Proof. intros Hn. rewrite (dt n 1 _ Hn eq_refl). unfold tM, t0M, s0M, bk_M. reflexivity. Qed.
Lemma dt2 n : (n < 58)%nat -> dterm 2 r (bR t) (bR d) n = g2M X t d n.
Proof. intros Hn. rewrite (dt n 2 _ Hn eq_refl). unfold g2M. destruct (Nat.leb 12 n); ring. Qed.
Lemma dt3 n : (n < 58)%nat -> dterm 3 r (bR t) (bR d) n = g3M X t d n.
Proof. intros Hn. rewrite (dt n 3 _ Hn eq_refl). unfold g3M. destruct (Nat.leb 12 n); ring. Qed.
Lemma S00 : dsum 0 0 r (bR t) (bR d) = sum 58 (g0M X t d).
Proof. unfold dsum. change (tot 58) with (sum 58). apply sum_ext. intros n Hn. rewrite dt0 by exact Hn. apply Rmult_1_l. Qed.
Lemma S01 : dsum 0 1 r (bR t) (bR d) = sum 58 (tM X t d).
Proof. unfold dsum. change (tot 58) with (sum 58). apply sum_ext. intros n Hn. rewrite dt1 by exact Hn. apply Rmult_1_l. Qed.
Lemma S02 : dsum 0 2 r (bR t) (bR d) = sum 58 (g2M X t d).
Proof. unfold dsum. change (tot 58) with (sum 58). apply sum_ext. intros n Hn. rewrite dt2 by exact Hn. apply Rmult_1_l. Qed.
Lemma S03 : dsum 0 3 r (bR t) (bR d) = sum 58 (g3M X t d).
Proof. unfold dsum. change (tot 58) with (sum 58). apply sum_ext. intros n Hn. rewrite dt3 by exact Hn. apply Rmult_1_l. Qed.
Lemma S10 : dsum 1 0 r (bR t) (bR d) = sum 58 (fun n => w1M n * g0M X t d n).
Proof. unfold dsum. change (tot 58) with (sum 58). apply sum_ext. intros n Hn. rewrite dt0 by exact Hn. cbn [dweight]. now rewrite u_eq. Qed.
Lemma S11 : dsum 1 1 r (bR t) (bR d) = sum 58 (fun n => w1M n * tM X t d n).
Proof. unfold dsum. change (tot 58) with (sum 58). apply sum_ext. intros n Hn. rewrite dt1 by exact Hn. cbn [dweight]. now rewrite u_eq. Qed.
Lemma S20 : dsum 2 0 r (bR t) (bR d) = sum 58 (fun n => w1M n * Rabs (tb D_UN n) * g0M X t d n).
Proof. unfold dsum. change (tot 58) with (sum 58). apply sum_ext. intros n Hn. rewrite dt0 by exact Hn. cbn [dweight]. now rewrite u_eq. Qed.
End R.
