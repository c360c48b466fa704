(* The slope used by the density iteration, in double precision, is close to that of the printed equation. *)
From Coq Require Import Reals ZArith List Bool Lra Lia Psatz.
From Coquelicot Require Import Coquelicot.
From Flocq Require Import Core BinarySingleNaN.
From Verif Require Import FArith Prelude Tab ArithB64 B64Lemmas ArithR RSum SpecDetail SpecStd SpecAcc SpecSlope DetailTables DetailModel DetailPure DetailRefine DetailEval
  DetailEos Api ApiSafe BasicProofs Drift StdDetailProof B64Err AccFold AccMix AccMix2 AccMix3 AccMix4 AccEos AccProof AccSlope ConvDetail.
Import ListNotations.
Local Open Scope R_scope.

Section Final.
Variable m : Libm.
Hypothesis A : accurate m.
Local Notation B := (ArithB64 m).
Variables (x : nat -> b64) (t d : b64).
Let r i := bR (x i).
Hypothesis Hx : forall i, (i < 21)%nat -> fin (x i) /\ (r i = 0 \/ p2 (-50) <= r i).
Hypothesis Hs : 99 / 100 <= tot 21 r <= 101 / 100.
Hypothesis HT : fin t /\ 32 <= bR t <= 2048.
Hypothesis Hd : fin d /\ (bR d = 0 \/ p2 (-20) <= bR d).
Hypothesis HD : detail_D r (bR d) <= 3.
Let X := @xf B (map x (seq 0 21)).
Let q := @pdpdd B (@cache_of B dp_new (Some (map x (seq 0 21))) (Some t)) t d.
Local Notation RR := (831451 / 100000).
Lemma dk : Rpower (sizeK5 r) (1/5) ^ 3 = sizeK (xr X) ^ 3.
Proof. unfold sizeK. rewrite (K5_ext (xr X) r (xr_r m x)). now rewrite K5_std. Qed.
Lemma sum12 (f : nat -> R) : (forall n, (n < 12)%nat -> f n = 0) -> sum 58 f = tot 46 (fun m => f (12 + m)%nat).
Proof.
  intros H. change (sum 58 f) with (sum (12 + 46) f). rewrite sum_split. change (tot 46) with (sum 46).
  assert (Z : sum 12 f = 0) by (cbn [sum]; rewrite !H by lia; ring). rewrite Z. apply Rplus_0_l.
Qed.
Lemma t0_sum : sum 58 (t0x X t d) = tot 46 (fun m => t0x X t d (12 + m)).
Proof. apply sum12. intros n Hn. unfold t0x. now rewrite (proj2 (Nat.leb_gt 12 n)) by lia. Qed.
Lemma g2_sum : sum 58 (g2x X t d) = tot 46 (fun m => g2x X t d (12 + m)).
Proof. apply sum12. intros n Hn. unfold g2x. now rewrite (proj2 (Nat.leb_gt 12 n)) by lia. Qed.
Lemma g2M_sum : sum 58 (g2M X t d) = tot 46 (fun m => g2M X t d (12 + m)).
Proof. apply sum12. intros n Hn. unfold g2M. now rewrite (proj2 (Nat.leb_gt 12 n)) by lia. Qed.
Lemma Cr n : C_n r n = Cstar (xr X) n.
Proof. rewrite C_std. symmetry. apply Cstar_ext. exact (xr_r m x). Qed.
Lemma slope_eq : 0 < bR d -> sx X t d = detail_Z r (bR t) (bR d) + bR d * Z1 r (bR t) (bR d).
Proof.
  intros H0. unfold sx. pose proof (z_eq m x t d) as EZ. fold X r in EZ. unfold Z1. pose proof (Z_eq r (bR t) (bR d)) as EL.
  rewrite <- EZ in EL. rewrite <- EZ. rewrite Rmult_plus_distr_l. rewrite <- (tot_scal 46 (bR d)).
  assert (E1 : tot 46 (fun m => C_n r (12 + m) * Rpower (bR t) (- u_ (12 + m)) * hb (b_ (12 + m)) (k_ (12 + m)) (Rpower (sizeK5 r) (1 / 5) ^ 3 * bR d)) = sum 58 (t0x X t d)).
  { rewrite t0_sum. apply tot_ext. intros n Hn. unfold t0x. rewrite (proj2 (Nat.leb_le 12 _)) by lia.
    rewrite Cr, u_eq, b_eq, k_eq, dk. unfold hb, e_, bn, kn, ek. destruct (nth (12 + n) D_KN 0%nat); ring. }
  assert (E2 : tot 46 (fun m => bR d * (C_n r (12 + m) * Rpower (bR t) (- u_ (12 + m)) * (hb1 (b_ (12 + m)) (k_ (12 + m)) (Rpower (sizeK5 r) (1 / 5) ^ 3 * bR d) / bR d)))
     = sum 58 (t0x X t d) + sum 58 (g2x X t d)).
  { rewrite t0_sum, g2_sum. symmetry. etransitivity; [symmetry; apply (sum_plus 46 (fun m => t0x X t d (12 + m)) (fun m => g2x X t d (12 + m)))|]. apply tot_ext. intros n Hn. cbv beta.
    unfold t0x, g2x. rewrite (proj2 (Nat.leb_le 12 _)) by lia. rewrite Cr, u_eq, b_eq, k_eq, dk. unfold s0x, c2x, bk_x, ck_, hb1, e_, bn, kn, ek.
    destruct (nth (12 + n) D_KN 0%nat); field; lra. }
  rewrite E2. rewrite E1 in EL. assert (EB : sum 58 (tx X t d) = sum 58 (t0x X t d) + lin r (bR t) * bR d) by lra. lra.
Qed.
Lemma ssize_eq : sM X t d = slope_size r (bR t) (bR d).
Proof.
  unfold sM, slope_size. cbv zeta. pose proof (s_eq m x t d) as ES. fold X r in ES.
  unfold detail_size in ES. cbv zeta in ES.
  set (S1 := bR d * tot 18 _) in *. set (S2 := detail_D r (bR d) * tot 6 _) in *. 
  rewrite g2M_sum.
  set (S3 := tot 46 _) in ES. set (S4 := tot 46 (fun m => g2M X t d (12 + m))).
  match goal with |- _ = _ + ?a => assert (E : a = 2 * S3 + S4) end; [|rewrite E; lra].
  unfold S3, S4. rewrite <- tot_scal. symmetry. etransitivity; [symmetry; apply sum_plus|]. apply tot_ext. intros n Hn. cbv beta zeta.
  unfold g2M. rewrite (proj2 (Nat.leb_le 12 _)) by lia. unfold s0M, c2M, bk_M, ck_, e_. unfold detail_D. rewrite dk, <- Cr, <- u_eq. unfold bn, kn. rewrite b_eq, k_eq.
  destruct (nth (12 + n) D_KN 0%nat); ring.
Qed.
Lemma slope_derive : 0 < bR d -> is_derive (detail_p r (bR t)) (bR d) (RR * bR t * sx X t d).
Proof. intros H. rewrite slope_eq by exact H. now apply p_derive. Qed.
Lemma slope_ap : ap 1210660 8 500 q (RR * bR t * sx X t d) (RR * bR t * slope_size r (bR t) (bR d)).
Proof.
  rewrite <- ssize_eq. apply (adp m A X (HX' m x Hx Hs) (Hs' m x Hs) t d HT Hd). exact (HD' m x d HD).
Qed.
Lemma press_ap : ap 1202380 (-20) 600 (@pp B (@cache_of B dp_new (Some (map x (seq 0 21))) (Some t)) t d) (detail_p r (bR t) (bR d))
  (bR d * RR * bR t * detail_size r (bR t) (bR d)).
Proof.
  pose proof (app m A X (HX' m x Hx Hs) (Hs' m x Hs) t d HT Hd (HD' m x d HD) t HT) as Q1.
  pose proof (p_eq m x t d) as E1. pose proof (s_eq m x t d) as E2. fold X r in E1, E2. rewrite E1, E2 in Q1. exact Q1.
Qed.
Lemma slope_accurate : p2 (-20) <= bR d -> fin q /\ Rabs (bR q - Derive (detail_p r (bR t)) (bR d)) <= 3 / 20000000000 * (RR * bR t * slope_size r (bR t) (bR d)).
Proof.
  intros H0. assert (0 < bR d) by (eapply Rlt_le_trans; [apply (bpow_gt_0 radix2 (-20))|exact H0]).
  rewrite (is_derive_unique _ _ _ (slope_derive H)). destruct slope_ap as (F & E & _ & R). split; [exact F|].
  eapply Rle_trans; [exact E|]. apply Rmult_le_compat_r; [exact (rng_ge0 _ _ _ R)|]. rewrite u64_val. lra.
Qed.
Lemma slope_bound : Rabs (RR * bR t * sx X t d) <= RR * bR t * slope_size r (bR t) (bR d).
Proof. apply slope_ap. Qed.
End Final.
