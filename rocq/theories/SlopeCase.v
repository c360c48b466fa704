(* Methane at 300 K and 300 kPa meets the conditions of the double precision density theorems. *)
From Coq Require Import Reals ZArith List Bool Lra Lia FunctionalExtensionality.
From Flocq Require Import Core BinarySingleNaN.
From Interval Require Import Tactic.
From Verif Require Import FArith ArithB64 ArithR SpecDetail StdDetail SpecStd SpecAcc SpecSlope SpecConv ConvDetail ConvCase B64Err AccDensProof.
Import ListNotations.
Local Open Scope R_scope.

Definition ch4b (i : nat) : b64 := match i with O => bofZ 1 | _ => B0 end.
Lemma ch4b_R : (fun i => bR (ch4b i)) = nn ch4.
Proof.
  apply functional_extensionality. intros [|i].
  - rewrite y0. exact (ofZ_R 1 ltac:(lia)).
  - rewrite yS by lia. reflexivity.
Qed.
Definition e0 : R := 300 / (831451 / 100000) / 300.
Lemma e0_d0 : 4 * e0 <= 3 * d0. Proof. unfold e0, d0. lra. Qed.
Lemma e0_D : detail_D (nn ch4) (4 * e0) <= 5 / 100.
Proof. rewrite D_1. unfold K1, e0. interval. Qed.
Lemma e0_S : spread (nn ch4) 300 (4 * e0) <= 1 / 7.
Proof. eapply Rle_trans; [apply spread_mono|exact case_S]. split; [unfold e0; lra|exact e0_d0]. Qed.
Lemma vn_1 T n : virial_n (nn ch4) T n = a_ n * Rpower T (- u_ n) * (B_n n 0 0 * Rpower (pair 0 0 0 * sqrt (E1 * E1)) (u_ n) * Rpower (K1 * K1) (3/2)).
Proof.
  unfold virial_n. f_equal.
  rewrite (tot_ext 21 _ (fun i => nn ch4 i * (B_n n i 0 * Rpower (pair 0 i 0 * sqrt (E_ i * E_ 0)) (u_ n) * Rpower (K_ i * K_ 0) (3/2)))).
  - rewrite sum1, E_1, K_1. reflexivity.
  - intros i _. rewrite (tot_ext 21 _ (fun j => nn ch4 j * (nn ch4 i * (B_n n i j * Rpower (pair 0 i j * sqrt (E_ i * E_ j)) (u_ n) * Rpower (K_ i * K_ j) (3/2))))) by (intros; ring).
    now rewrite sum1.
Qed.
Lemma top_V : tot 18 (fun n => Rabs (virial_n (nn ch4) 300 n)) <= 2.
Proof. rewrite (tot_ext 18 _ _ (fun n _ => f_equal Rabs (vn_1 300 n))). numb. Qed.
Lemma top_C : tot 6 (fun m => Rabs (C_n (nn ch4) (12 + m)) * Rpower 300 (- u_ (12 + m))) <= 2.
Proof. rewrite (tot_ext 6 _ (fun m => Rabs (a_ (12+m) * when (g_ (12+m)) 0 * when (q_ (12+m)) 0 * when (f_ (12+m)) 0 * Rpower E1 (u_ (12+m))) * Rpower 300 (- u_ (12 + m)))) by (intros m _; now rewrite C_1). numb. Qed.
Lemma top_T : slope_top (nn ch4) 300 (4 * e0) <= 8.
Proof.
  pose proof top_V as HV. pose proof top_C as HC. unfold slope_top. rewrite D_1.
  rewrite (tot_ext 46 _ (fun m => Rabs (a_ (12+m) * when (g_ (12+m)) 0 * when (q_ (12+m)) 0 * when (f_ (12+m)) 0 * Rpower E1 (u_ (12+m))) * Rpower 300 (- u_ (12 + m))
     * ((INR (b_ (12+m)) + INR (k_ (12+m))) * (INR (b_ (12+m)) + INR (k_ (12+m)) + 3) + INR (k_ (12+m)) * INR (k_ (12+m))) * (K1 ^ 3 * (4 * e0)) ^ b_ (12+m))) by (intros m _; cbv zeta; now rewrite C_1).
  set (V := tot 18 _) in *. set (C := tot 6 _) in *. clearbody V C.
  assert (HT : 0 <= 4 * e0 <= 1 / 2) by (unfold e0; lra).
  assert (HK : 0 <= K1 ^ 3 * (4 * e0) <= 5/100) by (unfold K1, e0; split; interval).
  set (X := tot 46 _).
  assert (HX : X <= 1 / 2).
  { unfold X, e0. numb. }
  clearbody X. assert (4 * e0 * V <= 1). { apply Rle_trans with (4 * e0 * 2); [apply Rmult_le_compat_l; lra|lra]. }
  assert (K1 ^ 3 * (4 * e0) * C <= 1 / 10). { apply Rle_trans with (K1 ^ 3 * (4 * e0) * 2); [apply Rmult_le_compat_l; lra|lra]. } lra.
Qed.
