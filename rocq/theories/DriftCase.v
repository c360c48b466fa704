(* Methane at 10 mol/l, warmed from 256 K to 512 K in steps of 2^-24 K. *)
From Coq Require Import Reals ZArith List Bool Lra Lia Psatz.
From Flocq Require Import Core BinarySingleNaN.
From Interval Require Import Tactic.
From Verif Require Import FArith Prelude ArithB64 B64Lemmas ArithR SpecDetail StdDetail SpecStd SpecAcc DetailEos StdDetailProof B64Err ConvDetail ConvCase.
Import ListNotations.
Local Open Scope R_scope.

(* numbers of the equation *)
Definition c1 n := a_ n * when (g_ n) 0 * when (q_ n) 0 * when (f_ n) 0 * Rpower E1 (u_ n).
Definition v1 T n := a_ n * Rpower T (- u_ n) * (B_n n 0 0 * Rpower (pair 0 0 0 * sqrt (E1 * E1)) (u_ n) * Rpower (K1 * K1) (3/2)).
Lemma Z_1 T d : detail_Z (nn ch4) T d = 1 + tot 18 (v1 T) * d - K1 ^ 3 * d * tot 6 (fun m => c1 (12 + m) * Rpower T (- u_ (12 + m)))
  + tot 46 (fun m => let n := (12 + m)%nat in c1 n * Rpower T (- u_ n) * (INR (b_ n) - INR (k_ n) * (K1 ^ 3 * d) ^ k_ n) * (K1 ^ 3 * d) ^ b_ n
      * match k_ n with O => 1 | k => exp (- (K1 ^ 3 * d) ^ k) end).
Proof.
  unfold detail_Z. rewrite V_1. pose proof (D_1 d) as E. unfold detail_D in E. cbv zeta. rewrite E.
  rewrite (tot_ext 6 _ (fun m => c1 (12 + m) * Rpower T (- u_ (12 + m)))) by (intros m _; now rewrite C_1).
  rewrite (tot_ext 46 _ (fun m => let n := (12 + m)%nat in c1 n * Rpower T (- u_ n) * (INR (b_ n) - INR (k_ n) * (K1 ^ 3 * d) ^ k_ n) * (K1 ^ 3 * d) ^ b_ n
      * match k_ n with O => 1 | k => exp (- (K1 ^ 3 * d) ^ k) end)) by (intros m _; cbv zeta; now rewrite C_1).
  reflexivity.
Qed.
Lemma Z_cold : 1 / 2 <= detail_Z (nn ch4) 256 10 <= 7 / 10.
Proof. rewrite Z_1. unfold c1, v1. split; numb. Qed.
Lemma Z_warm : 1 <= detail_Z (nn ch4) 512 10.
Proof. rewrite Z_1. unfold c1, v1. numb. Qed.
Lemma virial1 T n : virial_n (nn ch4) T n = v1 T n.
Proof.
  unfold virial_n, v1. f_equal.
  rewrite (tot_ext 21 _ (fun i => nn ch4 i * (B_n n i 0 * Rpower (pair 0 i 0 * sqrt (E_ i * E_ 0)) (u_ n) * Rpower (K_ i * K_ 0) (3/2)))).
  - rewrite sum1, E_1, K_1. reflexivity.
  - intros i _. rewrite (tot_ext 21 _ (fun j => nn ch4 j * (nn ch4 i * (B_n n i j * Rpower (pair 0 i j * sqrt (E_ i * E_ j)) (u_ n) * Rpower (K_ i * K_ j) (3/2))))) by (intros; ring).
    now rewrite sum1.
Qed.
Lemma size_1 T d : detail_size (nn ch4) T d = 1 + d * tot 18 (fun n => Rabs (v1 T n)) + K1 ^ 3 * d * tot 6 (fun m => Rabs (c1 (12 + m)) * Rpower T (- u_ (12 + m)))
  + tot 46 (fun m => let n := (12 + m)%nat in Rabs (c1 n) * Rpower T (- u_ n) * (INR (b_ n) + INR (k_ n) * (K1 ^ 3 * d) ^ k_ n) * (K1 ^ 3 * d) ^ b_ n
      * match k_ n with O => 1 | k => exp (- (K1 ^ 3 * d) ^ k) end).
Proof.
  unfold detail_size. rewrite D_1. cbv zeta.
  rewrite (tot_ext 18 _ (fun n => Rabs (v1 T n))) by (intros m _; now rewrite virial1).
  rewrite (tot_ext 6 _ (fun m => Rabs (c1 (12 + m)) * Rpower T (- u_ (12 + m)))) by (intros m _; now rewrite C_1).
  rewrite (tot_ext 46 _ (fun m => let n := (12 + m)%nat in Rabs (c1 n) * Rpower T (- u_ n) * (INR (b_ n) + INR (k_ n) * (K1 ^ 3 * d) ^ k_ n) * (K1 ^ 3 * d) ^ b_ n
      * match k_ n with O => 1 | k => exp (- (K1 ^ 3 * d) ^ k) end)) by (intros m _; cbv zeta; now rewrite C_1).
  reflexivity.
Qed.
Lemma S_cold : detail_size (nn ch4) 256 10 <= 100.
Proof. rewrite size_1. unfold c1, v1. numb. Qed.
Lemma S_warm : detail_size (nn ch4) 512 10 <= 100.
Proof. rewrite size_1. unfold c1, v1. numb. Qed.
