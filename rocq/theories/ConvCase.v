(* The low pressure condition for methane at 300 K. *)
From Coq Require Import Reals ZArith List Bool Lra Lia.
From Interval Require Import Tactic.
From Verif Require Import FArith ArithR SpecDetail StdDetail SpecStd SpecAcc SpecConv ConvDetail.
Import ListNotations.
Local Open Scope R_scope.
Local Existing Instance ArithR.

Definition ch4 (i : nat) : R := match i with O => 1 | _ => 0 end.
Lemma tot_one n f : (forall i, (0 < i)%nat -> f i = 0) -> tot (S n) f = f 0%nat.
Proof. intros H. induction n as [|n IH]; [cbn; ring|]. cbn [tot] in *. rewrite IH, (H (S n)) by lia. ring. Qed.
Lemma y0 : nn ch4 0 = 1. Proof. unfold nn, ch4, Rmax. destruct (Rle_dec _ _); lra. Qed.
Lemma yS i : (0 < i)%nat -> nn ch4 i = 0. Proof. intros H. destruct i; [lia|]. unfold nn, ch4, Rmax. destruct (Rle_dec _ _); lra. Qed.
Lemma sum1 f : tot 21 (fun i => nn ch4 i * f i) = f 0%nat.
Proof. rewrite (tot_one 20), y0; [ring|]. intros i Hi. rewrite yS by exact Hi. ring. Qed.
Lemma pairs1 f : tot 21 (fun j => tot j (fun i => nn ch4 i * nn ch4 j * f i j)) = 0.
Proof.
  rewrite (tot_one 20); [reflexivity|]. intros j Hj. rewrite (tot_ext _ _ (fun i => 0 * 0)); [rewrite tot_scal; ring|].
  intros i _. rewrite (yS j) by exact Hj. ring.
Qed.
Lemma K5_1 : sizeK5 (nn ch4) = Rpower (K_ 0) (5/2) ^ 2.
Proof. unfold sizeK5. rewrite sum1. rewrite (tot_ext 21 _ (fun j => tot j (fun i => nn ch4 i * nn ch4 j * ((pair 2 i j ^ 5 - 1) * Rpower (K_ i * K_ j) (5/2))))).
  - rewrite pairs1. ring.
  - intros j _. apply tot_ext. intros i _. ring.
Qed.
Lemma U5_1 : energyU5 (nn ch4) = Rpower (E_ 0) (5/2) ^ 2.
Proof. unfold energyU5. rewrite sum1. rewrite (tot_ext 21 _ (fun j => tot j (fun i => nn ch4 i * nn ch4 j * ((pair 1 i j ^ 5 - 1) * Rpower (E_ i * E_ j) (5/2))))).
  - rewrite pairs1. ring.
  - intros j _. apply tot_ext. intros i _. ring.
Qed.
Lemma G_1 : orient (nn ch4) = 0.
Proof. unfold orient. rewrite sum1. rewrite (tot_ext 21 _ (fun j => tot j (fun i => nn ch4 i * nn ch4 j * ((pair 3 i j - 1) * (G_ i + G_ j))))).
  - rewrite pairs1. unfold G_, comp. cbn. lra.
  - intros j _. apply tot_ext. intros i _. ring.
Qed.
Lemma Q_1 : quad (nn ch4) = 0.
Proof. unfold quad. rewrite sum1. unfold Q_, comp. cbn. lra. Qed.
Lemma F_1 : high (nn ch4) = 0.
Proof. unfold high. rewrite (tot_ext 21 _ (fun i => nn ch4 i * (nn ch4 i * F_ i))) by (intros; ring). rewrite sum1. unfold F_, comp. cbn. lra. Qed.

Lemma R5 e : 0 < e -> Rpower (Rpower e (5/2) ^ 2) (1/5) = e.
Proof.
  intros H. rewrite <- Rpower_pow by apply exp_pos. rewrite !Rpower_mult. replace (5 / 2 * (INR 2 * (1 / 5))) with 1 by (cbn; field). now apply Rpower_1.
Qed.
Definition E1 : R := 1513183 / 10000. Definition K1 : R := 4619255 / 10000000.
Lemma E_1 : E_ 0 = E1. Proof. unfold E_, comp, E1. cbn. lra. Qed.
Lemma K_1 : K_ 0 = K1. Proof. unfold K_, comp, K1. cbn. lra. Qed.
Lemma C_1 n : C_n (nn ch4) n = a_ n * when (g_ n) 0 * when (q_ n) 0 * when (f_ n) 0 * Rpower E1 (u_ n).
Proof.
  unfold C_n. rewrite G_1, Q_1, F_1, U5_1, E_1. rewrite (R5 E1) by (unfold E1; lra). replace (0 ^ 2) with 0 by ring. reflexivity.
Qed.
Lemma D_1 d : detail_D (nn ch4) d = K1 ^ 3 * d.
Proof. unfold detail_D. rewrite K5_1, K_1, (R5 K1) by (unfold K1; lra). reflexivity. Qed.
Lemma V_1 T : second_virial (nn ch4) T = tot 18 (fun n => a_ n * Rpower T (- u_ n) * (B_n n 0 0 * Rpower (pair 0 0 0 * sqrt (E1 * E1)) (u_ n) * Rpower (K1 * K1) (3/2))).
Proof.
  unfold second_virial. apply tot_ext. intros n _. f_equal.
  rewrite (tot_ext 21 _ (fun i => nn ch4 i * (B_n n i 0 * Rpower (pair 0 i 0 * sqrt (E_ i * E_ 0)) (u_ n) * Rpower (K_ i * K_ 0) (3/2)))).
  - rewrite sum1, E_1, K_1. reflexivity.
  - intros i _. rewrite (tot_ext 21 _ (fun j => nn ch4 j * (nn ch4 i * (B_n n i j * Rpower (pair 0 i j * sqrt (E_ i * E_ j)) (u_ n) * Rpower (K_ i * K_ j) (3/2))))) by (intros; ring).
    now rewrite sum1.
Qed.
Ltac norm := cbv [tot a_ u_ term TERMS nth fst snd B_n when g_ q_ f_ s_ w_ b_ k_ pair PAIRS find Nat.eqb Nat.min Nat.max andb pow Nat.add];
  cbv [G_ Q_ F_ S_ W_ comp nth COMPONENTS]; cbv [INR Rlit Z.pow Pos.pow Z.pow_pos Pos.iter Z.mul Pos.mul Pos.add Z.opp Pos.succ Z.leb Z.ltb Z.compare].
Ltac numb := norm; unfold E1, K1, Rpower; change R0 with 0; change R1 with 1; interval with (i_prec 40).
Definition d0 : R := 500 / (831451 / 100000) / 300.
Lemma case_V : Rabs (second_virial (nn ch4) 300) <= 45 / 1000.
Proof. rewrite V_1. numb. Qed.
Lemma case_D : detail_D (nn ch4) (3 * d0) <= 6 / 100.
Proof. rewrite D_1. unfold K1, d0. interval. Qed.
Lemma case_C : Rabs (tot 6 (fun m => C_n (nn ch4) (12 + m) * Rpower 300 (- u_ (12 + m)))) <= 1 / 10.
Proof. rewrite (tot_ext 6 _ (fun m => a_ (12+m) * when (g_ (12+m)) 0 * when (q_ (12+m)) 0 * when (f_ (12+m)) 0 * Rpower E1 (u_ (12+m)) * Rpower 300 (- u_ (12 + m)))) by (intros m _; now rewrite C_1). numb. Qed.
Lemma case_S : spread (nn ch4) 300 (3 * d0) <= 1 / 7.
Proof.
  pose proof case_V as HV. pose proof case_C as HC. unfold spread. rewrite D_1.
  rewrite (tot_ext 46 _ (fun m => Rabs (a_ (12+m) * when (g_ (12+m)) 0 * when (q_ (12+m)) 0 * when (f_ (12+m)) 0 * Rpower E1 (u_ (12+m))) * Rpower 300 (- u_ (12 + m))
     * ((INR (b_ (12+m)) + INR (k_ (12+m)) * (K1 ^ 3 * (3 * d0)) ^ k_ (12+m)) ^ 2 + INR (k_ (12+m)) ^ 2 * (K1 ^ 3 * (3 * d0)) ^ k_ (12+m)) * (K1 ^ 3 * (3 * d0)) ^ b_ (12+m))) by (intros m _; cbv zeta; now rewrite C_1).
  set (V := second_virial _ _) in *. set (C := tot 6 _) in *. clearbody V C.
  assert (HT : 3 * d0 * (45/1000) <= 28/1000) by (unfold d0; interval).
  assert (HK : 0 <= K1 ^ 3 * (3 * d0) <= 6/100) by (unfold K1, d0; split; interval).
  assert (H0 : 0 <= 3 * d0) by (unfold d0; interval).
  set (X := tot 46 _).
  assert (HX : X <= 1 / 10).
  { unfold X, d0. numb. }
  pose proof (Rmult_le_compat_l _ _ _ H0 HV). pose proof (Rmult_le_compat _ _ _ _ (proj1 HK) (Rabs_pos C) (proj2 HK) HC). lra.
Qed.
