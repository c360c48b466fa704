(* Heat capacities of the ideal gas and molar masses for a natural gas between 270 K and 350 K. *)
From Coq Require Import Reals ZArith List Bool Lra Lia Psatz.
From Interval Require Import Tactic.
From Verif Require Import FArith ArithR StdDetail SpecStd SpecGas SpecDetail SpecIdeal SpecAll SpecAllD DetailTables SlopeReal ConvDetail IdealGas IdealMore FixUp GasDetail GasThird GasSum.
Import ListNotations.
Local Open Scope R_scope.

Definition CP_LO : list lit := [L 415 (-2); L 343 (-2); L 343 (-2); L 343 (-2); L 343 (-2); L 343 (-2); L 343 (-2); L 343 (-2); L 343 (-2); L 343 (-2);
  L 343 (-2); L 343 (-2); L 343 (-2); L 343 (-2); L 343 (-2); L 343 (-2); L 343 (-2); L 343 (-2); L 343 (-2); L 25 (-1); L 25 (-1)].
Definition CP_HI : list lit := [L 46 (-1); L 36 (-1); L 48 (-1); L 72 (-1); L 102 (-1); L 134 (-1); L 135 (-1); L 165 (-1); L 165 (-1); L 196 (-1);
  L 227 (-1); L 258 (-1); L 29 0; L 321 (-1); L 36 (-1); L 36 (-1); L 36 (-1); L 41 (-1); L 42 (-1); L 25 (-1); L 25 (-1)].
Ltac lits := cbv [nth CP_LO CP_HI IG Rlit Z.pow Z.pow_pos Pos.iter Z.mul Pos.mul Pos.add Pos.succ Pos.add_carry Z.opp Z.leb Z.compare].
Lemma cp_range i T : (i < 21)%nat -> 270 <= T <= 350 -> Rlit (nth i CP_LO (L 0 0)) <= cp0 i T <= Rlit (nth i CP_HI (L 0 0)).
Proof.
  intros Hi HT. unfold cp0, ig. do 21 (destruct i as [|i]; [lits; rewrite ?Rmult_0_l, ?Rplus_0_r; (lra || (unfold sinh, cosh; split; interval with (i_prec 30, i_bisect T)))|]). lia.
Qed.

Section G.
Variable x : nat -> R.
Hypothesis Hx : natural_gas x.
Ltac facts := let G := fresh in let Hm := fresh in let Ht := fresh in destruct Hx as (Hm & G & Ht); unfold gas_limit in G;
  pose proof (G 0%nat ltac:(lia)); pose proof (G 1%nat ltac:(lia)); pose proof (G 2%nat ltac:(lia)); pose proof (G 3%nat ltac:(lia)); pose proof (G 4%nat ltac:(lia));
  pose proof (G 5%nat ltac:(lia)); pose proof (G 6%nat ltac:(lia)); pose proof (G 7%nat ltac:(lia)); pose proof (G 8%nat ltac:(lia)); pose proof (G 9%nat ltac:(lia));
  pose proof (G 10%nat ltac:(lia)); pose proof (G 11%nat ltac:(lia)); pose proof (G 12%nat ltac:(lia)); pose proof (G 13%nat ltac:(lia)); pose proof (G 14%nat ltac:(lia));
  pose proof (G 15%nat ltac:(lia)); pose proof (G 16%nat ltac:(lia)); pose proof (G 17%nat ltac:(lia)); pose proof (G 18%nat ltac:(lia)); pose proof (G 19%nat ltac:(lia));
  pose proof (G 20%nat ltac:(lia)); clear G Hx; cbn [tot nth GAS_LIMITS] in *; cbv [Rlit Z.pow Z.pow_pos Pos.iter Z.mul Pos.mul Pos.add Pos.succ Pos.add_carry Z.opp Z.leb Z.compare] in *.
Lemma mass_range : 144 / 10 <= tot 21 (fun i => x i * tb D_MMI i) <= 30.
Proof.
  cbn [tot]. unfold tb. cbn [nth D_MMI]. facts. split; lra.
Qed.
Lemma cv_lo : 271 / 100 <= tot 21 (fun i => x i * (Rlit (nth i CP_LO (L 0 0)) - 1)).
Proof. cbn [tot nth CP_LO]. facts. lra. Qed.
Lemma cv_hi : tot 21 (fun i => x i * (Rlit (nth i CP_HI (L 0 0)) - 1)) <= 4515 / 1000.
Proof. cbn [tot nth CP_HI]. facts. lra. Qed.
Lemma nn_x i : (i < 21)%nat -> nn x i = x i.
Proof. intros Hi. unfold nn. apply Rmax_right. exact (x_ge0 x Hx i Hi). Qed.
Lemma cv_range T : 270 <= T <= 350 -> RD * (271 / 100) <= mix_cv RD (nn x) T <= RD * (4515 / 1000).
Proof.
  intros HT. pose proof cv_lo as A. pose proof cv_hi as B. unfold mix_cv. change (sum 21) with (tot 21).
  rewrite (tot_ext 21 (fun i => nn x i * (cp0 i T - 1)) (fun i => x i * (cp0 i T - 1))) by (intros i Hi; now rewrite nn_x by exact Hi).
  split; (apply Rmult_le_compat_l; [unfold RD; lra|]).
  - apply Rle_trans with (1 := A). apply tot_le. intros i Hi. apply Rmult_le_compat_l; [now apply x_ge0|]. pose proof (cp_range i T Hi HT). lra.
  - apply Rle_trans with (2 := B). apply tot_le. intros i Hi. apply Rmult_le_compat_l; [now apply x_ge0|]. pose proof (cp_range i T Hi HT). lra.
Qed.
Lemma hyp_le j y : 0 <= y -> 0 <= (y / hyp j y) ^ 2 <= 4.
Proof.
  intros Hy. assert (Q : 0 <= y / hyp j y <= 2).
  { destruct (Rle_lt_or_eq_dec 0 y Hy) as [P|<-]; [|unfold Rdiv; rewrite Rmult_0_l; lra].
    assert (D : 0 < hyp j y /\ y <= 2 * hyp j y).
    { assert (S : y <= 2 * sinh y).
      { pose proof (exp_ineq1 y ltac:(lra)). assert (exp (- y) < 1) by (rewrite <- exp_0; apply exp_increasing; lra). unfold sinh. lra. }
      unfold hyp. destruct (Nat.even j); [split; [now apply sinh_gt0|exact S]|split; [apply cosh_gt0|]]. pose proof (sinh_cosh y). lra. }
    split; [apply Rlt_le, Rdiv_lt_0_compat; lra|]. apply (Rmult_le_reg_r (hyp j y)); [lra|]. unfold Rdiv. rewrite Rmult_assoc, Rinv_l by lra. lra. }
  nra.
Qed.
Definition igU (i j : nat) : Z := litU (nth j (nth i IG []) (L 0 0)).
Lemma ig_up i j : up (igU i j) (Rabs (ig i j)). Proof. apply up_lit. Qed.
Definition size2U (i : nat) : Z := (igU i 2 + SC + mulU (litU (L 4 0)) (igU i 3 + igU i 4 + igU i 5 + igU i 6))%Z.
Lemma size2_all : forallb (fun i => Z.leb (size2U i) (700 * SC)) (seq 0 21) = true. Proof. vm_compute. reflexivity. Qed.
Lemma ig_T i j : (i < 21)%nat -> (j < 4)%nat -> 0 <= ig i (7 + j).
Proof.
  intros Hi Hj. unfold ig. do 21 (destruct i as [|i]; [do 4 (destruct j as [|j]; [cbn; lra|]); lia|]). lia.
Qed.
Lemma size2_le T d : 270 <= T <= 350 -> 0 <= dideal_sum 2 x T d <= 707.
Proof.
  intros HT. unfold dideal_sum.
  assert (B : forall i, (i < 21)%nat -> 0 <= dideal_size 2 i (x i) T d <= 700).
  { intros i Hi. pose proof (proj1 (forallb_forall _ _) size2_all i ltac:(apply in_seq; lia)) as Q. apply Z.leb_le in Q.
    assert (U : up (size2U i) (dideal_size 2 i (x i) T d)).
    { unfold size2U, dideal_size. apply up_add; [apply up_add; [apply ig_up|exact up_1]|]. cbn [tot]. unfold dhyp_size. cbv zeta.
      assert (H : forall j, (j < 4)%nat -> 0 <= (ig i (7 + j) / T / hyp j (ig i (7 + j) / T)) ^ 2 <= 4).
      { intros j Hj. apply hyp_le. apply Rmult_le_pos; [now apply ig_T|]. left. apply Rinv_0_lt_compat. lra. }
      pose proof (H 0%nat ltac:(lia)). pose proof (H 1%nat ltac:(lia)). pose proof (H 2%nat ltac:(lia)). pose proof (H 3%nat ltac:(lia)). cbn [Nat.add] in *.
      set (q0 := (ig i 7 / T / _) ^ 2) in *. set (q1 := (ig i 8 / T / _) ^ 2) in *. set (q2 := (ig i 9 / T / _) ^ 2) in *. set (q3 := (ig i 10 / T / _) ^ 2) in *. clearbody q0 q1 q2 q3.
      apply (up_le (mulU (litU (L 4 0)) (igU i 3 + igU i 4 + igU i 5 + igU i 6)) _ (4 * (Rabs (ig i 3) + Rabs (ig i 4) + Rabs (ig i 5) + Rabs (ig i 6)))); [|pose proof (Rabs_pos (ig i 3)); pose proof (Rabs_pos (ig i 4)); pose proof (Rabs_pos (ig i 5)); pose proof (Rabs_pos (ig i 6)); nra|apply Z.le_refl].
      apply up_mul; [apply lit_le; [lra|cbn; lra]|]. repeat apply up_add; apply ig_up. }
    destruct U as [U1 U2]. split; [exact U1|]. apply Rle_trans with (1 := U2). apply fx_le in Q. apply Rle_trans with (1 := Q). unfold fx. rewrite mult_IZR. change SC with 268435456%Z. lra. }
  split; [apply tot_ge0; intros i Hi; apply Rmult_le_pos; [now apply x_ge0|now apply B]|].
  apply Rle_trans with (tot 21 (fun i => 700 * x i)).
  - apply tot_le. intros i Hi. rewrite Rmult_comm. apply Rmult_le_compat_r; [now apply x_ge0|now apply B].
  - rewrite tot_scal. destruct Hx as (_ & _ & Ht). lra.
Qed.
End G.
