(* Molar masses against the chemical formulas, and the ideal mixing rules for h and s. *)
From Coq Require Import Reals ZArith List Bool Lra Lia Psatz.
From Coquelicot Require Import Coquelicot.
From Verif Require Import FArith Prelude Tab Composition DetailTables GergTables DetailModel GergModel Api ApiSafe
  ArithR RSum SpecReal SpecDetail SpecGerg SpecIdeal SpecMass DetailPure DetailEval DetailReal DetailThermo DetailEos DetailLimit
  GergPure GergEval GergReal GergIdeal GergThermo GergEos GergLimit MassReal IdealGas IdealRef IdealMore.
Import ListNotations.
Local Open Scope R_scope.
Local Existing Instance ArithR.

Ltac weights := cbv [tb nth D_MMI G_MMI_GERG weight micrograms FORMULA WEIGHTS combine map fold_right fst snd Rlit
  Z.add Z.pow Z.pow_pos Pos.iter Z.mul Pos.mul Pos.add Pos.succ Pos.add_carry].
Lemma g_weight i : (i < 21)%nat -> tb G_MMI_GERG (S i) = weight i.
Proof. intros Hi. do 21 (destruct i as [|i]; [weights; lra|]). lia. Qed.
Lemma d_weight i : (i < 21)%nat -> Rabs (tb D_MMI i - weight i) <= 4 / 1000.
Proof. intros Hi. apply Rabs_le. do 21 (destruct i as [|i]; [weights; lra|]). lia. Qed.

Lemma g_mass_formula x t d : 1 / 10000000 < t -> (exists i, (1 <= i < 22)%nat /\ 1 / 10000000 < x i) ->
  gprop New PMM x t d = sum 21 (fun i => x (S i) * weight i).
Proof. intros Ht Hs. rewrite g_mass by assumption. apply sum_ext'. intros i Hi. now rewrite g_weight. Qed.
Lemma sum_dist n x f g e : (forall i, (i < n)%nat -> Rabs (f i - g i) <= e) ->
  Rabs (sum n (fun i => x i * f i) - sum n (fun i => x i * g i)) <= e * sum n (fun i => Rabs (x i)).
Proof.
  intros H. induction n as [|n IH]; cbn [sum]; [rewrite Rminus_0_r, Rabs_R0; lra|].
  replace (_ - _) with ((sum n (fun i => x i * f i) - sum n (fun i => x i * g i)) + x n * (f n - g n)) by ring.
  eapply Rle_trans; [apply Rabs_triang|]. rewrite Rmult_plus_distr_l. apply Rplus_le_compat; [apply IH; intros; apply H; lia|].
  rewrite Rabs_mult, (Rmult_comm e). apply Rmult_le_compat_l; [apply Rabs_pos|apply H; lia].
Qed.
Lemma d_mass_formula x t d : 1 / 10000000 < t ->
  Rabs (dprop New PMM x t d - sum 21 (fun i => x i * weight i)) <= 4 / 1000 * sum 21 (fun i => Rabs (x i)).
Proof. intros Ht. rewrite d_mass by exact Ht. apply sum_dist. exact d_weight. Qed.

(* ideal mixing *)
Section Mix.
Variables (x : nat -> R) (t : R).
Hypothesis Ht : 1 / 10000000 < t.
Lemma d_only_h i : (i < 21)%nat -> dprop New PH (only i) t 0 = RD * h0 i t.
Proof.
  intros Hi. rewrite d_ideal_h by exact Ht. unfold mix_h. rewrite (mix_only RD (fun j => h0 j t) i) by (assumption || intros; apply only_nn).
  rewrite (sum_ext' 21 (nn (only i)) (only i)), only_one by (assumption || intros; apply only_nn). ring.
Qed.
Lemma d_only_s i : (i < 21)%nat -> dprop New PS (only i) t 0 = RD * s0 i t - RD * ln (1 / 1000000000000000 / ref_density RD).
Proof. intros Hi. rewrite d_ideal_s by exact Ht. apply (mix_s_only RD RD i); [exact Hi|intros; apply only_nn]. Qed.
Lemma d_mix_h : (forall i, (i < 21)%nat -> 0 <= x i) -> sum 21 x = 1 ->
  dprop New PH x t 0 = sum 21 (fun i => x i * dprop New PH (only i) t 0).
Proof.
  intros Hx H1. assert (forall i, (i < 21)%nat -> nn x i = x i) as Hn by (intros i Hi; unfold nn; rewrite Rmax_right; [reflexivity|now apply Hx]).
  rewrite d_ideal_h by exact Ht. rewrite (sum_ext' 21 (nn x) x Hn), H1. unfold mix_h.
  rewrite <- sum_scal. replace (RD * t * (1 - 1)) with 0 by ring. rewrite Rminus_0_r. apply sum_ext'.
  intros i Hi. rewrite d_only_h, Hn by exact Hi. ring.
Qed.
Lemma d_mix_s : (forall i, (i < 21)%nat -> 0 <= x i) ->
  dprop New PS x t 0 = sum 21 (fun i => x i * dprop New PS (only i) t 0) - RD * sum 21 (fun i => x i * ln (x i)).
Proof.
  intros Hx. rewrite d_ideal_s by exact Ht. unfold mix_s.
  rewrite (sum_ext' 21 _ (fun i => x i * dprop New PS (only i) t 0 + (- RD) * (x i * ln (x i)))).
  - rewrite sum_plus', sum_scal. ring.
  - intros i Hi. rewrite d_only_s by exact Hi. unfold nn. rewrite Rmax_right by now apply Hx. ring.
Qed.
Lemma g_only_h i : (i < 21)%nat -> gprop New PH (only (S i)) t 0 = RD * h0 i t + (RD - Rg) * (T0 - t).
Proof.
  intros Hi. rewrite g_ideal_h by (exact Ht || now apply only_present). unfold mix_h. rewrite (mix_only RD (fun j => h0 j t) i) by (assumption || intros; apply only_ac).
  rewrite (sum_ext' 21 (down (ac (only (S i)))) (only i)), only_one by (assumption || intros; apply only_ac). ring.
Qed.
Lemma g_only_s i : (i < 21)%nat -> gprop New PS (only (S i)) t 0 = RD * s0 i t - Rg * ln (1 / 1000000000000000 / ref_density Rg).
Proof. intros Hi. rewrite g_ideal_s by (exact Ht || now apply only_present). apply (mix_s_only Rg RD i); [exact Hi|intros; apply only_ac]. Qed.
Hypothesis Hx : forall i, (1 <= i < 22)%nat -> x i = 0 \/ 1 / 1000000000000000 < x i.
Hypothesis Hs : some_present x.
Lemma g_frac i : (i < 21)%nat -> down (ac x) i = x (S i).
Proof. intros Hi. unfold down, ac. destruct (Hx (S i) ltac:(lia)) as [E|E]; destruct (Rlt_dec _ _); lra. Qed.
Lemma g_mix_h : sum 21 (fun i => x (S i)) = 1 ->
  gprop New PH x t 0 = sum 21 (fun i => x (S i) * gprop New PH (only (S i)) t 0).
Proof.
  intros H1. rewrite g_ideal_h by assumption.
  rewrite (sum_ext' 21 (down (ac x)) (fun i => x (S i)) g_frac), H1. unfold mix_h.
  rewrite (sum_ext' 21 (fun i => x (S i) * gprop New PH (only (S i)) t 0) (fun i => RD * (down (ac x) i * h0 i t) + ((RD - Rg) * (T0 - t)) * x (S i))).
  - rewrite sum_plus', !sum_scal, H1. ring.
  - intros i Hi. rewrite g_only_h, g_frac by exact Hi. ring.
Qed.
Lemma g_mix_s : gprop New PS x t 0 =
  sum 21 (fun i => x (S i) * gprop New PS (only (S i)) t 0) - Rg * sum 21 (fun i => x (S i) * ln (x (S i))).
Proof.
  rewrite g_ideal_s by assumption. unfold mix_s.
  rewrite (sum_ext' 21 _ (fun i => x (S i) * gprop New PS (only (S i)) t 0 + (- Rg) * (x (S i) * ln (x (S i))))).
  - rewrite sum_plus', sum_scal. ring.
  - intros i Hi. rewrite g_only_s, g_frac by exact Hi. ring.
Qed.
End Mix.
