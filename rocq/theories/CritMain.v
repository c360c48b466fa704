(* The reported values at the critical points. *)
From Coq Require Import Reals ZArith List Bool Lra Lia Psatz.
From Coquelicot Require Import Coquelicot.
From Interval Require Import Tactic.
From Verif Require Import FArith Prelude Tab Composition DetailTables GergTables DetailModel GergModel Api ApiSafe
  ArithR RSum SpecReal SpecDetail SpecGerg SpecTables SpecIdeal DetailPure DetailEval DetailReal DetailThermo DetailEos DetailLimit
  GergPure GergEval GergReal GergIdeal GergThermo GergEos GergLimit TablesReal HistoryGerg IdealGas Crit CritNum.
Import ListNotations.
Local Open Scope R_scope.
Local Existing Instance ArithR.
Local Existing Instance GN.
Lemma q_near i : (1 <= i < 22)%nat ->
  1 - 1 / 10000000000000 <= rhoc i * tb2 G_GVIJ i i <= 1 + 1 / 10000000000000.
Proof.
  intros Hi. unfold rhoc, tb, tb2. do 22 (destruct i as [|i]; [try lia;
   cbv [nth G_DC G_GVIJ Rlit Z.pow Z.pow_pos Pos.iter Z.mul Pos.mul Pos.add Pos.succ Pos.add_carry]; lra|]). lia.
Qed.
Lemma rhoc_pos i : (1 <= i < 22)%nat -> 1 <= rhoc i.
Proof.
  intros Hi. unfold rhoc, tb. do 22 (destruct i as [|i]; [try lia;
   cbv [nth G_DC Rlit Z.pow Z.pow_pos Pos.iter Z.mul Pos.mul Pos.add Pos.succ Pos.add_carry]; lra|]). lia.
Qed.
Lemma gerg_critical i : (1 <= i < 22)%nat ->
  Rabs (gprop New PDpDd (only i) (Tc i) (rhoc i)) <= 4 / 1000 * (Rg * Tc i) /\
  Rabs (gprop New PD2pDd2 (only i) (Tc i) (rhoc i)) <= 35 / 1000 * (Rg * Tc i / rhoc i) /\
  1 / 5 <= gprop New PZ (only i) (Tc i) (rhoc i) <= 7 / 20.
Proof.
  intros Hi. pose proof (tc_pos i Hi) as HT. pose proof (rhoc_pos i Hi) as HR.
  assert (some_present (only i)) as Hs. { exists i. split; [exact Hi|]. unfold only. rewrite Nat.eqb_refl. lra. }
  rewrite !gprop_ok by (assumption || lra).
  destruct (crit_all i Hi _ (q_near i Hi)) as (H1 & H2 & H3).
  assert (K : forall e, (1 <= e <= 3)%nat -> cD i (rhoc i * tb2 G_GVIJ i i) e = @AR GN (gxl (only i)) e (Tc i) (rhoc i)).
  { intros e He. rewrite <- cS_cD by exact He. symmetry. now apply one_AR. }
  rewrite (K 1%nat), (K 2%nat) in H1 by lia. rewrite (K 1%nat), (K 2%nat), (K 3%nat) in H2 by lia. rewrite (K 1%nat) in H3 by lia.
  assert (0 < Rg) as Hg by (unfold Rg; lra).
  assert (0 <= Rg * Tc i) as Hp by nra.
  split; [|split].
  - rewrite w_dpdd. change (gpar New) with GN. cbv beta. replace (@RGERG ArithR) with Rg by reflexivity.
    rewrite Rabs_mult, (Rabs_right (Rg * Tc i)) by lra. rewrite Rmult_comm. apply Rmult_le_compat_r; [exact Hp|exact H1].
  - assert (E : gvals New (only i) PD2pDd2 (Tc i) (rhoc i) = Rg * Tc i / rhoc i *
       (2 * @AR GN (gxl (only i)) 1 (Tc i) (rhoc i) + 4 * @AR GN (gxl (only i)) 2 (Tc i) (rhoc i) + @AR GN (gxl (only i)) 3 (Tc i) (rhoc i))).
    { cbn [gvals]. unfold gqd2pdd2. replace (@gqdense ArithR (rhoc i)) with true by (symmetry; apply gdense_true; lra).
      change (gT New (only i) (Tc i) (rhoc i)) with (@can_terms ArithR GN (gxl (only i)) (Tc i) (rhoc i)).
      unfold AR, grt, f2, f4. replace (@RGERG ArithR) with Rg by reflexivity. rar. cbn [Rlit]. field. lra. }
    rewrite E, Rabs_mult, (Rabs_right (Rg * Tc i / rhoc i)).
    2:{ apply Rle_ge. apply Rmult_le_pos; [lra|]. apply Rlt_le, Rinv_0_lt_compat. lra. }
    rewrite Rmult_comm. apply Rmult_le_compat_r; [|exact H2].
    apply Rmult_le_pos; [lra|]. apply Rlt_le, Rinv_0_lt_compat. lra.
  - exact H3.
Qed.
