(* The pure-fluid equations at their critical points, evaluated. *)
From Coq Require Import Reals ZArith List Bool Lra Lia Psatz.
From Coquelicot Require Import Coquelicot.
From Interval Require Import Tactic.
From Verif Require Import FArith Prelude Tab Composition DetailTables GergTables DetailModel GergModel Api ApiSafe
  ArithR RSum SpecReal SpecDetail SpecGerg SpecTables SpecIdeal DetailPure DetailEval DetailReal DetailThermo DetailEos DetailLimit
  GergPure GergEval GergReal GergIdeal GergThermo GergEos GergLimit TablesReal HistoryGerg IdealGas Crit.
Import ListNotations.
Local Open Scope R_scope.
Local Existing Instance ArithR.
Lemma crit_1 : at_crit 1. Proof. crit 1%nat. Qed.
Lemma crit_2 : at_crit 2. Proof. crit 2%nat. Qed.
Lemma crit_3 : at_crit 3. Proof. crit 3%nat. Qed.
Lemma crit_4 : at_crit 4. Proof. crit 4%nat. Qed.
Lemma crit_5 : at_crit 5. Proof. crit 5%nat. Qed.
Lemma crit_6 : at_crit 6. Proof. crit 6%nat. Qed.
Lemma crit_7 : at_crit 7. Proof. crit 7%nat. Qed.
Lemma crit_8 : at_crit 8. Proof. crit 8%nat. Qed.
Lemma crit_9 : at_crit 9. Proof. crit 9%nat. Qed.
Lemma crit_10 : at_crit 10. Proof. crit 10%nat. Qed.
Lemma crit_11 : at_crit 11. Proof. crit 11%nat. Qed.
Lemma crit_12 : at_crit 12. Proof. crit 12%nat. Qed.
Lemma crit_13 : at_crit 13. Proof. crit 13%nat. Qed.
Lemma crit_14 : at_crit 14. Proof. crit 14%nat. Qed.
Lemma crit_15 : at_crit 15. Proof. crit 15%nat. Qed.
Lemma crit_16 : at_crit 16. Proof. crit 16%nat. Qed.
Lemma crit_17 : at_crit 17. Proof. crit 17%nat. Qed.
Lemma crit_18 : at_crit 18. Proof. crit 18%nat. Qed.
Lemma crit_19 : at_crit 19. Proof. crit 19%nat. Qed.
Lemma crit_20 : at_crit 20. Proof. crit 20%nat. Qed.
Lemma crit_21 : at_crit 21. Proof. crit 21%nat. Qed.
Lemma crit_all i : (1 <= i < 22)%nat -> at_crit i.
Proof.
  intros Hi. destruct i as [|i]; [lia|].
  destruct i as [|i]; [exact crit_1|].
  destruct i as [|i]; [exact crit_2|].
  destruct i as [|i]; [exact crit_3|].
  destruct i as [|i]; [exact crit_4|].
  destruct i as [|i]; [exact crit_5|].
  destruct i as [|i]; [exact crit_6|].
  destruct i as [|i]; [exact crit_7|].
  destruct i as [|i]; [exact crit_8|].
  destruct i as [|i]; [exact crit_9|].
  destruct i as [|i]; [exact crit_10|].
  destruct i as [|i]; [exact crit_11|].
  destruct i as [|i]; [exact crit_12|].
  destruct i as [|i]; [exact crit_13|].
  destruct i as [|i]; [exact crit_14|].
  destruct i as [|i]; [exact crit_15|].
  destruct i as [|i]; [exact crit_16|].
  destruct i as [|i]; [exact crit_17|].
  destruct i as [|i]; [exact crit_18|].
  destruct i as [|i]; [exact crit_19|].
  destruct i as [|i]; [exact crit_20|].
  destruct i as [|i]; [exact crit_21|].
  lia.
Qed.
