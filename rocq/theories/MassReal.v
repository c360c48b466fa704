(* The molar mass counts every fraction, also those the equation of state ignores. *)
From Coq Require Import Reals ZArith List Bool Lra Lia.
From Coquelicot Require Import Coquelicot.
From Verif Require Import FArith Prelude Tab Composition DetailTables GergTables DetailModel DetailPure
  DetailRefine DetailEval GergModel GergPure GergRefine GergEval Api ApiSafe SpecGeneric BasicProofs GenericLemmas ArithR RSum
  SpecReal DetailReal DetailThermo GergThermo SpecDetail DetailEos Absent.
Import ListNotations.
Local Open Scope R_scope.
Local Existing Instance ArithR.

Lemma d_mass k x t d : 1 / 10000000 < t -> dprop k PMM x t d = sum 21 (fun i => x i * tb D_MMI i).
Proof.
  intros Ht. rewrite dprop_ok by assumption. cbn [dvals]. unfold pmm.
  rewrite sum_rsum. etransitivity; [exact (rsum_fold (fun i => dX x i * @lv ArithR D_MMI i) (seq 0 21) _)|].
  unfold f0. rar. cbn [Rlit]. rewrite Rplus_0_l. apply rsum_ext. intros i Hi. apply in_seq in Hi.
  rewrite dX_i by lia. reflexivity.
Qed.
Lemma g_mass k x t d : 1 / 10000000 < t -> (exists i, (1 <= i < 22)%nat /\ 1 / 10000000 < x i) ->
  gprop k PMM x t d = sum 21 (fun i => x (S i) * tb G_MMI_GERG (S i)).
Proof.
  intros Ht Hs. rewrite gprop_ok by assumption. cbn [gvals]. unfold gmm.
  rewrite sum_rsum. etransitivity; [exact (rsum_fold (fun i => gX x i * @lv ArithR G_MMI_GERG i) (seq 1 21) _)|].
  unfold f0. rar. cbn [Rlit]. rewrite Rplus_0_l, <- seq_shift, rsum_map. apply rsum_ext. intros i Hi. apply in_seq in Hi.
  unfold gX. rewrite gxl_i by lia. reflexivity.
Qed.

Lemma sum_upd n x m j v : (j < n)%nat ->
  sum n (fun i => x i * m i) = sum n (fun i => upd x j v i * m i) + (x j - v) * m j.
Proof.
  induction n as [|n IH]; intros Hj; [lia|]. cbn [sum]. unfold upd at 2.
  destruct (Nat.eqb_spec n j) as [->|Hn].
  - rewrite (sum_ext j (fun i => upd x j v i * m i) (fun i => x i * m i)); [ring|].
    intros i Hi. unfold upd. destruct (Nat.eqb_spec i j); [lia|reflexivity].
  - rewrite IH by lia. ring.
Qed.
Lemma d_absent_mass k x j t d : (j < 21)%nat -> x j <= 0 -> 1 / 10000000 < t ->
  dprop k PMM x t d = dprop k PMM (upd x j 0) t d + x j * tb D_MMI j.
Proof. intros Hj _ Ht. rewrite !d_mass by assumption. rewrite (sum_upd 21 x _ j 0 Hj). ring. Qed.
Lemma g_absent_mass k x j t d : (1 <= j < 22)%nat -> x j <= 1 / 1000000000000000 -> 1 / 10000000 < t ->
  (exists i, (1 <= i < 22)%nat /\ 1 / 10000000 < x i) ->
  gprop k PMM x t d = gprop k PMM (upd x j 0) t d + x j * tb G_MMI_GERG j.
Proof.
  intros Hj Hx Ht Hs. rewrite !g_mass; trivial.
  - destruct j as [|j]; [lia|].
    rewrite (sum_upd 21 (fun i => x (S i)) (fun i => tb G_MMI_GERG (S i)) j 0 ltac:(lia)).
    rewrite Rminus_0_r. f_equal.
  - destruct Hs as (i & Hi & H). exists i. split; [exact Hi|]. unfold upd.
    destruct (Nat.eqb_spec i j) as [->|]; [lra|exact H].
Qed.

Lemma big_vis (v : R) : 1 / 10000000 < v -> @flt ArithR (flit (L 1 (-7))) (fabs (fsub v f0)) = true.
Proof.
  intros H. apply Rltb_true. rewrite lit7. unfold f0. rar. cbn [Rlit]. rewrite Rminus_0_r, Rabs_right by lra. exact H.
Qed.

(* one non-positive fraction replaced by 0: same pressure, molar mass off by exactly its share *)
Lemma d_absent k x j t d : (j < 21)%nat -> x j <= 0 -> 1 / 10000000 < t ->
  (exists i, (i < 21)%nat /\ 1 / 10000000 < x i) ->
  dpres k x t d = dpres k (upd x j 0) t d /\
  dprop k PMM x t d = dprop k PMM (upd x j 0) t d + x j * tb D_MMI j.
Proof.
  intros Hj Hx Ht (i & Hi & Hv). split; [|now apply d_absent_mass].
  unfold dpres. change inputs with (@feed ArithR).
  destruct (@dexec_some ArithR k (@feed ArithR x t d ++ [Pressure])) as (s1 & o1 & E1).
  destruct (@dexec_some ArithR k (@feed ArithR (upd x j 0) t d ++ [Pressure])) as (s2 & o2 & E2).
  rewrite E1, E2. apply f_equal, (@absent_pressure ArithR k x (upd x j 0) t d) with (s1 := s1) (s2 := s2); trivial.
  - exists i. split; [exact Hi|]. split; [|now apply big_vis]. unfold upd.
    destruct (Nat.eqb_spec i j) as [->|]; [lra|reflexivity].
  - intros m Hm. unfold upd. destruct (Nat.eqb_spec m j) as [->|]; [|now left]. right.
    unfold f0. rar. cbn [Rlit]. split; apply Rltb_false; lra.
Qed.
Lemma g_absent k x j t d : (1 <= j < 22)%nat -> x j <= 1 / 1000000000000000 -> 1 / 10000000 < t ->
  (exists i, (1 <= i < 22)%nat /\ 1 / 10000000 < x i) ->
  gpres k x t d = gpres k (upd x j 0) t d /\
  gprop k PMM x t d = gprop k PMM (upd x j 0) t d + x j * tb G_MMI_GERG j.
Proof.
  intros Hj Hx Ht Hs. split; [|now apply g_absent_mass]. destruct Hs as (i & Hi & Hv).
  unfold gpres. change inputs with (@feed ArithR).
  destruct (@gexec_some ArithR k (@feed ArithR x t d ++ [Pressure])) as (s1 & o1 & E1).
  destruct (@gexec_some ArithR k (@feed ArithR (upd x j 0) t d ++ [Pressure])) as (s2 & o2 & E2).
  rewrite E1, E2. apply f_equal, (@gabsent_pressure ArithR k x (upd x j 0) t d) with (s1 := s1) (s2 := s2); trivial.
  - exists i. split; [exact Hi|]. split; [|now apply big_vis]. unfold upd.
    destruct (Nat.eqb_spec i j) as [->|]; [lra|reflexivity].
  - intros m Hm. unfold upd. destruct (Nat.eqb_spec m j) as [->|]; [|now left]. right.
    rewrite glit15. rar. split; apply Rltb_false; lra.
Qed.
