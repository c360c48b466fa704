(* DETAIL at low density, over the reals. *)
From Coq Require Import Reals ZArith List Bool Lra Lia.
From Coquelicot Require Import Coquelicot.
From Verif Require Import FArith Prelude Tab Composition DetailTables DetailModel DetailPure
  DetailRefine DetailEval GergModel Api ApiSafe BasicProofs ArithR RSum SpecReal DetailReal DetailThermo
  SpecDetail DetailEos.
Import ListNotations.
Local Open Scope R_scope.
Local Existing Instance ArithR.

Lemma sum_cont n (f : nat -> R -> R) d : (forall i, (i < n)%nat -> continuous (f i) d) ->
  continuous (fun d => sum n (fun i => f i d)) d.
Proof.
  induction n as [|n IH]; intros H; cbn [sum]; [apply continuous_const|].
  apply (continuous_plus (fun d => sum n (fun i => f i d)) (f n)); [apply IH; auto|apply H; lia].
Qed.
Lemma lim_of_cont (f g : R -> R) l : (forall d, d <> 0 -> f d = g d) -> continuous g 0 -> g 0 = l ->
  is_lim f 0 l.
Proof.
  intros E C <-. apply (is_lim_ext_loc g).
  - exists (mkposreal 1 Rlt_0_1). intros y _ Hy. symmetry. now apply E.
  - apply is_lim_continuity, continuity_pt_filterlim. exact C.
Qed.

Section Z.
Variable x : nat -> R.
Variable T : R.
Definition ctu n := Cstar x n * Rpower T (- tb D_UN n).
Definition Gd (d : R) : R :=
  let D := sizeK x ^ 3 * d in
  let b n := nth n D_BN 0%nat in let k n := nth n D_KN 0%nat in
  virialB x T - sizeK x ^ 3 * sum 6 (fun m => ctu (12 + m))
  + sum 46 (fun m => let n := (12 + m)%nat in
      ctu n * (INR (b n) - INR (k n) * D ^ k n) * sizeK x ^ 3 * D ^ (b n - 1) * expc D n).
Lemma bn_ge1 n : (n < 58)%nat -> (1 <= nth n D_BN 0)%nat.
Proof.
  intros H. assert (E : forallb (fun n => Nat.leb 1 (nth n D_BN 0%nat)) (seq 0 58) = true) by reflexivity.
  rewrite forallb_forall in E. apply Nat.leb_le, E, in_seq. lia.
Qed.
Lemma bn_1 n : (n < 18)%nat -> nth n D_BN 0%nat = 1%nat.
Proof.
  intros H. assert (E : forallb (fun n => Nat.eqb 1 (nth n D_BN 0%nat)) (seq 0 18) = true) by reflexivity.
  rewrite forallb_forall in E. symmetry. apply Nat.eqb_eq, E, in_seq. lia.
Qed.
Lemma bn_ge2 n : (18 <= n < 58)%nat -> (2 <= nth n D_BN 0)%nat.
Proof.
  intros H. assert (E : forallb (fun n => Nat.leb 2 (nth n D_BN 0%nat)) (seq 18 40) = true) by reflexivity.
  rewrite forallb_forall in E. apply Nat.leb_le, E, in_seq. lia.
Qed.
Lemma Z_Gd d : Zfactor x T d = 1 + d * Gd d.
Proof.
  unfold Zfactor, Gd. cbv zeta. rewrite !Rmult_plus_distr_l. unfold Rminus.
  rewrite !Rmult_plus_distr_l, <- !Rplus_assoc. rewrite <- (sum_scal 46 d).
  rewrite (sum_ext 6 (fun m => ctu (12 + m)) (fun m => Cstar x (12 + m) * Rpower T (- tb D_UN (12 + m))))
    by reflexivity.
  rewrite (sum_ext 46 (fun i => d * _)
    (fun m => let n := (12 + m)%nat in Cstar x n * Rpower T (- tb D_UN n)
      * (INR (nth n D_BN 0%nat) - INR (nth n D_KN 0%nat) * (sizeK x ^ 3 * d) ^ nth n D_KN 0%nat) * (sizeK x ^ 3 * d) ^ nth n D_BN 0%nat * expc (sizeK x ^ 3 * d) n)).
  - cbv zeta. generalize (sizeK x ^ 3) as q. intros q. unfold Rminus. f_equal. ring.
  - intros m Hm. cbv zeta. pose proof (bn_ge1 (12 + m) ltac:(lia)) as Hb.
    replace ((sizeK x ^ 3 * d) ^ nth (12 + m) D_BN 0%nat)
      with ((sizeK x ^ 3 * d) * (sizeK x ^ 3 * d) ^ (nth (12 + m) D_BN 0%nat - 1)).
    2: { destruct (nth (12 + m) D_BN 0%nat) as [|b]; [lia|]. cbn [pow]. now rewrite Nat.sub_succ, Nat.sub_0_r. }
    unfold ctu. generalize (Cstar x (12 + m)) (Rpower T (- tb D_UN (12 + m))) (expc (sizeK x ^ 3 * d) (12 + m))
      ((sizeK x ^ 3 * d) ^ (nth (12 + m) D_BN 0%nat - 1)) (INR (nth (12 + m) D_BN 0%nat))
      (INR (nth (12 + m) D_KN 0%nat) * (sizeK x ^ 3 * d) ^ nth (12 + m) D_KN 0%nat) (sizeK x ^ 3).
    intros. unfold Rminus. ring.
Qed.
Lemma expc_cont q n d : continuous (fun d => expc (q * d) n) d.
Proof.
  unfold expc. destruct (nth n D_KN 0%nat) as [|k]; [apply continuous_const|].
  apply (ex_derive_continuous (K := R_AbsRing) (V := R_NormedModule)). auto_derive. trivial.
Qed.
Lemma Gd_cont d : continuous Gd d.
Proof.
  unfold Gd. cbv zeta.
  apply (continuous_plus (fun _ => virialB x T - sizeK x ^ 3 * sum 6 (fun m => ctu (12 + m)))).
  { apply continuous_const. }
  apply (sum_cont 46 (fun m d => let n := (12 + m)%nat in
      ctu n * (INR (nth n D_BN 0%nat) - INR (nth n D_KN 0%nat) * (sizeK x ^ 3 * d) ^ nth n D_KN 0%nat) * sizeK x ^ 3 * (sizeK x ^ 3 * d) ^ (nth n D_BN 0%nat - 1) * expc (sizeK x ^ 3 * d) n)).
  intros m _. cbv zeta.
  apply (continuous_mult (fun d => ctu (12 + m) * (INR (nth (12 + m) D_BN 0%nat) - INR (nth (12 + m) D_KN 0%nat) * (sizeK x ^ 3 * d) ^ nth (12 + m) D_KN 0%nat) * sizeK x ^ 3 * (sizeK x ^ 3 * d) ^ (nth (12 + m) D_BN 0%nat - 1)) (fun d => expc (sizeK x ^ 3 * d) (12 + m))).
  - generalize (nth (12 + m) D_BN 0%nat) (nth (12 + m) D_KN 0%nat) (ctu (12 + m)) (sizeK x ^ 3). intros b k c q.
    apply (ex_derive_continuous (K := R_AbsRing) (V := R_NormedModule)). auto_derive. trivial.
  - apply expc_cont.
Qed.
Lemma Gd_0 : Gd 0 = virialB x T.
Proof.
  unfold Gd. cbv zeta. rewrite Rmult_0_r. change (sum 46) with (sum (6 + 40)). rewrite sum_split.
  assert (Ek : forall n, INR (nth n D_KN 0%nat) * 0 ^ nth n D_KN 0%nat = 0).
  { intros n. destruct (nth n D_KN 0%nat) as [|k]; [cbn; ring|]. rewrite pow_i by lia. ring. }
  assert (Ee : forall n, expc 0 n = 1).
  { intros n. unfold expc. destruct (nth n D_KN 0%nat) as [|k]; [reflexivity|]. rewrite pow_i by lia.
    rewrite Ropp_0. apply exp_0. }
  rewrite (sum_ext 6 (fun m => _ * _ * _ * _ * _) (fun m => sizeK x ^ 3 * ctu (12 + m))).
  2: { intros m Hm. rewrite Ek, Ee, bn_1 by lia. change (1 - 1)%nat with 0%nat. generalize (sizeK x ^ 3). intros. cbn. ring. }
  rewrite (sum_ext 40 _ (fun m => 0 * 0)).
  2: { intros m Hm. pose proof (bn_ge2 (12 + (6 + m)) ltac:(lia)). rewrite Ek, (pow_i (_ - 1)) by lia. ring. }
  rewrite !sum_scal. ring.
Qed.
Lemma virial_lim : is_lim (fun d => (Zfactor x T d - 1) / d) 0 (virialB x T).
Proof.
  apply (lim_of_cont _ Gd).
  - intros d Hd. rewrite Z_Gd. field. exact Hd.
  - apply Gd_cont.
  - exact Gd_0.
Qed.
End Z.

Section C29.
Variables (x : nat -> R).
Hypothesis Hs : exists i, (i < 21)%nat /\ 1 / 10000000 < x i.
Variable t : R.
Hypothesis Ht : 1 / 10000000 < t.
Lemma z_zero : dprop New PZ x t 0 = 1.
Proof. rewrite dprop_z_eos, Z_Gd by assumption. ring. Qed.
Lemma p_zero : dpres New x t 0 = 0.
Proof. rewrite dpres_eos by assumption. unfold eos. ring. Qed.
Lemma virial_prop : is_lim (fun d => (dprop New PZ x t d - 1) / d) 0 (virialB (nn x) t).
Proof.
  apply (is_lim_ext (fun d => (Zfactor (nn x) t d - 1) / d)).
  - intros d. rewrite dprop_z_eos by assumption. reflexivity.
  - apply virial_lim.
Qed.
End C29.

Section Low.
Variables (k : start) (x : nat -> R) (t : R).
Hypothesis Ht : 1 / 10000000 < t.
Lemma ts_zero n : (n < 58)%nat -> @ts1 ArithR (dk k x t) (dr (dk k x t) 0) 0 n = 0 /\ @ts2 ArithR (dk k x t) (dr (dk k x t) 0) n = 0.
Proof.
  intros Hn. assert (E : @dr ArithR (dk k x t) 0 = 0) by (unfold dr; rar; ring). rewrite E.
  unfold ts1, ts2, tsumb, tsum0. rewrite !fpw_pow. unfold bn. pose proof (bn_ge1 n Hn).
  rewrite pow_i by lia. unfold f0. rar. cbn [Rlit].
  destruct (Nat.leb 12 n), (Nat.leb n 17); split; ring.
Qed.
Lemma dpdd_zero : dprop k PDpDd x t 0 = 831451 / 100000 * t.
Proof.
  rewrite dprop_ok by assumption. cbn [dvals]. unfold qdpdd, qrt, ar01, ar02.
  rewrite !facc_rsum.
  rewrite (rsum_ext _ (fun _ => 0)), rsum_0.
  2: { intros n Hn. apply in_seq in Hn. rar. rewrite (proj1 (ts_zero n ltac:(lia))). ring. }
  rewrite (rsum_ext _ (fun _ => 0)), rsum_0.
  2: { intros n Hn. apply in_seq in Hn. rar. rewrite (proj2 (ts_zero n ltac:(lia))). ring. }
  unfold RDETAIL, f2. rar. cbn [Rlit]. change (10 ^ 5)%Z with 100000%Z. ring.
Qed.
Lemma low_h d : d <= 1 / 1000000000000000 ->
  dprop k PH x t d = dprop k PU x t d + 831451 / 100000 * t.
Proof.
  intros Hd. rewrite !dprop_ok by assumption. cbn [dvals]. unfold qh, qdense.
  replace (@flt ArithR EPSILON d) with false; [reflexivity|]. symmetry. apply Rltb_false. rewrite lit15. exact Hd.
Qed.
Lemma low_cp d : d <= 1 / 1000000000000000 ->
  dprop k PCp x t d = dprop k PCv x t d + 831451 / 100000.
Proof.
  intros Hd. rewrite !dprop_ok by assumption. cbn [dvals]. unfold qcp, qdense.
  replace (@flt ArithR EPSILON d) with false; [reflexivity|]. symmetry. apply Rltb_false. rewrite lit15. exact Hd.
Qed.
End Low.
