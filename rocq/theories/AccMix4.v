(* Error analysis of the DETAIL second virial sums. *)
From Coq Require Import Reals ZArith List Bool Lra Lia Psatz.
From Flocq Require Import Core BinarySingleNaN.
From Verif Require Import FArith Prelude ArithB64 B64Lemmas ArithR RSum SpecDetail SpecAcc DetailTables DetailPure DetailEos B64Err AccFold AccMix AccMix2 AccMix3.
Import ListNotations.
Local Open Scope R_scope.

Section M.
Variable m : Libm.
Hypothesis A : accurate m.
Local Notation B := (ArithB64 m).

Lemma aEij i j : (i <= j < 21)%nat -> ap 11 0 11 (bmul (@lv2 B D_EIJ i j) (bsqrt (bmul (@lv B D_EI i) (@lv B D_EI j)))) (Eij i j) (Eij i j).
Proof.
  intros H. unfold Eij. pose proof (EI_pos i ltac:(lia)). pose proof (EI_pos j ltac:(lia)).
  assert (0 < tb D_EI i * tb D_EI j) by (apply Rmult_lt_0_compat; assumption).
  assert (ap 5 2 20 (bmul (@lv B D_EI i) (@lv B D_EI j)) (tb D_EI i * tb D_EI j) (tb D_EI i * tb D_EI j)) as P1.
  { eapply ap_weak; [eapply ap_mul; [apply aEI|apply aEI|zc|zc|zc|zc]|zc|zc|zc]. }
  eapply ap_weak; [eapply ap_mul; [apply aEIJ; lia|apply (ap_sqrt 5 2 20 _ _ 1 10); [exact P1|assumption|zc|zc|zc|zc]|zc|zc|zc|zc]|zc|zc|zc].
Qed.
Lemma Eij_pos i j : (i <= j < 21)%nat -> 0 < Eij i j.
Proof.
  intros H. apply Rmult_lt_0_compat; [now apply EIJ_pos|]. apply sqrt_lt_R0, Rmult_lt_0_compat; apply EI_pos; lia.
Qed.
Lemma aEu n i j : (i <= j < 21)%nat -> ap 562 (-143) 253 (lm_powf m (bmul (@lv2 B D_EIJ i j) (bsqrt (bmul (@lv B D_EI i) (@lv B D_EI j)))) (@lv B D_UN n))
  (Rpower (Eij i j) (tb D_UN n)) (Rpower (Eij i j) (tb D_UN n)).
Proof.
  intros H. destruct (UN_err m n) as [F1 F2]. pose proof (UN_rng n) as UR. change 562%Z with (552 + 10)%Z.
  pose proof (aEij i j H) as Q. assert (R : rng 0 11 (Eij i j)) by apply Q. pose proof (Eij_pos i j H) as U0.
  eapply (ap_powf m A) with (Y := 23) (Lx := 11); try exact Q; try exact F2; try exact U0; try exact F1; try zc.
  - apply Rabs_le. lra.
  - apply (ln_rng1 0 11); [exact U0|exact R|lia|lia|lia].
  - lra.
  - apply (rpow_rng2 0 11 _ _ (-13) 23); [exact U0|exact R|lra|lra|lra|lra|lra|lra|lra|lra|lra].
Qed.
Lemma aKK i j : (i < 21)%nat -> (j < 21)%nat -> ap 27 (-6) 0 (lm_powf m (bmul (@lv B D_KI i) (@lv B D_KI j)) (@flit B (L 15 (-1))))
  (Rpower (tb D_KI i * tb D_KI j) (3/2)) (Rpower (tb D_KI i * tb D_KI j) (3/2)).
Proof.
  intros Hi Hj. destruct (lit_w m 15 eq_refl) as [F1 F2]. replace (Rlit (L 15 (-1))) with (3/2) in F2 by (cbn; lra).
  assert (0 < tb D_KI i * tb D_KI j) as K0 by (apply Rmult_lt_0_compat; apply KI_pos; assumption).
  assert (ap 5 (-4) 0 (bmul (@lv B D_KI i) (@lv B D_KI j)) (tb D_KI i * tb D_KI j) (tb D_KI i * tb D_KI j)) as P1.
  { eapply ap_weak; [eapply ap_mul; [apply aKI|apply aKI|zc|zc|zc|zc]|zc|zc|zc]. }
  assert (R : rng (-4) 0 (tb D_KI i * tb D_KI j)) by apply P1. change 27%Z with (17 + 10)%Z.
  eapply (ap_powf m A) with (Y := 3/2) (Lx := 4); try exact P1; try exact F2; try exact K0; try exact F1; try zc.
  - rewrite Rabs_pos_eq; lra.
  - apply (ln_rng1 (-4) 0); [exact K0|exact R|lia|lia|lia].
  - lra.
  - apply (rpow_rng2 (-4) 0 _ _ (3/2) (3/2)); [exact K0|exact R|lra|lra|lra|lra|lra|lra|lra|lra|lra].
Qed.
Lemma aif (c : bool) k a b v r k' a' b' (l : list lit) i j k1 a1 b1 : ap k a b v r r ->
  (forall i, ap 1 a1 b1 (@lv B l i) (tb l i) (tb l i)) ->
  (0 <= k <= 100)%Z -> (k + 8 <= k')%Z -> (-100 <= a <= 0)%Z -> (0 <= b <= 100)%Z -> (-10 <= a1 <= 0)%Z -> (0 <= b1 <= 10)%Z ->
  (a' <= a + 2 * a1)%Z -> (b + 2 * b1 <= b')%Z -> k1 = k' ->
  ap k1 a' b' (if c then bmul (bmul v (@lv B l i)) (@lv B l j) else v) (r * if c then tb l i * tb l j else 1) (r * if c then tb l i * tb l j else 1).
Proof.
  intros Q H. intros. subst k1. destruct c.
  - eapply ap_eq; [eapply ap_weak; [eapply ap_mul; [eapply ap_mul; [exact Q|apply H|zc|zc|zc|zc]|apply H|zc|zc|zc|zc]|zc|zc|zc]|ring|ring].
  - eapply ap_eq; [eapply ap_weak; [exact Q|zc|zc|zc]|ring|ring].
Qed.
Lemma aBst n i j : (i <= j < 21)%nat -> ap 43 (-15) 4 (@Dbsnij B i j n) (Bstar n i j) (Bstar n i j).
Proof.
  intros H. unfold Dbsnij, Bstar. rewrite !opt_fl by reflexivity. rewrite !FI_sqrt.
  assert (ap 11 (-9) 0 (if fl D_GN n then bdiv (bmul (@lv2 B D_GIJ i j) (badd (@lv B D_GI i) (@lv B D_GI j))) (@f2 B) else @f1 B)
    (if fl D_GN n then bip D_GIJ i j * (tb D_GI i + tb D_GI j) / 2 else 1) (if fl D_GN n then bip D_GIJ i j * (tb D_GI i + tb D_GI j) / 2 else 1)) as P0.
  { destruct (fl D_GN n).
    - eapply ap_weak; [eapply ap_div; [eapply ap_mul; [apply aGIJ; lia|apply agg|zc|zc|zc|zc]|exact (a2 m)|lra|zc|zc|zc|zc]|zc|zc|zc].
    - eapply ap_weak; [exact (a1 m)|zc|zc|zc]. }
  pose proof (aif (fl D_QN n) 11 (-9) 0 _ _ 19 (-11) 2 D_QI i j 19 (-1) 1 P0 (aQI m) ltac:(lia) ltac:(lia) ltac:(lia) ltac:(lia) ltac:(lia) ltac:(lia) ltac:(lia) ltac:(lia) eq_refl) as P1.
  pose proof (aif (fl D_FN n) 19 (-11) 2 _ _ 27 (-11) 2 D_FI i j 27 0 0 P1 (aFI m) ltac:(lia) ltac:(lia) ltac:(lia) ltac:(lia) ltac:(lia) ltac:(lia) ltac:(lia) ltac:(lia) eq_refl) as P2.
  pose proof (aif (fl D_SN n) 27 (-11) 2 _ _ 35 (-15) 4 D_SI i j 35 (-2) 1 P2 (aSI m) ltac:(lia) ltac:(lia) ltac:(lia) ltac:(lia) ltac:(lia) ltac:(lia) ltac:(lia) ltac:(lia) eq_refl) as P3.
  exact (aif (fl D_WN n) 35 (-15) 4 _ _ 43 (-15) 4 D_WI i j 43 0 0 P3 (aWI m) ltac:(lia) ltac:(lia) ltac:(lia) ltac:(lia) ltac:(lia) ltac:(lia) ltac:(lia) ltac:(lia) eq_refl).
Qed.
Lemma aBs2 n i j : (i <= j < 21)%nat -> ap 642 (-219) 261 (@Dbsn2 B i j n) (bsym n i j) (Rabs (bsym n i j)).
Proof.
  intros H. pose proof (ap_M _ _ _ _ _ _ (aBst n i j H)) as B0'. unfold Dbsn2, bsym.
  rewrite !Rabs_mult, (Rabs_pos_eq (Bstar n i j)) by exact B0'. rewrite !(Rabs_pos_eq (Rpower _ _)) by apply Rlt_le, Rpower_gt0.
  eapply ap_eq; [eapply ap_weak; [eapply ap_mul; [eapply ap_mul; [eapply ap_mul; [apply aAN|apply aEu, H|zc|zc|zc|zc]|apply aKK; lia|zc|zc|zc|zc]|
    apply aBst, H|zc|zc|zc|zc]|zc|zc|zc]|ring|ring].
Qed.
Lemma bsym_abs n i j : (i < 21)%nat -> (j < 21)%nat -> Rabs (tb D_AN n) * bsym n i j = tb D_AN n * Rabs (bsym n i j).
Proof.
  intros Hi Hj. assert (0 <= Bstar n i j) as H0.
  { destruct (Nat.le_ge_cases i j) as [L|L].
    - apply (ap_M _ _ _ _ _ _ (aBst n i j ltac:(lia))).
    - replace (Bstar n i j) with (Bstar n j i); [apply (ap_M _ _ _ _ _ _ (aBst n j i ltac:(lia)))|].
      unfold Bstar. rewrite (bip_sym D_GIJ i j). rewrite (Rmult_comm (tb D_QI i)),
        (Rmult_comm (sqrt (tb D_FI i))), (Rmult_comm (tb D_SI i)), (Rmult_comm (tb D_WI i)), (Rplus_comm (tb D_GI i)). reflexivity. }
  unfold bsym. rewrite !Rabs_mult. rewrite (Rabs_pos_eq (Bstar n i j)) by exact H0. rewrite !(Rabs_pos_eq (Rpower _ _)) by apply Rlt_le, Rpower_gt0. ring.
Qed.

Section X.
Variable X : nat -> b64.
Hypothesis HX : forall i, (i < 21)%nat -> fin (X i) /\ rng (-50) 1 (bR (X i)).
Local Notation x := (xr X).
Let P : @DParams B := dp_new.
Local Existing Instance P.
(* term n of the second virial coefficient without its temperature factor *)
Definition Bterm (y : nat -> R) n := sum 21 (fun i => sum 21 (fun j => y i * y j * bsym n i j)).
Lemma Bterm_eq y n : Bterm y n = sum 21 (fun i => y i ^ 2 * bsym n i i) + 2 * pairs 21 (fun i j => y i * y j * bsym n i j).
Proof.
  unfold Bterm. rewrite sum_sym by (intros i j; rewrite bsym_sym; ring). f_equal. apply sum_ext. intros. ring.
Qed.
Lemma Bterm_abs n : sum 21 (fun i => x i ^ 2 * Rabs (bsym n i i)) + 2 * pairs 21 (fun i j => x i * x j * Rabs (bsym n i j)) = Rabs (Bterm x n).
Proof.
  set (M := sum 21 _ + _). assert (0 <= M) as HM.
  { apply Rplus_le_le_0_compat; [apply sum_ge0; intros; apply Rmult_le_pos; [apply pow2_ge_0|apply Rabs_pos]|].
    apply Rmult_le_pos; [lra|]. apply pairs_ge0. intros i j H. apply Rmult_le_pos; [|apply Rabs_pos]. apply Rmult_le_pos; apply (x_ge0 X HX); lia. }
  assert (Rabs (tb D_AN n) * Bterm x n = tb D_AN n * M) as E.
  { rewrite Bterm_eq. unfold M. rewrite !Rmult_plus_distr_l, <- !sum_scal, <- !Rmult_assoc, !(Rmult_comm _ 2), !Rmult_assoc, <- !pairs_scal. apply f_equal2.
    - apply sum_ext. intros i Hi. pose proof (bsym_abs n i i Hi Hi). 
      transitivity (x i ^ 2 * (Rabs (tb D_AN n) * bsym n i i)); [ring|]. rewrite H. ring.
    - apply pairs_ext. intros i j H. pose proof (bsym_abs n i j ltac:(lia) ltac:(lia)) as H2. 
      transitivity (2 * (x i * x j * (Rabs (tb D_AN n) * bsym n i j))); [ring|]. rewrite H2. ring. }
  destruct (Req_dec (tb D_AN n) 0) as [Z|NZ].
  - assert (Bterm x n = 0) as ->.
    { rewrite Bterm_eq. rewrite (sum_ext 21 _ (fun _ => 0 * 0)), (pairs_ext 21 _ (fun _ _ => 0 * 0)); [rewrite sum_scal, pairs_scal; ring| |];
      intros; unfold bsym; rewrite Z; ring. }
    unfold M. rewrite (sum_ext 21 _ (fun _ => 0 * 0)), (pairs_ext 21 _ (fun _ _ => 0 * 0)); [rewrite sum_scal, pairs_scal, Rabs_R0; ring| |];
      intros; unfold bsym; rewrite Z, Rmult_0_l, Rabs_R0; ring.
  - pose proof (f_equal Rabs E) as E'. rewrite !Rabs_mult, Rabs_Rabsolu, (Rabs_pos_eq M HM) in E'. symmetry.
    apply Rmult_eq_reg_l in E'; [exact E'|]. now apply Rabs_no_R0.
Qed.
Lemma aBs n : ap 1119 (-319) 276 (@pBs B P X n) (Bterm x n) (Rabs (Bterm x n)).
Proof.
  rewrite <- Bterm_abs, Bterm_eq.
  assert (ap 699 (-319) 268 (@accp B X (fun i => bmul (lm_powi m (X i) 2) (@Dbsn2 B i i n)) (@f0 B)) (sum 21 (fun i => x i ^ 2 * bsym n i i))
    (sum 21 (fun i => x i ^ 2 * Rabs (bsym n i i)))) as P1.
  { change 699%Z with (657 + 42)%Z. change 268%Z with (263 + 5)%Z. apply (aaccp m X HX); try zc.
    - intros i Hi _. eapply ap_weak; [eapply ap_mul; [apply (ax2 m A X HX), Hi|apply (aBs2 n i i); lia|zc|zc|zc|zc]|zc|zc|zc].
    - intros i Hi ->. split; ring. }
  change 1119%Z with (699 + 420)%Z. change 276%Z with (268 + 8)%Z.
  exact (aaccpp m X HX (fun i j => @Dbsn2 B i j n) _ _ 642 (-219) 261 _ _ _ 699 (-319) 268 ltac:(lia) ltac:(lia) ltac:(zc) ltac:(lia) ltac:(lia) ltac:(zc)
    (fun i j H _ _ => aBs2 n i j ltac:(lia)) P1).
Qed.
End X.
End M.
