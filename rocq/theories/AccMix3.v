(* Error analysis of the DETAIL mixture parameters: K, U, G, Q, F, the virial sums and the C terms. *)
From Coq Require Import Reals ZArith List Bool Lra Lia Psatz.
From Flocq Require Import Core BinarySingleNaN.
From Verif Require Import FArith Prelude ArithB64 B64Lemmas ArithR RSum SpecDetail SpecAcc DetailTables DetailPure DetailEos B64Err AccFold AccMix AccMix2.
Import ListNotations.
Local Open Scope R_scope.

Lemma pow5_box b lo hi : 0 <= lo -> lo <= b <= hi -> lo ^ 5 <= b ^ 5 <= hi ^ 5.
Proof. intros H0 H. split; apply pow_incr; lra. Qed.
Lemma p2m k : p2 k = exp (IZR k * ln 2). Proof. apply p2_Rpower. Qed.

Section X.
Variable m : Libm.
Hypothesis A : accurate m.
Local Notation B := (ArithB64 m).
Variable X : nat -> b64.
Hypothesis HX : forall i, (i < 21)%nat -> fin (X i) /\ rng (-50) 1 (bR (X i)).
Local Notation x := (xr X).
Hypothesis Hs : 99 / 100 <= sum 21 x <= 101 / 100.
Let P : @DParams B := dp_new.
Local Existing Instance P.
Local Notation x_ge0 := (x_ge0 X HX).

Lemma K5_f : form (fun i => x i * Rpower (tb D_KI i) (5/2)) (fun i j => bip D_KIJ i j ^ 5) = K5 x.
Proof.
  unfold form, K5. do 2 f_equal. apply pairs_ext. intros i j H. rewrite <- Rpower_mult_distr by (apply KI_pos; lia). ring.
Qed.
Lemma U5_f : form (fun i => x i * Rpower (tb D_EI i) (5/2)) (fun i j => bip D_UIJ i j ^ 5) = U5 x.
Proof.
  unfold form, U5. do 2 f_equal. apply pairs_ext. intros i j H. rewrite <- Rpower_mult_distr by (apply EI_pos; lia). ring.
Qed.
Lemma aK5 : ap 3408 (-12) 1 (@accpp B X q_kij5 (@fpowi B (accp (A := B) X (fun i => fmul (X i : @F B) (q_ki25 i)) f0) 2)) (K5 x) (K5 x).
Proof.
  rewrite <- K5_f. change 3408%Z with ((2 * (23 + 46) + 430) * 6)%Z.
  eapply (aform m A X HX Hs (fun i => Rpower (tb D_KI i) (5/2)) (@Dki25 B) (fun i j => bip D_KIJ i j ^ 5) (@Dkij5 B) (4/10) (118/100) 23 (-5) 0 74 (-15) 6 6 (-12) 1);
    try zc; try lra.
  - intros i Hi. apply (aki25 m A), Hi.
  - intros i j H. apply (akij5 m A). lia.
  - intros i Hi. apply rng_pos; [apply (aki25 m A i Hi)|]. apply Rgt_not_eq, Rpower_gt0.
  - intros i j H. pose proof (pow5_box _ (854/1000) (1033/1000) ltac:(lra) (KIJ_box i j ltac:(lia))) as Q. lra.
  - cbn [bpow radix2 Z.pow_pos]. cbn. lra.
  - cbn. lra.
Qed.
Lemma aU5 : ap 108224 (-3) 54 (@accpp B X q_uij5 (@fpowi B (accp (A := B) X (fun i => fmul (X i : @F B) (q_ei25 i)) f0) 2)) (U5 x) (U5 x).
Proof.
  rewrite <- U5_f. change 108224%Z with ((2 * (43 + 46) + 430) * 178)%Z.
  eapply (aform m A X HX Hs (fun i => Rpower (tb D_EI i) (5/2)) (@Dei25 B) (fun i j => bip D_UIJ i j ^ 5) (@Duij5 B) (113/10000) (1106/100) 43 2 25 114 (-6) 56 178 (-3) 54);
    try zc; try lra.
  - intros i Hi. apply (aei25 m A), Hi.
  - intros i j H. apply (auij5 m A). lia.
  - intros i Hi. apply rng_pos; [apply (aei25 m A i Hi)|]. apply Rgt_not_eq, Rpower_gt0.
  - intros i j H. pose proof (pow5_box _ (408/1000) (1617/1000) ltac:(lra) (UIJ_box i j ltac:(lia))) as Q. lra.
  - cbn. lra.
  - cbn. lra.
Qed.
Lemma K5p : 0 < K5 x. Proof. apply K5_pos; [exact x_ge0|exact (Hsx X Hs)]. Qed.
Lemma U5p : 0 < U5 x. Proof. apply U5_pos; [exact x_ge0|exact (Hsx X Hs)]. Qed.
Lemma sizeK3 : Rpower (K5 x) (3/5) = sizeK x ^ 3.
Proof. unfold sizeK. rewrite <- Rpower_pow by apply Rpower_gt0. rewrite Rpower_mult. f_equal. cbn. field. Qed.
Lemma aK3 : ap 2064 (-8) 1 (@pK3 B P X) (sizeK x ^ 3) (sizeK x ^ 3).
Proof.
  rewrite <- sizeK3. destruct (lit_w m 6 eq_refl) as [F1 F2]. replace (Rlit (L 6 (-1))) with (3/5) in F2 by (cbn; lra).
  change 2064%Z with (2054 + 10)%Z. assert (R : rng (-12) 1 (K5 x)) by apply aK5.
  eapply (ap_powf m A) with (Y := 3/5) (Lx := 12); try exact aK5; try exact F2; try exact K5p; try exact F1; try zc.
  - rewrite Rabs_pos_eq; lra.
  - apply (ln_rng1 (-12) 1); [exact K5p|exact R|lia|lia|lia].
  - lra.
  - apply (rpow_rng2 (-12) 1 _ _ (3/5) (3/5)); [exact K5p|exact R|lra|lra|lra|lra|lra|lra|lra|lra|lra].
Qed.
Lemma aU : ap 21666 (-1) 11 (@pU B P X) (energyU x) (energyU x).
Proof.
  unfold energyU. destruct (lit_w m 2 eq_refl) as [F1 F2]. replace (Rlit (L 2 (-1))) with (1/5) in F2 by (cbn; lra).
  change 21666%Z with (21656 + 10)%Z. assert (R : rng (-3) 54 (U5 x)) by apply aU5.
  eapply (ap_powf m A) with (Y := 1/5) (Lx := 54); try exact aU5; try exact F2; try exact U5p; try exact F1; try zc.
  - rewrite Rabs_pos_eq; lra.
  - apply (ln_rng1 (-3) 54); [exact U5p|exact R|lia|lia|lia].
  - lra.
  - apply (rpow_rng2 (-3) 54 _ _ (1/5) (1/5)); [exact U5p|exact R|lra|lra|lra|lra|lra|lra|lra|lra|lra].
Qed.
Lemma GI_ge0 i : 0 <= tb D_GI i. Proof. exact (ap_M _ _ _ _ _ _ (aGI m i)). Qed.
Lemma QI_ge0 i : 0 <= tb D_QI i. Proof. exact (ap_M _ _ _ _ _ _ (aQI m i)). Qed.
Lemma FI_ge0 i : 0 <= tb D_FI i. Proof. exact (ap_M _ _ _ _ _ _ (aFI m i)). Qed.
Lemma SI_ge0 i : 0 <= tb D_SI i. Proof. exact (ap_M _ _ _ _ _ _ (aSI m i)). Qed.
Lemma WI_ge0 i : 0 <= tb D_WI i. Proof. exact (ap_M _ _ _ _ _ _ (aWI m i)). Qed.
Lemma axc (c : nat -> R) (cv : nat -> b64) a b : (forall i, ap 1 a b (cv i) (c i) (c i)) -> (-100 <= a)%Z -> (b <= 100)%Z ->
  ap 46 (a - 50) (b + 6) (@accp B X (fun i => bmul (X i) (cv i)) (@f0 B)) (sum 21 (fun i => x i * c i)) (sum 21 (fun i => x i * c i)).
Proof.
  intros H Ha Hb. change 46%Z with (4 + 42)%Z. replace (b + 6)%Z with (b + 1 + 5)%Z by lia. apply (aaccp m X HX); try zc.
  - intros i Hi _. eapply ap_weak; [eapply ap_mul; [apply (ax X HX), Hi|apply H|zc|zc|zc|zc]|zc|zc|zc].
  - intros i Hi ->. rewrite Rmult_0_l. now split.
Qed.
Definition sG := sum 21 (fun i => x i * tb D_GI i).
Lemma pairsG : 0 <= pairs 21 (fun i j => x i * x j * (tb D_GI i + tb D_GI j)) <= 101 / 100 * sG.
Proof.
  split.
  - apply pairs_ge0. intros i j H. apply Rmult_le_pos; [apply Rmult_le_pos; apply x_ge0; lia|]. pose proof (GI_ge0 i). pose proof (GI_ge0 j). lra.
  - pose proof (sum_sym 21 (fun i j => x i * x j * (tb D_GI i + tb D_GI j)) ltac:(intros; cbv beta; ring)) as E.
    assert (sum 21 (fun i => sum 21 (fun j => x i * x j * (tb D_GI i + tb D_GI j))) = 2 * (sum 21 x * sG)) as E2.
    { rewrite (sum_ext 21 _ (fun i => x i * tb D_GI i * sum 21 x + x i * sG)).
      - rewrite sum_plus. rewrite (sum_ext 21 (fun i => x i * tb D_GI i * sum 21 x) (fun i => sum 21 x * (x i * tb D_GI i))) by (intros; ring).
        rewrite (sum_ext 21 (fun i => x i * sG) (fun i => sG * x i)) by (intros; ring). rewrite !sum_scal. unfold sG. ring.
      - intros i Hi. unfold sG. rewrite <- !sum_scal, <- sum_plus. apply sum_ext. intros k Hk. ring. }
    assert (0 <= sum 21 (fun i => x i * x i * (tb D_GI i + tb D_GI i))).
    { apply sum_ge0. intros i Hi. apply Rmult_le_pos; [apply Rmult_le_pos; apply x_ge0; lia|]. pose proof (GI_ge0 i). lra. }
    assert (0 <= sG). { apply sum_ge0. intros i Hi. apply Rmult_le_pos; [now apply x_ge0|apply GI_ge0]. }
    nra.
Qed.
Lemma G_bounds : 36 / 100 * sG <= orientG x <= 2 * sG.
Proof.
  unfold orientG. fold sG. pose proof pairsG as PG. set (h := fun i j => x i * x j * (tb D_GI i + tb D_GI j)) in *.
  assert (H0 : forall i j, (i < j < 21)%nat -> 0 <= h i j).
  { intros i j H. apply Rmult_le_pos; [apply Rmult_le_pos; apply x_ge0; lia|]. pose proof (GI_ge0 i). pose proof (GI_ge0 j). lra. }
  assert (- (63 / 100) * pairs 21 h <= pairs 21 (fun i j => x i * x j * (bip D_GIJ i j - 1) * (tb D_GI i + tb D_GI j))
       <= 958 / 1000 * pairs 21 h) as Q.
  { split; rewrite <- pairs_scal; apply pairs_le; intros i j H; pose proof (GIJ_box i j ltac:(lia)); pose proof (H0 i j H); unfold h in *; nra. }
  nra.
Qed.
Lemma G_cond : sG + 2 * pairs 21 (fun i j => x i * x j * ((bip D_GIJ i j + 1) * (tb D_GI i + tb D_GI j) / 2)) <= 12 * orientG x.
Proof.
  pose proof G_bounds as GB. pose proof pairsG as PG. set (h := fun i j => x i * x j * (tb D_GI i + tb D_GI j)) in *.
  assert (H0 : forall i j, (i < j < 21)%nat -> 0 <= h i j).
  { intros i j H. apply Rmult_le_pos; [apply Rmult_le_pos; apply x_ge0; lia|]. pose proof (GI_ge0 i). pose proof (GI_ge0 j). lra. }
  assert (2 * pairs 21 (fun i j => x i * x j * ((bip D_GIJ i j + 1) * (tb D_GI i + tb D_GI j) / 2)) <= 2958 / 1000 * pairs 21 h) as Q.
  { rewrite <- !pairs_scal; apply pairs_le; intros i j H; pose proof (GIJ_box i j ltac:(lia)); pose proof (H0 i j H); unfold h in *; nra. }
  nra.
Qed.
Lemma sG_ge0 : 0 <= sG.
Proof. apply sum_ge0. intros i Hi. apply Rmult_le_pos; [now apply x_ge0|apply GI_ge0]. Qed.
Lemma G_ge0 : 0 <= orientG x. Proof. pose proof G_bounds. pose proof sG_ge0. lra. Qed.
Lemma aG : ap 5592 (-58) 6 (@pG B P X) (orientG x) (orientG x).
Proof.
  pose proof (axc _ _ _ _ (aGI m) ltac:(lia) ltac:(lia)) as P1. change (-6 - 50)%Z with (-56)%Z in P1. change (-1 + 6)%Z with 5%Z in P1.
  fold sG in P1. assert (R : rng (-56) 5 sG) by apply P1.
  apply (ap_weak _ _ _ 46 (-120) 10) in P1; [|zc|zc|zc].
  pose proof (aaccpp m X HX (@Dgij5 B) _ _ 13 (-9) 1 _ _ _ 46 (-120) 10 ltac:(lia) ltac:(lia) ltac:(zc) ltac:(lia) ltac:(lia) ltac:(zc)
     (fun i j H _ _ => agij5 m i j ltac:(lia)) P1) as P2.
  change 5592%Z with ((46 + 420) * 12)%Z. eapply ap_eq; [eapply (ap_scale 12); [exact P2|exact G_cond| |lia|]| |reflexivity].
  - rewrite <- pairs_scal. replace (sG + pairs 21 _) with (orientG x); [rewrite Rabs_pos_eq by exact G_ge0; apply Rle_refl|].
    unfold orientG. fold sG. f_equal. apply pairs_ext. intros. field.
  - pose proof G_bounds as [GB1 GB2]. destruct R as [E|[R1 R2]]; [left; rewrite E in *; lra|right]. split.
    + apply Rle_trans with (36 / 100 * sG); [|exact GB1]. change (-58)%Z with (-2 + -56)%Z. rewrite bpow_plus. change (p2 (-2)) with (/ 4). lra.
    + change 6%Z with (1 + 5)%Z. rewrite bpow_plus. change (p2 1) with 2. lra.
  - rewrite <- pairs_scal. unfold orientG. fold sG. f_equal. apply pairs_ext. intros. field.
Qed.
Lemma aQ : ap 46 (-51) 7 (@pQ B X) (quadQ x) (quadQ x).
Proof. exact (axc _ _ _ _ (aQI m) ltac:(lia) ltac:(lia)). Qed.
Lemma ax2 i : (i < 21)%nat -> ap 12 (-100) 2 (lm_powi m (X i) 2) (x i ^ 2) (x i ^ 2).
Proof.
  intros Hi. change 12%Z with (2 + 10)%Z. change 2%Z with (Z.of_nat 2) at 3. 
  eapply (ap_powi m A); try exact (ax X HX i Hi); try zc; [now apply x_ge0|].
  apply (rng_pow _ _ _ 2 (proj2 (HX i Hi))). lia.
Qed.
Lemma aF : ap 58 (-100) 7 (@pF B X) (highF x) (highF x).
Proof.
  change 58%Z with (16 + 42)%Z. change 7%Z with (2 + 5)%Z. apply (aaccp m X HX); try zc.
  - intros i Hi _. eapply ap_weak; [eapply ap_mul; [apply ax2, Hi|apply (aFI m)|zc|zc|zc|zc]|zc|zc|zc].
  - intros i Hi ->. rewrite pow_ne_zero by lia. rewrite Rmult_0_l. now split.
Qed.
Lemma Q_ge0 : 0 <= quadQ x. Proof. exact (ap_M _ _ _ _ _ _ aQ). Qed.
Lemma F_ge0 : 0 <= highF x. Proof. exact (ap_M _ _ _ _ _ _ aF). Qed.
Lemma aQ2 : ap 104 (-102) 14 (lm_powi m (@pQ B X) 2) (quadQ x ^ 2) (quadQ x ^ 2).
Proof.
  change 104%Z with (94 + 10)%Z. change (lm_powi m (@pQ B X) 2) with (lm_powi m (@pQ B X) (Z.of_nat 2)). 
  eapply (ap_powi m A); try exact aQ; try zc; [exact Q_ge0|]. apply (rng_pow (-51) 7 _ 2); [apply aQ|lia].
Qed.

(* the C terms *)
Lemma flag_chk : forallb (fun n => negb (fl D_GN n && fl D_QN n || fl D_GN n && fl D_FN n || fl D_QN n && fl D_FN n)) (seq 12 46) = true.
Proof. reflexivity. Qed.
Lemma aUu n : ap 498627 (-143) 253 (lm_powf m (@pU B P X) (@lv B D_UN n)) (Rpower (energyU x) (tb D_UN n)) (Rpower (energyU x) (tb D_UN n)).
Proof.
  destruct (UN_err m n) as [F1 F2]. pose proof (UN_rng n) as UR. change 498627%Z with (498617 + 10)%Z.
  assert (R : rng (-1) 11 (energyU x)) by apply aU. assert (0 < energyU x) as U0 by apply Rpower_gt0.
  eapply (ap_powf m A) with (Y := 23) (Lx := 11); try exact aU; try exact F2; try exact U0; try exact F1; try zc.
  - apply Rabs_le. lra.
  - apply (ln_rng1 (-1) 11); [exact U0|exact R|lia|lia|lia].
  - lra.
  - apply (rpow_rng2 (-1) 11 _ _ (-13) 23); [exact U0|exact R|lra|lra|lra|lra|lra|lra|lra|lra|lra].
Qed.
Lemma aC n : (12 <= n < 58)%nat -> ap 504226 (-300) 271 (@pCsn B P X n) (Cstar x n) (Rabs (Cstar x n)).
Proof.
  intros Hn. pose proof (proj1 (forallb_forall _ _) flag_chk n ltac:(apply in_seq; lia)) as FC. cbv beta in FC.
  unfold pCsn. rewrite (proj2 (Nat.leb_le 12 n)) by lia. unfold csn_of, Cstar. rewrite !opt_fl by reflexivity.
  assert (ap 498631 (-198) 257 (bmul (@lv B D_AN n) (lm_powf m (@pU B P X) (@lv B D_UN n))) (tb D_AN n * Rpower (energyU x) (tb D_UN n))
    (Rabs (tb D_AN n) * Rpower (energyU x) (tb D_UN n))) as P1.
  { eapply ap_weak; [eapply ap_mul; [apply aAN|apply aUu|zc|zc|zc|zc]|zc|zc|zc]. }
  rewrite !Rabs_mult. rewrite (Rabs_pos_eq (Rpower _ _)) by apply Rlt_le, Rpower_gt0.
  pose proof G_ge0. pose proof F_ge0. pose proof (pow2_ge_0 (quadQ x)).
  destruct (fl D_GN n), (fl D_QN n), (fl D_FN n); try discriminate FC; rewrite ?Rabs_R1; rewrite ?(Rabs_pos_eq (orientG x)), ?(Rabs_pos_eq (quadQ x ^ 2)), ?(Rabs_pos_eq (highF x)) by assumption.
  - eapply ap_eq; [eapply ap_weak; [eapply ap_mul; [exact P1|apply aG|zc|zc|zc|zc]|zc|zc|zc]|ring|ring].
  - eapply ap_eq; [eapply ap_weak; [eapply ap_mul; [exact P1|apply aQ2|zc|zc|zc|zc]|zc|zc|zc]|ring|ring].
  - eapply ap_eq; [eapply ap_weak; [eapply ap_mul; [exact P1|apply aF|zc|zc|zc|zc]|zc|zc|zc]|ring|ring].
  - eapply ap_eq; [eapply ap_weak; [exact P1|zc|zc|zc]|ring|ring].
Qed.
End X.
