(* The DETAIL equation for a natural gas between 270 K and 350 K up to 1.12 mol/l. *)
From Coq Require Import Reals ZArith List Bool Lra Lia Psatz.
From Verif Require Import FArith ArithR StdDetail SpecStd SpecGas SpecAcc SpecSlope SpecConv SlopeReal ConvDetail FixUp GasDetail GasVirial GasThird GasVir2.
From Verif Require Converge.
Import ListNotations.
Local Open Scope R_scope.

(* the terms of first order in the reduced density, without their linear part *)
Lemma ek_low k D : (1 <= k)%nat -> 0 <= D <= 1 -> 1 - D ^ k <= ek k D <= 1.
Proof.
  intros Hk HD. split; [|apply ek_box; lra]. destruct k; [lia|]. unfold ek. pose proof (exp_ineq1_le (- D ^ S k)). lra.
Qed.
Lemma first_box q e y w : 0 <= y <= 1 -> 1 - y <= e <= 1 -> 0 <= e -> q <= 1 -> 1 - w <= q -> 0 <= w -> - (w + y) <= q * e - 1 <= 0.
Proof. intros Hy He He0 H1 H2 Hw. destruct (Rle_lt_dec 0 q) as [G|G]; split; nra. Qed.
Lemma hb_first k D : (1 <= k)%nat -> 0 <= D <= 1 -> Rabs (hb 1 k D - D) <= INR ((1 + k) * (1 + k)) * D ^ S k /\ Rabs (hb1 1 k D - D) <= INR ((1 + k) * (1 + k)) * D ^ S k.
Proof.
  intros Hk HD. pose proof (ek_low k D Hk HD) as E. destruct (ek_box k D (proj1 HD)) as [E0 _]. destruct (pow_le1 k D HD) as [Y0 Y1]. rewrite mult_INR, !plus_INR. cbn [INR pow]. unfold hb, hb1. cbn [INR].
  replace (D ^ 1) with D by ring. set (y := D ^ k) in *. set (e := ek k D) in *. assert (1 <= INR k) as K1 by (apply (le_INR 1); exact Hk). set (kk := INR k) in *. clearbody y e kk.
  assert (S : forall q w, q <= 1 -> 1 - w <= q -> 0 <= w -> w + y <= (1 + kk) * (1 + kk) * y -> Rabs (q * D * e - D) <= (1 + kk) * (1 + kk) * (D * y)).
  { intros q w A B C F. destruct (first_box q e y w) as [G1 G2]; try lra. replace (q * D * e - D) with (D * (q * e - 1)) by ring. apply Rabs_le. split; nra. }
  split; [apply (S (1 - kk * y) (kk * y))|apply (S ((1 - kk * y) ^ 2 - kk ^ 2 * y) ((2 * kk + kk * kk) * y))]; try nra.
  assert (0 <= kk * kk * y * (1 - y)) by (repeat apply Rmult_le_pos; lra). nra.
Qed.

Definition wtZ (D : Z) (b k : nat) : Z := let t := powU D k in (powU (nU b + mulU (nU k) t) 2 + mulU (powU (nU k) 2) t)%Z.
Definition tailZ (D : Z) : Z := (lsumU (fun r => let '(c, b, k) := r in mulU (mulU c (nU ((1 + k) * (1 + k)))) (powU D (S k))) (firstn 6 CT)
  + lsumU (fun r => let '(c, b, k) := r in mulU (mulU c (wtZ D b k)) (powU D b)) (skipn 6 CT))%Z.
Definition topZ (d D : Z) : Z := (SC + mulU (nU 2) (mulU d (litU (L 4384 (-4)))) + mulU (nU 2) (mulU D (lsumU (fun r => fst (fst r)) (firstn 6 CT)))
  + lsumU (fun r => let '(c, b, k) := r in mulU (mulU c (nU ((b + k) * (b + k + 3) + k * k))) (powU D b)) CT)%Z.
Definition d1 : lit := L 801 (-3). Definition d2 : lit := L 1120 (-3).
Definition D1 : Z := Eval vm_compute in mulU (powU (litU kq) 3) (litU d1).
Definition D2 : Z := Eval vm_compute in mulU (powU (litU kq) 3) (litU d2).
Lemma D1_num : D1 = mulU (powU (litU kq) 3) (litU d1). Proof. vm_compute. reflexivity. Qed.
Lemma D2_num : D2 = mulU (powU (litU kq) 3) (litU d2). Proof. vm_compute. reflexivity. Qed.
Lemma tail1_num : (tailZ D1 <=? 5770000)%Z = true. Proof. vm_compute. reflexivity. Qed.
Lemma tail2_num : (tailZ D2 <=? 12100000)%Z = true. Proof. vm_compute. reflexivity. Qed.
Lemma top2_num : (topZ (litU d2) D2 <=? 870000000)%Z = true. Proof. vm_compute. reflexivity. Qed.
Lemma first_ok m : (m < 6)%nat -> b_ (12 + m) = 1%nat /\ (1 <= k_ (12 + m))%nat.
Proof. intros H. do 6 (destruct m as [|m]; [split; [reflexivity|cbn; lia]|]). lia. Qed.
Lemma tot_split n k f : tot (n + k) f = tot n f + tot k (fun m => f (n + m)%nat).
Proof. induction k as [|k IH]; [rewrite Nat.add_0_r; cbn; ring|]. rewrite Nat.add_succ_r. cbn [tot]. rewrite IH. ring. Qed.

Section W.
Variable x : nat -> R.
Hypothesis Hx : natural_gas x.
Variable T : R.
Hypothesis HT : 270 <= T <= 350.
Let kappa := Rpower (sizeK5 x) (1 / 5) ^ 3.
Let c n := C_n x n * Rpower T (- u_ n).
Lemma c_abs n : Rabs (c n) = cT x T n.
Proof. unfold c, cT. rewrite Rabs_mult, (Rabs_pos_eq (Rpower T _)); [reflexivity|left; apply exp_pos]. Qed.
Lemma D_lit l D d : 0 < d <= Rlit l -> D = mulU (powU (litU kq) 3) (litU l) -> up D (detail_D x d).
Proof.
  intros Hd ->. unfold detail_D. pose proof (kap_le x Hx) as KL. apply up_mul; [apply up_pow|]; apply lit_le; [left; apply exp_pos|exact KL|lra|lra].
Qed.
Lemma six_up' : up (lsumU (fun r => fst (fst r)) (firstn 6 CT)) (tot 6 (fun m => cT x T (12 + m))).
Proof. rewrite CT_num, firstn_map. change (firstn 6 (seq 12 46)) with (seq 12 6). rewrite lsum_map, <- lsum_from. apply up_lsum. intros n Hn. apply in_seq in Hn. cbn [fst]. apply C_up; trivial. lia. Qed.
Variable d : R.
Variable D : Z.
Hypothesis Hd : 0 < d.
Hypothesis HD : up D (detail_D x d).
Hypothesis HD1 : detail_D x d <= 1.
Lemma tail_up : up (tailZ D) (tot 6 (fun m => cT x T (12 + m) * (INR ((1 + k_ (12 + m)) * (1 + k_ (12 + m))) * detail_D x d ^ S (k_ (12 + m))))
  + tot 40 (fun m => cT x T (18 + m) * (wt (b_ (18 + m)) (k_ (18 + m)) (detail_D x d) * detail_D x d ^ b_ (18 + m)))).
Proof.
  unfold tailZ. apply up_add.
  - rewrite CT_num, firstn_map. change (firstn 6 (seq 12 46)) with (seq 12 6). rewrite lsum_map, <- (lsum_from (fun n => cT x T n * (INR ((1 + k_ n) * (1 + k_ n)) * detail_D x d ^ S (k_ n)))). apply up_lsum. intros n Hn. apply in_seq in Hn.
    rewrite <- Rmult_assoc. apply up_mul; [apply up_mul; [apply C_up; trivial; lia|apply up_INR]|]. now apply up_pow.
  - rewrite CT_num, skipn_map. change (skipn 6 (seq 12 46)) with (seq 18 40). rewrite lsum_map, <- (lsum_from (fun n => cT x T n * (wt (b_ n) (k_ n) (detail_D x d) * detail_D x d ^ b_ n))). apply up_lsum. intros n Hn. apply in_seq in Hn.
    rewrite <- Rmult_assoc. apply up_mul; [apply up_mul; [apply C_up; trivial; lia|]|now apply up_pow].
    unfold wtZ, wt. apply up_add; [apply up_pow; apply up_add; [apply up_INR|apply up_mul; [apply up_INR|]]|apply up_mul; [apply up_pow; apply up_INR|]]; now apply up_pow.
Qed.
Lemma D_eq : detail_D x d = kappa * d. Proof. reflexivity. Qed.
Lemma sum_near (h : nat -> nat -> R -> R) : (forall k E, (1 <= k)%nat -> 0 <= E <= 1 -> Rabs (h 1%nat k E - E) <= INR ((1 + k) * (1 + k)) * E ^ S k) ->
  (forall b k E, 0 <= E <= 1 -> (1 <= b)%nat -> Rabs (h b k E) <= wt b k E * E ^ b) ->
  Rabs (lin x T * d + tot 46 (fun m => c (12 + m) * h (b_ (12 + m)) (k_ (12 + m)) (kappa * d)) - second_virial x T * d) <= fx (tailZ D).
Proof.
  intros H1 H2. apply Rle_trans with (2 := proj2 tail_up). rewrite <- D_eq. set (E := detail_D x d) in *. assert (0 <= E <= 1) as HE by (split; [apply HD|exact HD1]).
  change 46%nat with (6 + 40)%nat. rewrite (tot_split 6 40). unfold lin. fold kappa. fold c.
  replace ((second_virial x T - kappa * tot 6 (fun m => C_n x (12 + m) * Rpower T (- u_ (12 + m)))) * d + (tot 6 (fun m => c (12 + m) * h (b_ (12 + m)) (k_ (12 + m)) E) + tot 40 (fun m => c (12 + (6 + m)) * h (b_ (12 + (6 + m))) (k_ (12 + (6 + m))) E)) - second_virial x T * d)
    with (tot 6 (fun m => c (12 + m) * (h (b_ (12 + m)) (k_ (12 + m)) E - E)) + tot 40 (fun m => c (18 + m) * h (b_ (18 + m)) (k_ (18 + m)) E)).
  - apply Rle_trans with (1 := Rabs_triang _ _). apply Rplus_le_compat.
    + apply tot_abs. intros m Hm. destruct (first_ok m Hm) as [B1 K1]. rewrite Rabs_mult, c_abs, B1. apply Rmult_le_compat_l; [rewrite <- c_abs; apply Rabs_pos|]. now apply H1.
    + apply tot_abs. intros m Hm. rewrite Rabs_mult, c_abs. apply Rmult_le_compat_l; [rewrite <- c_abs; apply Rabs_pos|]. apply H2; [exact HE|]. exact (b_ge1 (6 + m) ltac:(lia)).
  - change (tot 6 (fun m => C_n x (12 + m) * Rpower T (- u_ (12 + m)))) with (tot 6 (fun m => c (12 + m))).
    change (tot 40 (fun m => c (12 + (6 + m)) * h (b_ (12 + (6 + m))) (k_ (12 + (6 + m))) E)) with (tot 40 (fun m => c (18 + m) * h (b_ (18 + m)) (k_ (18 + m)) E)).
    rewrite (tot_ext 6 (fun m => c (12 + m) * (h (b_ (12 + m)) (k_ (12 + m)) E - E)) (fun m => c (12 + m) * h (b_ (12 + m)) (k_ (12 + m)) E + - E * c (12 + m))) by (intros; ring).
    rewrite tot_plus, tot_scal. rewrite (D_eq : E = _). ring.
Qed.
Lemma Z_near : Rabs (detail_Z x T d - 1 - second_virial x T * d) <= fx (tailZ D).
Proof.
  rewrite Z_eq. fold kappa. match goal with |- Rabs ?e <= _ => match goal with |- context [tot 46 ?f] => replace e with (lin x T * d + tot 46 f - second_virial x T * d) by ring end end.
  apply (sum_near hb); [intros; now apply hb_first|intros; now apply hb_le].
Qed.
Lemma Z1_near : Rabs (d * Z1 x T d - second_virial x T * d) <= fx (tailZ D).
Proof.
  unfold Z1. rewrite Rmult_plus_distr_l, <- tot_scal. fold kappa.
  rewrite (tot_ext 46 _ (fun m => c (12 + m) * hb1 (b_ (12 + m)) (k_ (12 + m)) (kappa * d))) by (intros m _; unfold c; field; lra). rewrite (Rmult_comm d).
  apply (sum_near hb1); [intros; now apply hb_first|intros; now apply hb1_le].
Qed.
Lemma top_near q : up q d -> slope_top x T d <= fx (topZ q D).
Proof.
  intros Hq. unfold slope_top, topZ. rewrite !fx_add. repeat apply Rplus_le_compat.
  - rewrite fx_1. lra.
  - change 2 with (INR 2) at 1. apply (up_mul _ _ _ _ (up_INR 2)). apply (up_mul _ _ _ _ Hq). apply (v_up x Hx T HT). split; [apply tot_ge0; intros; apply Rabs_pos|lra].
  - change 2 with (INR 2) at 1. exact (proj2 (up_mul _ _ _ _ (up_INR 2) (up_mul _ _ _ _ HD six_up'))).
  - rewrite CT_num, lsum_map. apply Rle_trans with (tot 46 (fun m => cT x T (12 + m) * INR ((b_ (12 + m) + k_ (12 + m)) * (b_ (12 + m) + k_ (12 + m) + 3) + k_ (12 + m) * k_ (12 + m)) * detail_D x d ^ b_ (12 + m))).
    + right. apply tot_ext. intros m _. rewrite plus_INR, !mult_INR, !plus_INR. unfold cT. f_equal. f_equal. cbn [INR]. ring.
    + rewrite <- (lsum_from (fun n => cT x T n * INR ((b_ n + k_ n) * (b_ n + k_ n + 3) + k_ n * k_ n) * detail_D x d ^ b_ n)). apply up_lsum. intros n Hn. apply in_seq in Hn.
      apply up_mul; [apply up_mul; [apply C_up; trivial; lia|apply up_INR]|now apply up_pow].
Qed.
End W.

Section U.
Variable x : nat -> R.
Hypothesis Hx : natural_gas x.
Variable T : R.
Hypothesis HT : 270 <= T <= 350.
Lemma D2_up d : 0 < d <= 1120 / 1000 -> up D2 (detail_D x d) /\ detail_D x d <= 1.
Proof.
  intros Hd. assert (U : up D2 (detail_D x d)) by (apply (D_lit x Hx d2); [exact Hd|exact D2_num]). split; [exact U|]. apply Rle_trans with (1 := proj2 U). unfold fx. change SC with 268435456%Z. unfold D2. lra.
Qed.
Lemma med_Z d : 0 < d <= 1120 / 1000 -> - (185 / 1000) <= detail_Z x T d - 1 <= 60 / 1000 /\ - (185 / 1000) <= d * Z1 x T d <= 60 / 1000.
Proof.
  intros Hd. destruct (D2_up d Hd) as [U U1]. pose proof (Z_near x Hx T HT d D2 U U1) as A. pose proof (Z1_near x Hx T HT d D2 (proj1 Hd) U U1) as B. pose proof (second_bounds x Hx T HT) as S.
  pose proof (leU _ _ tail2_num) as F. assert (F' : fx 12100000 <= 4508 / 100000) by (unfold fx; change SC with 268435456%Z; lra).
  set (b := second_virial x T) in *. assert (- (13944 / 100000) <= b * d <= 1344 / 100000) by (clearbody b; nra). apply Converge.Rabs_le_inv in A, B. split; lra.
Qed.
Lemma med_Z0 d : 0 < d <= 801 / 1000 -> - (128 / 1000) <= detail_Z x T d - 1.
Proof.
  intros Hd. assert (U : up D1 (detail_D x d)) by (apply (D_lit x Hx d1); [exact Hd|exact D1_num]). destruct (D2_up d ltac:(lra)) as [_ U1].
  pose proof (Z_near x Hx T HT d D1 U U1) as A. pose proof (second_bounds x Hx T HT) as S.
  pose proof (leU _ _ tail1_num) as F. assert (F' : fx 5770000 <= 2150 / 100000) by (unfold fx; change SC with 268435456%Z; lra).
  set (b := second_virial x T) in *. assert (- (9973 / 100000) <= b * d) by (clearbody b; nra). apply Converge.Rabs_le_inv in A. lra.
Qed.
Lemma med_top d : 0 < d <= 1120 / 1000 -> slope_top x T d <= 8.
Proof.
  intros Hd. destruct (D2_up d Hd) as [U _]. apply Rle_trans with (1 := top_near x Hx T HT d D2 U (litU d2) ltac:(apply lit_le; [lra|exact (proj2 Hd)])).
  apply Rle_trans with (1 := leU _ _ top2_num). unfold fx. change SC with 268435456%Z. lra.
Qed.
End U.
