(* The closed forms of DETAIL over the reals are the printed equation of SpecDetail.v. *)
From Coq Require Import Reals ZArith List Bool Lra Lia.
From Coquelicot Require Import Coquelicot.
From Verif Require Import FArith Prelude Tab Composition DetailTables DetailModel DetailPure
  DetailRefine DetailEval GergModel Api ApiSafe BasicProofs ArithR RSum SpecReal DetailReal DetailThermo SpecDetail.
Import ListNotations.
Local Open Scope R_scope.
Local Existing Instance ArithR.

Lemma sum_rsum n f : sum n f = rsum f (seq 0 n).
Proof.
  induction n as [|n IH]; [reflexivity|]. cbn [sum]. rewrite seq_S, rsum_app, IH, rsum_cons.
  change (rsum f []) with 0. cbn [Nat.add]. ring.
Qed.
Lemma sum_ext n f g : (forall i, (i < n)%nat -> f i = g i) -> sum n f = sum n g.
Proof.
  induction n as [|n IH]; intros H; [reflexivity|]. cbn [sum]. rewrite IH, (H n); trivial; auto.
Qed.
Lemma sum_plus n f g : sum n (fun i => f i + g i) = sum n f + sum n g.
Proof. induction n as [|n IH]; cbn [sum]; [ring|]. rewrite IH. ring. Qed.
Lemma sum_scal n c f : sum n (fun i => c * f i) = c * sum n f.
Proof. induction n as [|n IH]; cbn [sum]; [ring|]. rewrite IH. ring. Qed.
Lemma sum_ge0 n f : (forall i, (i < n)%nat -> 0 <= f i) -> 0 <= sum n f.
Proof.
  induction n as [|n IH]; intros H; [apply Rle_refl|]. cbn [sum].
  apply Rplus_le_le_0_compat; [apply IH; auto|apply H; lia].
Qed.
Lemma sum_gt0 n f k : (forall i, (i < n)%nat -> 0 <= f i) -> (k < n)%nat -> 0 < f k -> 0 < sum n f.
Proof.
  induction n as [|n IH]; intros H Hk Hf; [lia|]. cbn [sum].
  destruct (Nat.eq_dec k n) as [->|Hn].
  - assert (0 <= sum n f) by (apply sum_ge0; auto). lra.
  - assert (0 < sum n f) by (apply IH; [auto|lia|assumption]). pose proof (H n (Nat.lt_succ_diag_r n)). lra.
Qed.
Lemma pairs_ext n f g : (forall i j, (i < j < n)%nat -> f i j = g i j) -> pairs n f = pairs n g.
Proof. intros H. apply sum_ext. intros j Hj. apply sum_ext. intros i Hi. apply H. lia. Qed.
Lemma pairs_ge0 n f : (forall i j, (i < j < n)%nat -> 0 <= f i j) -> 0 <= pairs n f.
Proof. intros H. apply sum_ge0. intros j Hj. apply sum_ge0. intros i Hi. apply H. lia. Qed.
Lemma pairs_plus n f g : pairs n (fun i j => f i j + g i j) = pairs n f + pairs n g.
Proof. unfold pairs. rewrite <- sum_plus. apply sum_ext. intros. apply sum_plus. Qed.
Lemma pairs_scal n c f : pairs n (fun i j => c * f i j) = c * pairs n f.
Proof. unfold pairs. rewrite <- sum_scal. apply sum_ext. intros. apply sum_scal. Qed.
(* row by row as the code does *)
Lemma pairs_rows n f :
  rsum (fun i => rsum (fun j => f i j) (seq (S i) (n - S i))) (seq 0 n) = pairs n f.
Proof.
  induction n as [|n IH]; [reflexivity|]. unfold pairs in *. cbn [sum]. rewrite <- IH.
  rewrite seq_S, rsum_app, rsum_cons. change (rsum _ []) with 0 at 1. cbn [Nat.add].
  replace (S n - S n)%nat with 0%nat by lia. cbn [seq]. change (rsum _ []) with 0.
  rewrite (sum_rsum n (fun i => f i n)), Rplus_0_r, Rplus_0_r, <- rsum_plus.
  apply rsum_ext. intros i Hi. apply in_seq in Hi.
  replace (S n - S i)%nat with (S (n - S i)) by lia.
  rewrite seq_S, rsum_app, rsum_cons. change (rsum _ []) with 0.
  replace (S i + (n - S i))%nat with n by lia. ring.
Qed.
Lemma sum_sq n f : (sum n f) ^ 2 = sum n (fun i => f i ^ 2) + 2 * pairs n (fun i j => f i * f j).
Proof.
  induction n as [|n IH]; unfold pairs in *; cbn [sum]; [ring|].
  assert (E : sum n (fun i => f i * f n) = f n * sum n f).
  { rewrite <- sum_scal. apply sum_ext. intros. ring. }
  rewrite E. replace ((sum n f + f n) ^ 2) with ((sum n f) ^ 2 + 2 * f n * sum n f + f n ^ 2) by ring.
  rewrite IH. ring.
Qed.
Lemma sum_sym n f : (forall i j, f i j = f j i) ->
  sum n (fun i => sum n (fun j => f i j)) = sum n (fun i => f i i) + 2 * pairs n f.
Proof.
  intros H. induction n as [|n IH]; unfold pairs in *; cbn [sum]; [ring|].
  rewrite sum_plus, IH. rewrite (sum_ext n (fun j => f n j) (fun j => f j n)) by (intros; apply H). ring.
Qed.

(* the sums of the code over the positive fractions *)
Lemma nn_ge0 x i : 0 <= nn x i.
Proof. apply Rmax_l. Qed.
Lemma nn_pos x i : pos (A := ArithR) (x i) = true -> nn x i = x i /\ 0 < x i.
Proof. unfold pos, f0. rar. cbn [Rlit]. intros H. apply Rltb_true in H. split; [apply Rmax_right; lra|lra]. Qed.
Lemma nn_npos x i : pos (A := ArithR) (x i) = false -> nn x i = 0.
Proof. unfold pos, f0. rar. cbn [Rlit]. intros H. apply Rltb_false in H. apply Rmax_left. lra. Qed.
Lemma nn_id x i : 0 <= x i -> nn x i = x i.
Proof. apply Rmax_right. Qed.

Lemma accp_sum X (g h : nat -> R) (a : R) :
  (forall i, (i < 21)%nat -> 0 < X i -> nn X i = X i -> g i = h i) ->
  (forall i, nn X i = 0 -> h i = 0) ->
  @accp ArithR X g a = a + sum 21 h.
Proof.
  intros Hg H0. rewrite sum_rsum. unfold accp.
  rewrite <- (rsum_fold h). 
  assert (E : forall l (b : R), (forall i, In i l -> (i < 21)%nat) ->
     fold_left (fun a i => if pos (A := ArithR) (X i) then (a + g i)%F else a) l b
     = fold_left (fun a i => a + h i) l b).
  { induction l as [|i l IH]; intros b Hl; [reflexivity|]. cbn [fold_left].
    rewrite IH by (intros; apply Hl; now right). f_equal.
    destruct (pos _) eqn:E.
    - apply nn_pos in E. rar. rewrite Hg; trivial; try tauto. apply Hl. now left.
    - apply nn_npos in E. rar. rewrite H0 by assumption. symmetry. apply Rplus_0_r. }
  apply E. intros i Hi. apply in_seq in Hi. lia.
Qed.
Lemma accrow_sum X (g : nat -> R) i (a : R) : (i < 21)%nat -> nn X i = X i ->
  @accrow ArithR X g i a = a + rsum (fun j => 2 * nn X i * nn X j * g j) (seq (S i) (21 - S i)).
Proof.
  intros Hi Hx. unfold accrow. rewrite <- (rsum_fold (fun j => 2 * nn X i * nn X j * g j)).
  generalize (seq (S i) (21 - S i)) as l. intros l. revert a.
  induction l as [|j l IH]; intros a; [reflexivity|]. cbn [fold_left]. rewrite IH. f_equal.
  destruct (pos _) eqn:E.
  - apply nn_pos in E. destruct E as [-> _]. rewrite Hx. unfold f2. rar. reflexivity.
  - apply nn_npos in E. rar. rewrite E. ring.
Qed.
Lemma accpp_pairs X (g : nat -> nat -> R) (a : R) :
  @accpp ArithR X g a = a + 2 * pairs 21 (fun i j => nn X i * nn X j * g i j).
Proof.
  rewrite <- pairs_scal, <- pairs_rows, <- rsum_fold. unfold accpp.
  assert (E : forall l (b : R), (forall i, In i l -> (i < 21)%nat) ->
     fold_left (fun a i => if pos (A := ArithR) (X i) then accrow X (g i) i a else a) l b
     = fold_left (fun a i => a + rsum (fun j => 2 * (nn X i * nn X j * g i j)) (seq (S i) (21 - S i))) l b).
  { induction l as [|i l IH]; intros b Hl; [reflexivity|]. cbn [fold_left].
    rewrite IH by (intros; apply Hl; now right). f_equal.
    destruct (pos _) eqn:E.
    - apply nn_pos in E. rewrite accrow_sum; [|apply Hl; now left|tauto].
      f_equal. apply rsum_ext. intros. ring.
    - apply nn_npos in E. rar. rewrite (rsum_ext _ (fun _ => 0)); [rewrite rsum_0; ring|].
      intros. rewrite E. ring. }
  apply E. intros i Hi. apply in_seq in Hi. lia.
Qed.

(* positivity of table entries *)
Definition lpos (l : lit) : bool := let '(L m _) := l in (0 <? m)%Z.
Definition lnneg (l : lit) : bool := let '(L m _) := l in (0 <=? m)%Z.
Lemma lpos_ok l : lpos l = true -> 0 < Rlit l.
Proof. destruct l as [m e]. cbn [lpos]. intros H. apply Rlit_pos. now apply Z.ltb_lt. Qed.
Lemma lnneg_ok l : lnneg l = true -> 0 <= Rlit l.
Proof.
  destruct l as [m e]. cbn [lnneg]. intros H. apply Z.leb_le in H.
  destruct (Z.eq_dec m 0) as [->|Hm].
  - unfold Rlit. destruct e; [apply Rle_refl|rewrite Z.mul_0_l; apply Rle_refl|unfold Rdiv; rewrite Rmult_0_l; apply Rle_refl].
  - apply Rlt_le, Rlit_pos. lia.
Qed.
Lemma tb_pos l n i : (i < n)%nat -> forallb (fun i => lpos (nth i l (L 0 0))) (seq 0 n) = true ->
  0 < tb l i.
Proof. intros Hi H. rewrite forallb_forall in H. apply lpos_ok, H, in_seq. lia. Qed.
Lemma KI_pos i : (i < 21)%nat -> 0 < tb D_KI i.
Proof. intros Hi. now apply (tb_pos D_KI 21). Qed.
Lemma EI_pos i : (i < 21)%nat -> 0 < tb D_EI i.
Proof. intros Hi. now apply (tb_pos D_EI 21). Qed.
Lemma bip_nneg l i j : (i < 21)%nat -> (j < 21)%nat ->
  forallb (fun r => forallb lnneg r) l = true -> 0 <= bip l i j.
Proof.
  intros Hi Hj H. unfold bip. apply lnneg_ok.
  destruct (nth_in_or_default (Nat.min i j) l []) as [I|E].
  - rewrite forallb_forall in H. specialize (H _ I).
    destruct (nth_in_or_default (Nat.max i j) (nth (Nat.min i j) l []) (L 0 0)) as [I'|E'].
    + rewrite forallb_forall in H. now apply H.
    + rewrite E'. reflexivity.
  - rewrite E. now destruct (Nat.max i j).
Qed.
Lemma bip_up l i j : (i < j)%nat -> bip l i j = @lv2 ArithR l i j.
Proof.
  intros H. unfold bip, lv2. rewrite Nat.max_r, Nat.min_l by lia. reflexivity.
Qed.
Lemma bip_diag l i : bip l i i = @lv2 ArithR l i i.
Proof. unfold bip, lv2. rewrite Nat.max_id, Nat.min_id. reflexivity. Qed.
Lemma bip_sym l i j : bip l i j = bip l j i.
Proof. unfold bip. now rewrite Nat.max_comm, Nat.min_comm. Qed.
Lemma tb_lv l i : @lv ArithR l i = tb l i.
Proof. reflexivity. Qed.

Lemma Rpower_gt0 a b : 0 < Rpower a b.
Proof. apply exp_pos. Qed.

(* K^5 and U^5 in a form that shows they are positive *)
Lemma K5_form x : K5 x = sum 21 (fun i => (x i * Rpower (tb D_KI i) (5/2)) ^ 2)
  + 2 * pairs 21 (fun i j => x i * x j * bip D_KIJ i j ^ 5 * Rpower (tb D_KI i * tb D_KI j) (5/2)).
Proof.
  unfold K5. rewrite sum_sq, Rplus_assoc, <- Rmult_plus_distr_l, <- pairs_plus.
  do 2 f_equal. apply pairs_ext. intros i j Hij.
  rewrite <- Rpower_mult_distr by (apply KI_pos; lia). ring.
Qed.
Lemma U5_form x : U5 x = sum 21 (fun i => (x i * Rpower (tb D_EI i) (5/2)) ^ 2)
  + 2 * pairs 21 (fun i j => x i * x j * bip D_UIJ i j ^ 5 * Rpower (tb D_EI i * tb D_EI j) (5/2)).
Proof.
  unfold U5. rewrite sum_sq, Rplus_assoc, <- Rmult_plus_distr_l, <- pairs_plus.
  do 2 f_equal. apply pairs_ext. intros i j Hij.
  rewrite <- Rpower_mult_distr by (apply EI_pos; lia). ring.
Qed.
Section Pos.
Variable x : nat -> R.
Hypothesis Hx : forall i, (i < 21)%nat -> 0 <= x i.
Hypothesis Hs : exists i, (i < 21)%nat /\ 0 < x i.
Lemma form_pos (c : nat -> R) (b : nat -> nat -> R) (e : nat -> nat -> R) :
  (forall i, (i < 21)%nat -> 0 < c i) -> (forall i j, (i < 21)%nat -> (j < 21)%nat -> 0 <= b i j) ->
  (forall i j, 0 < e i j) ->
  0 < sum 21 (fun i => (x i * c i) ^ 2) + 2 * pairs 21 (fun i j => x i * x j * b i j ^ 5 * e i j).
Proof.
  intros Hc Hb He. destruct Hs as (i & Hi & Hp).
  assert (0 < sum 21 (fun i => (x i * c i) ^ 2)).
  { apply (sum_gt0 _ _ i); [intros; apply pow2_ge_0|exact Hi|].
    apply pow_lt, Rmult_lt_0_compat; auto. }
  assert (0 <= pairs 21 (fun i j => x i * x j * b i j ^ 5 * e i j)); [|lra].
  apply pairs_ge0. intros a c' Hac. apply Rmult_le_pos; [|apply Rlt_le, He].
  apply Rmult_le_pos; [apply Rmult_le_pos; apply Hx; lia|]. apply pow_le, Hb; lia.
Qed.
Lemma K5_pos : 0 < K5 x.
Proof.
  rewrite K5_form. apply form_pos.
  - intros. apply Rpower_gt0.
  - intros. now apply bip_nneg.
  - intros. apply Rpower_gt0.
Qed.
Lemma U5_pos : 0 < U5 x.
Proof.
  rewrite U5_form. apply form_pos.
  - intros. apply Rpower_gt0.
  - intros. now apply bip_nneg.
  - intros. apply Rpower_gt0.
Qed.
End Pos.

(* flags *)
Lemma flags01 l n : forallb (fun v => (v <=? 1)%nat) l = true -> nth n l 0%nat = 0%nat \/ nth n l 0%nat = 1%nat.
Proof.
  intros H. destruct (nth_in_or_default n l 0%nat) as [I|E]; [|now left].
  rewrite forallb_forall in H. specialize (H _ I). apply Nat.leb_le in H. lia.
Qed.
Lemma opt_fl v l n : forallb (fun v => (v <=? 1)%nat) l = true ->
  opt v l n = if fl l n then v else 1.
Proof.
  intros H. unfold opt, flag, fl. destruct (flags01 l n H) as [-> | ->]; cbn; ring.
Qed.

Lemma powf_pos a b : 0 < a -> @fpowf ArithR a b = Rpower a b.
Proof. apply Rpowf_pos. Qed.
Lemma powi_pow (a : R) n : @fpowi ArithR a (Z.of_nat n) = a ^ n.
Proof. symmetry. apply pow_powerRZ. Qed.
Lemma lit25 : @flit ArithR (L 25 (-1)) = 5 / 2.
Proof. cbn. lra. Qed.
Lemma lit15' : @flit ArithR (L 15 (-1)) = 3 / 2.
Proof. cbn. lra. Qed.
Lemma lit6 : @flit ArithR (L 6 (-1)) = 3 / 5.
Proof. cbn. lra. Qed.
Lemma lit2 : @flit ArithR (L 2 (-1)) = 1 / 5.
Proof. cbn. lra. Qed.

Ltac tbs := change (@lv ArithR) with tb.
Section Mix.
Variable X : nat -> R.
Local Notation x := (nn X).
Let P : @DParams ArithR := dp_new.
Local Existing Instance P.

Lemma accK : accpp (A := ArithR) X (@q_kij5 ArithR P)
  (fpowi (accp (A := ArithR) X (fun i => fmul (X i : @F ArithR) (q_ki25 i)) f0) 2) = K5 x.
Proof.
  rewrite accpp_pairs, (accp_sum X _ (fun i => x i * Rpower (tb D_KI i) (5/2))).
  - unfold K5, f0. rar. cbn [Rlit]. rewrite Rplus_0_l. rewrite (powi_pow _ 2). do 2 f_equal.
    apply pairs_ext. intros i j Hij. unfold q_kij5, P, dp_new, Dkij5, Dki25. rewrite bip_up by lia.
    rewrite (powi_pow _ 5), lit25. tbs. rewrite !powf_pos by (apply KI_pos; lia). unfold f1; rar. cbn [Rlit].
    rewrite <- Rpower_mult_distr by (apply KI_pos; lia). ring.
  - intros i Hi _ ->. unfold q_ki25, P, dp_new, Dki25. rewrite lit25. tbs. rewrite powf_pos by (now apply KI_pos).
    reflexivity.
  - intros i ->. apply Rmult_0_l.
Qed.
Lemma accU : accpp (A := ArithR) X (@q_uij5 ArithR P)
  (fpowi (accp (A := ArithR) X (fun i => fmul (X i : @F ArithR) (q_ei25 i)) f0) 2) = U5 x.
Proof.
  rewrite accpp_pairs, (accp_sum X _ (fun i => x i * Rpower (tb D_EI i) (5/2))).
  - unfold U5, f0. rar. cbn [Rlit]. rewrite Rplus_0_l. rewrite (powi_pow _ 2). do 2 f_equal.
    apply pairs_ext. intros i j Hij. unfold q_uij5, P, dp_new, Duij5, Dei25. rewrite bip_up by lia.
    rewrite (powi_pow _ 5), lit25. tbs. rewrite !powf_pos by (apply EI_pos; lia). unfold f1; rar. cbn [Rlit].
    rewrite <- Rpower_mult_distr by (apply EI_pos; lia). ring.
  - intros i Hi _ ->. unfold q_ei25, P, dp_new, Dei25. rewrite lit25. tbs. rewrite powf_pos by (now apply EI_pos).
    reflexivity.
  - intros i ->. apply Rmult_0_l.
Qed.
Hypothesis Hs : exists i, (i < 21)%nat /\ 0 < X i.
Lemma Hsn : exists i, (i < 21)%nat /\ 0 < x i.
Proof. destruct Hs as (i & Hi & H). exists i. split; [exact Hi|]. unfold nn. rewrite Rmax_right; lra. Qed.
Lemma K5n : 0 < K5 x.
Proof. apply K5_pos; [intros; apply nn_ge0|exact Hsn]. Qed.
Lemma U5n : 0 < U5 x.
Proof. apply U5_pos; [intros; apply nn_ge0|exact Hsn]. Qed.
Lemma pK3_ok : @pK3 ArithR P X = sizeK x ^ 3.
Proof.
  unfold pK3. rewrite accK, lit6, powf_pos by exact K5n.
  unfold sizeK. rewrite <- Rpower_pow by apply Rpower_gt0. rewrite Rpower_mult. f_equal. cbn. field.
Qed.
Lemma pU_ok : @pU ArithR P X = energyU x.
Proof. unfold pU. rewrite accU, lit2, powf_pos by exact U5n. reflexivity. Qed.
Lemma pG_ok : @pG ArithR P X = orientG x.
Proof.
  unfold pG. rewrite accpp_pairs, (accp_sum X _ (fun i => x i * tb D_GI i)).
  - unfold orientG, f0. rar. cbn [Rlit]. rewrite Rplus_0_l. f_equal. rewrite <- pairs_scal.
    apply pairs_ext. intros i j Hij. unfold q_gij5, P, dp_new, Dgij5. rewrite bip_up by lia.
    tbs. unfold f1, f2; rar. cbn [Rlit]. field.
  - intros i Hi _ ->. reflexivity.
  - intros i ->. apply Rmult_0_l.
Qed.
Lemma pQ_ok : @pQ ArithR X = quadQ x.
Proof.
  unfold pQ. rewrite (accp_sum X _ (fun i => x i * tb D_QI i)).
  - unfold f0. rar. cbn [Rlit]. rewrite Rplus_0_l. reflexivity.
  - intros i Hi _ ->. reflexivity.
  - intros i ->. apply Rmult_0_l.
Qed.
Lemma pF_ok : @pF ArithR X = highF x.
Proof.
  unfold pF. rewrite (accp_sum X _ (fun i => x i ^ 2 * tb D_FI i)).
  - unfold f0. rar. cbn [Rlit]. rewrite Rplus_0_l. reflexivity.
  - intros i Hi _ ->. rewrite (powi_pow _ 2). reflexivity.
  - intros i ->. ring.
Qed.
Lemma pCsn_ok n : (12 <= n)%nat -> @pCsn ArithR P X n = Cstar x n.
Proof.
  intros Hn. unfold pCsn. rewrite (proj2 (Nat.leb_le 12 n) Hn), pU_ok, pG_ok, pQ_ok, pF_ok.
  unfold csn_of, Cstar. rewrite !opt_fl by reflexivity. rewrite (powi_pow _ 2).
  rewrite powf_pos by apply Rpower_gt0. tbs. rar.
  destruct (fl D_GN n), (fl D_QN n), (fl D_FN n); ring.
Qed.

Lemma EIJ_pos i j : (i <= j < 21)%nat -> 0 < bip D_EIJ i j.
Proof.
  intros H.
  assert (E : forallb (fun i => forallb (fun j => lpos (nth j (nth i D_EIJ []) (L 0 0)))
    (seq i (21 - i))) (seq 0 21) = true) by (vm_compute; reflexivity).
  rewrite forallb_forall in E. specialize (E i). rewrite forallb_forall in E.
  unfold bip. rewrite Nat.max_r, Nat.min_l by lia. apply lpos_ok, E; apply in_seq; lia.
Qed.
Lemma FI01 i : tb D_FI i = 0 \/ tb D_FI i = 1.
Proof.
  unfold tb. destruct (nth_in_or_default i D_FI (L 0 0)) as [I| ->]; [|now left].
  cbn [D_FI In] in I. repeat (destruct I as [<-|I]; [now (left + right)|]). contradiction.
Qed.
Lemma FI_sqrt i : sqrt (tb D_FI i) = tb D_FI i.
Proof. destruct (FI01 i) as [-> | ->]; [apply sqrt_0|apply sqrt_1]. Qed.

Definition bsym n i j := tb D_AN n * (Bstar n i j * Rpower (Eij i j) (tb D_UN n)
  * Rpower (tb D_KI i * tb D_KI j) (3/2)).
Lemma bsym_sym n i j : bsym n i j = bsym n j i.
Proof.
  unfold bsym, Bstar, Eij. rewrite (bip_sym D_GIJ i j), (bip_sym D_EIJ i j).
  rewrite (Rmult_comm (tb D_EI i)), (Rmult_comm (tb D_KI i)), (Rmult_comm (tb D_QI i)),
    (Rmult_comm (sqrt (tb D_FI i))), (Rmult_comm (tb D_SI i)), (Rmult_comm (tb D_WI i)),
    (Rplus_comm (tb D_GI i)). reflexivity.
Qed.
Lemma bsn_ok n i j : (i <= j < 21)%nat -> @Dbsn2 ArithR i j n = bsym n i j.
Proof.
  intros H. unfold Dbsn2, bsym, Eij, Dbsnij, Bstar. rewrite !opt_fl by reflexivity.
  assert (E : forall l, @lv2 ArithR l i j = bip l i j).
  { intros l. destruct (Nat.eq_dec i j) as [->|]; [now rewrite bip_diag|rewrite bip_up; [reflexivity|lia]]. }
  rewrite !E, lit15'. tbs. rar.
  assert (0 < tb D_EI i * tb D_EI j) by (apply Rmult_lt_0_compat; apply EI_pos; lia).
  assert (0 < bip D_EIJ i j * sqrt (tb D_EI i * tb D_EI j)).
  { apply Rmult_lt_0_compat; [now apply EIJ_pos|now apply sqrt_lt_R0]. }
  assert (0 < tb D_KI i * tb D_KI j) by (apply Rmult_lt_0_compat; apply KI_pos; lia).
  rewrite !Rpowf_pos by assumption. rewrite !FI_sqrt. unfold f1, f2; rar. cbn [Rlit].
  destruct (fl D_GN n), (fl D_QN n), (fl D_FN n), (fl D_SN n), (fl D_WN n); field.
Qed.
Lemma pBs_ok n : @pBs ArithR P X n
  = tb D_AN n * sum 21 (fun i => sum 21 (fun j => x i * x j * Bstar n i j
      * Rpower (Eij i j) (tb D_UN n) * Rpower (tb D_KI i * tb D_KI j) (3/2))).
Proof.
  rewrite <- sum_scal.
  rewrite (sum_ext 21 _ (fun i => sum 21 (fun j => x i * x j * bsym n i j))).
  - rewrite sum_sym by (intros i j; rewrite bsym_sym; ring).
    unfold pBs. rewrite accpp_pairs, (accp_sum X _ (fun i => x i * x i * bsym n i i)).
    + unfold f0. rar. cbn [Rlit]. rewrite Rplus_0_l. do 2 f_equal. apply pairs_ext. intros i j Hij.
      unfold q_bsn2, P, dp_new. rewrite bsn_ok by lia. reflexivity.
    + intros i Hi _ ->. unfold q_bsn2, P, dp_new. rewrite (powi_pow _ 2), bsn_ok by lia. rar. ring.
    + intros i ->. ring.
  - intros i Hi. rewrite <- sum_scal. apply sum_ext. intros j Hj. unfold bsym. ring.
Qed.
End Mix.

(* the equation reads fractions 0..20 only *)
Section Ext.
Variables x y : nat -> R.
Hypothesis E : forall i, (i < 21)%nat -> x i = y i.
Lemma K5_ext : K5 x = K5 y.
Proof.
  unfold K5. f_equal; [f_equal|f_equal].
  - apply sum_ext. intros. now rewrite E.
  - apply pairs_ext. intros. now rewrite !E by lia.
Qed.
Lemma U5_ext : U5 x = U5 y.
Proof.
  unfold U5. f_equal; [f_equal|f_equal].
  - apply sum_ext. intros. now rewrite E.
  - apply pairs_ext. intros. now rewrite !E by lia.
Qed.
Lemma orientG_ext : orientG x = orientG y.
Proof.
  unfold orientG. f_equal.
  - apply sum_ext. intros. now rewrite E.
  - apply pairs_ext. intros. now rewrite !E by lia.
Qed.
Lemma quadQ_ext : quadQ x = quadQ y.
Proof. apply sum_ext. intros. now rewrite E. Qed.
Lemma highF_ext : highF x = highF y.
Proof. apply sum_ext. intros. now rewrite E. Qed.
Lemma virialB_ext T : virialB x T = virialB y T.
Proof.
  apply sum_ext. intros n _. f_equal. apply sum_ext. intros i Hi. apply sum_ext. intros j Hj.
  now rewrite !E by lia.
Qed.
Lemma Cstar_ext n : Cstar x n = Cstar y n.
Proof. unfold Cstar, energyU. now rewrite orientG_ext, quadQ_ext, highF_ext, U5_ext. Qed.
Lemma Zfactor_ext T d : Zfactor x T d = Zfactor y T d.
Proof.
  unfold Zfactor, sizeK. cbv zeta. rewrite virialB_ext, K5_ext. f_equal; [f_equal; f_equal|];
  apply sum_ext; intros; now rewrite Cstar_ext.
Qed.
Lemma eos_ext T d : eos x T d = eos y T d.
Proof. unfold eos. now rewrite Zfactor_ext. Qed.
End Ext.

Lemma sum_split a b f : sum (a + b) f = sum a f + sum b (fun m => f (a + m)%nat).
Proof.
  induction b as [|b IH].
  - rewrite Nat.add_0_r. cbn [sum]. ring.
  - rewrite Nat.add_succ_r. cbn [sum]. rewrite IH. ring.
Qed.
Lemma fpw_pow (D : R) n : @fpw ArithR D n = D ^ n.
Proof. induction n as [|n IH]; [reflexivity|]. cbn [fpw pow]. rewrite IH. reflexivity. Qed.
Lemma pexpn_expc (D : R) n : @pexpn ArithR D (kn n) = expc D n.
Proof.
  unfold expc, kn. destruct (nth n D_KN 0%nat) as [|m]; [reflexivity|]. unfold pexpn. rewrite fpw_pow. reflexivity.
Qed.

Section Z.
Variables (X : nat -> R) (t d : R).
Hypothesis Hs : exists i, (i < 21)%nat /\ 0 < X i.
Hypothesis Ht : 0 < t.
Let P : @DParams ArithR := dp_new.
Local Notation x := (nn X).
Local Notation kx := (@mkCache ArithR (@pK3 ArithR P X) (@pBs ArithR P X) (@pCsn ArithR P X) (@cTun ArithR (Some t))).
Local Notation D := (sizeK x ^ 3 * d).
Local Notation tu n := (Rpower t (- tb D_UN n)).
Lemma tun_ok n : @cTun ArithR (Some t) n = tu n.
Proof. cbn [cTun]. rar. rewrite Rpowf_pos by assumption. reflexivity. Qed.
Lemma ts1_ok n : @ts1 ArithR kx D d n
  = (if Nat.leb 12 n then Cstar x n * tu n * (INR (bn n) - INR (kn n) * D ^ kn n) * D ^ bn n * expc D n else 0)
  + (if Nat.leb n 17 then @pBs ArithR P X n * d * tu n else 0)
  - (if (Nat.leb n 17 && Nat.leb 12 n)%bool then D * (Cstar x n * tu n) else 0).
Proof.
  unfold ts1, tsum0, tsumb, cd1, bkd. cbn [ca_csn ca_bs ca_tun]. rewrite tun_ok, pexpn_expc, (fpw_pow _ (bn n)), (fpw_pow _ (kn n)).
  destruct (Nat.leb 12 n) eqn:E12.
  - apply Nat.leb_le in E12. rewrite pCsn_ok by assumption.
    generalize (Cstar x n) (tu n) (expc D n) (D ^ bn n) (D ^ kn n) D (@pBs ArithR P X n).
    intros c u e v1 v2 v3 b.
    destruct (Nat.leb n 17); cbn [andb]; unfold f0; rar; cbn [Rlit]; ring.
  - generalize (tu n) D (@pBs ArithR P X n). intros u v b.
    destruct (Nat.leb n 17); cbn [andb]; unfold f0; rar; cbn [Rlit]; ring.
Qed.
Lemma ar01_Z : 1 + sum 58 (fun n => @ts1 ArithR kx D d n) = Zfactor x t d.
Proof.
  rewrite (sum_ext 58 (fun n => @ts1 ArithR kx D d n) _ (fun n _ => ts1_ok n)).
  change (sum 58) with (sum (12 + (6 + 40))). rewrite !sum_split. unfold Zfactor. cbv zeta.
  change (sum 46) with (sum (6 + 40)). rewrite sum_split. unfold virialB.
  change (sum 18) with (sum (12 + 6)). rewrite sum_split.
  rewrite (sum_ext 12 (fun n => _ + _ - _) (fun n => d * (tb D_AN n * tu n *
     sum 21 (fun i => sum 21 (fun j => x i * x j * Bstar n i j * Rpower (Eij i j) (tb D_UN n) * Rpower (tb D_KI i * tb D_KI j) (3 / 2)))))).
  2: { intros n Hn. rewrite (proj2 (Nat.leb_gt 12 n)), (proj2 (Nat.leb_le n 17)) by lia.
       cbn [andb]. rewrite pBs_ok by assumption. ring. }
  rewrite sum_scal.
  rewrite (sum_ext 40 (fun m => _ + _ - _) (fun m => let n := (12 + (6 + m))%nat in Cstar x n * tu n * (INR (bn n) - INR (kn n) * D ^ kn n) * D ^ bn n * expc D n)).
  2: { intros n Hn. rewrite (proj2 (Nat.leb_le 12 _)), (proj2 (Nat.leb_gt _ 17)) by lia.
       cbn [andb]. ring. }
  rewrite (sum_ext 6 (fun m => _ + _ - _) (fun m => let n := (12 + m)%nat in
     Cstar x n * tu n * (INR (bn n) - INR (kn n) * D ^ kn n) * D ^ bn n * expc D n
     + (d * (tb D_AN n * tu n * sum 21 (fun i => sum 21 (fun j => x i * x j * Bstar n i j * Rpower (Eij i j) (tb D_UN n) * Rpower (tb D_KI i * tb D_KI j) (3 / 2))))
     + - D * (Cstar x n * tu n)))).
  2: { intros n Hn. rewrite (proj2 (Nat.leb_le 12 _)), (proj2 (Nat.leb_le _ 17)) by lia.
       cbn [andb]. rewrite pBs_ok by assumption. ring. }
  cbv zeta. rewrite !sum_plus, !sum_scal. unfold bn, kn. ring.
Qed.
Lemma pz_Z : @pz ArithR kx t d = Zfactor x t d.
Proof.
  rewrite <- ar01_Z. unfold pz, ar01. rewrite facc_rsum, <- sum_rsum.
  assert (E : @dr ArithR kx d = D) by (unfold dr; cbn [ca_k3]; now rewrite pK3_ok).
  rewrite E. pose proof RD_pos as H.
  change (1 + sum 58 (fun n => @RDETAIL ArithR * t * @ts1 ArithR kx D d n) / @RDETAIL ArithR / t
    = 1 + sum 58 (fun n => @ts1 ArithR kx D d n)).
  rewrite (sum_scal 58 (@RDETAIL ArithR * t) (fun n => @ts1 ArithR kx D d n)).
  revert H. generalize (sum 58 (fun n => @ts1 ArithR kx D d n)) (@RDETAIL ArithR). intros v r H.
  field. split; lra.
Qed.
Lemma pp_eos : @pp ArithR kx t d = eos x t d.
Proof. unfold pp, eos. rewrite pz_Z. reflexivity. Qed.
End Z.

Section Final.
Variables (x : nat -> R).
Hypothesis Hs : exists i, (i < 21)%nat /\ 1 / 10000000 < x i.
Lemma dcx_some : dcx x = Some (xl x).
Proof.
  unfold dcx, new_cx. replace (x_diff _ _) with true; [reflexivity|]. symmetry.
  destruct Hs as (i & Hi & H). unfold x_diff. apply existsb_exists. exists i.
  split; [apply in_seq; lia|]. unfold differs. rewrite lit7.
  fold (dX x). change (@xf ArithR (xl x) i) with (dX x i). rewrite dX_i by assumption.
  unfold xf. rewrite nth_repeat. unfold f0. rar. cbn [Rlit]. apply Rltb_true.
  rewrite Rminus_0_r, Rabs_right; lra.
Qed.
Lemma dX_pos : exists i, (i < 21)%nat /\ 0 < dX x i.
Proof. destruct Hs as (i & Hi & H). exists i. rewrite dX_i by assumption. split; [assumption|lra]. Qed.
Lemma nn_dX i : (i < 21)%nat -> nn (dX x) i = nn x i.
Proof. intros Hi. unfold nn. now rewrite dX_i. Qed.
Lemma dk_eq t : dk New x t = @mkCache ArithR (@pK3 ArithR dp_new (dX x)) (@pBs ArithR dp_new (dX x))
  (@pCsn ArithR dp_new (dX x)) (@cTun ArithR (Some t)).
Proof. unfold dk, kc, dK, dB, dC. rewrite dcx_some. reflexivity. Qed.
Lemma dpres_eos t d : 1 / 10000000 < t -> dpres New x t d = eos (nn x) t d.
Proof.
  intros Ht. rewrite dpres_ok by assumption. rewrite dk_eq, pp_eos by (exact dX_pos || lra).
  apply eos_ext. exact nn_dX.
Qed.
Lemma dprop_z_eos t d : 1 / 10000000 < t -> dprop New PZ x t d = Zfactor (nn x) t d.
Proof.
  intros Ht. rewrite dprop_ok by assumption. cbn [dvals]. rewrite dk_eq.
  transitivity (Zfactor (nn (dX x)) t d); [|apply Zfactor_ext; exact nn_dX].
  rewrite <- pz_Z by (exact dX_pos || lra). unfold qz, pz, qrt. rar. pose proof RD_pos. rar.
  f_equal. field. lra.
Qed.
End Final.
Lemma dpres_eos_nonneg x t d : (forall i, (i < 21)%nat -> 0 <= x i) ->
  (exists i, (i < 21)%nat /\ 1 / 10000000 < x i) -> 1 / 10000000 < t -> dpres New x t d = eos x t d.
Proof.
  intros H Hs Ht. rewrite dpres_eos by assumption. apply eos_ext. intros i Hi. apply nn_id. auto.
Qed.
