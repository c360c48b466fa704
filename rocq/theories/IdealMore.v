(* Consequences of SpecIdeal: the reference state, agreement of the two methods, positive heat
   capacities and the speed of sound at zero density. *)
From Coq Require Import Reals ZArith List Bool Lra Lia Psatz.
From Coquelicot Require Import Coquelicot.
From Interval Require Import Tactic.
From Verif Require Import FArith Prelude Tab Composition DetailTables GergTables DetailModel GergModel Api ApiSafe
  ArithR RSum SpecReal SpecDetail SpecGerg SpecIdeal DetailPure DetailEval DetailReal DetailThermo DetailEos DetailLimit
  GergPure GergEval GergReal GergIdeal GergThermo GergEos GergLimit MassReal IdealGas IdealRef.
Import ListNotations.
Local Open Scope R_scope.
Local Existing Instance ArithR.

(* heat capacities *)
Lemma exp_lin q : exp 1 * q <= exp q.
Proof.
  pose proof (exp_pos 1). destruct (Req_dec q 1) as [->|Hq]; [lra|].
  pose proof (exp_ineq1 (q - 1) ltac:(lra)) as H1. replace q with (1 + (q - 1)) at 2 by ring. rewrite exp_plus.
  apply Rmult_le_compat_l; lra.
Qed.
Lemma e_27 : 27 / 10 <= exp 1. Proof. interval. Qed.
Lemma q_cosh q : 0 <= q -> (q / cosh q) ^ 2 <= 11 / 20.
Proof.
  intros Hq. pose proof (cosh_gt0 q) as Hc. pose proof (exp_lin q) as H. pose proof e_27. pose proof (exp_pos (- q)).
  assert (135 / 100 * q <= cosh q) as Hb. { unfold cosh. nra. }
  assert (q / cosh q <= 100 / 135) as Hd.
  { apply (Rmult_le_reg_r (cosh q)); [assumption|]. unfold Rdiv at 1. rewrite Rmult_assoc, Rinv_l, Rmult_1_r; lra. }
  assert (0 <= q / cosh q) as Hp by (apply Rmult_le_pos; [lra|apply Rlt_le, Rinv_0_lt_compat; lra]).
  nra.
Qed.
Lemma sinh_mono a b : a <= b -> sinh a <= sinh b.
Proof.
  intros H. unfold sinh. assert (exp a <= exp b) by (destruct H as [H| ->]; [left; now apply exp_increasing|lra]).
  assert (exp (- b) <= exp (- a)) by (destruct H as [H| ->]; [left; apply exp_increasing; lra|lra]). lra.
Qed.
Lemma sinh_cosh b : sinh b <= cosh b.
Proof. unfold sinh, cosh. pose proof (exp_pos (- b)). lra. Qed.
Lemma sq_ge0 a : 0 <= a ^ 2. Proof. apply pow2_ge_0. Qed.
(* a negative cosh term is outweighed by the sinh term before it *)
Lemma pair_ge0 t g h i j : 0 < t -> 0 <= g -> 0 <= i \/ (0 < h /\ h <= j /\ - i * (j * j) <= g * (h * h)) ->
  0 <= g * (h / t / sinh (h / t)) ^ 2 + i * (j / t / cosh (j / t)) ^ 2.
Proof.
  intros Ht Hg [Hi|(Hh & Hj & Hi)].
  { pose proof (sq_ge0 (h / t / sinh (h / t))). pose proof (sq_ge0 (j / t / cosh (j / t))). nra. }
  set (a := h / t). set (b := j / t).
  assert (0 < a) as Ha by (apply Rdiv_lt_0_compat; lra).
  assert (a <= b) as Hab. { unfold a, b. apply Rmult_le_compat_r; [apply Rlt_le, Rinv_0_lt_compat; lra|lra]. }
  pose proof (sinh_gt0 a Ha) as Hs. pose proof (sinh_mono a b Hab). pose proof (sinh_cosh b).
  assert (- i * (b * b) <= g * (a * a)) as K.
  { unfold a, b. apply (Rmult_le_compat_r (/ t * / t)) in Hi.
    - unfold Rdiv. replace (- i * (j * / t * (j * / t))) with (- i * (j * j) * (/ t * / t)) by ring.
      replace (g * (h * / t * (h * / t))) with (g * (h * h) * (/ t * / t)) by ring. exact Hi.
    - apply Rlt_le, Rmult_lt_0_compat; now apply Rinv_0_lt_compat. }
  destruct (Rle_dec 0 i) as [Hi0|Hi0].
  { pose proof (sq_ge0 (a / sinh a)). pose proof (sq_ge0 (b / cosh b)). nra. }
  assert (0 < / (cosh b * cosh b) <= / (sinh a * sinh a)) as [I1 I2].
  { split; [apply Rinv_0_lt_compat; nra|]. apply Rinv_le_contravar; nra. }
  replace ((a / sinh a) ^ 2) with (a * a * / (sinh a * sinh a)) by (field; lra).
  replace ((b / cosh b) ^ 2) with (b * b * / (cosh b * cosh b)) by (field; lra).
  assert (0 <= g * (a * a) * / (sinh a * sinh a) - g * (a * a) * / (cosh b * cosh b)) by (assert (0 <= g * (a * a)) by nra; nra).
  nra.
Qed.
Lemma cp0_big i t : (i < 21)%nat -> 0 < t -> 147 / 100 <= cp0 i t - 1.
Proof.
  intros Hi Ht. unfold cp0.
  assert (forall n h, 0 <= n -> 0 <= n * (h / t / sinh (h / t)) ^ 2) as S.
  { intros n h Hn. apply Rmult_le_pos; [exact Hn|apply sq_ge0]. }
  assert (forall n f, 0 <= f -> 0 <= n -> 0 <= n * (f / t / cosh (f / t)) ^ 2) as C.
  { intros n f _ Hn. apply Rmult_le_pos; [exact Hn|apply sq_ge0]. }
  assert (forall n f, 0 <= f -> n <= 0 -> 11 / 20 * n <= n * (f / t / cosh (f / t)) ^ 2) as CN.
  { intros n f Hf Hn. pose proof (q_cosh (f / t) ltac:(apply Rmult_le_pos; [lra|apply Rlt_le, Rinv_0_lt_compat; lra])). nra. }
  assert (H1 : 0 <= ig i 3 * (ig i 7 / t / sinh (ig i 7 / t)) ^ 2).
  { apply S. do 21 (destruct i as [|i]; [numbers; lra|]). lia. }
  assert (H3 : 0 <= ig i 5 * (ig i 9 / t / sinh (ig i 9 / t)) ^ 2 + ig i 6 * (ig i 10 / t / cosh (ig i 10 / t)) ^ 2).
  { apply pair_ge0; [exact Ht| |]; [do 21 (destruct i as [|i]; [numbers; lra|]); lia|].
    do 21 (destruct i as [|i]; [numbers; (left; lra) || (right; lra)|]). lia. }
  assert (H2 : 147 / 100 - (ig i 2 - 1) <= ig i 4 * (ig i 8 / t / cosh (ig i 8 / t)) ^ 2).
  { destruct (Rle_dec 0 (ig i 4)) as [Hp|Hp].
    - assert (0 <= ig i 8) as H8 by (do 21 (destruct i as [|i]; [numbers; lra|]); lia).
      pose proof (C (ig i 4) (ig i 8) H8 Hp).
      assert (147 / 100 <= ig i 2 - 1) by (do 21 (destruct i as [|i]; [numbers; lra|]); lia). lra.
    - assert (0 <= ig i 8) as H8 by (do 21 (destruct i as [|i]; [numbers; lra|]); lia).
      pose proof (CN (ig i 4) (ig i 8) H8 ltac:(lra)).
      assert (147 / 100 - (ig i 2 - 1) <= 11 / 20 * ig i 4); [|lra].
      revert Hp. clear - Hi. do 21 (destruct i as [|i]; [numbers; lra|]); lia. }
  lra.
Qed.

(* one component, at the reference state *)
Lemma only_nn i j : nn (only i) j = only i j.
Proof. unfold nn, only. destruct (Nat.eqb j i); [apply Rmax_right|apply Rmax_left]; lra. Qed.
Lemma only_sum i f : (i < 21)%nat -> sum 21 (fun j => only i j * f j) = f i.
Proof.
  intros Hi. rewrite (sum_single 21 _ i Hi).
  - unfold only. rewrite Nat.eqb_refl. ring.
  - intros j _ Hj. unfold only. apply Nat.eqb_neq in Hj. rewrite Hj. ring.
Qed.
Lemma only_one i : (i < 21)%nat -> sum 21 (only i) = 1.
Proof. intros Hi. rewrite <- (only_sum i (fun _ => 1) Hi). apply sum_ext'. intros. ring. Qed.
Lemma mix_only (rs : R) f i y : (i < 21)%nat -> (forall j, (j < 21)%nat -> y j = only i j) ->
  rs * sum 21 (fun j => y j * f j) = rs * f i.
Proof. intros Hi Hy. rewrite (sum_ext' 21 _ (fun j => only i j * f j)) by (intros; now rewrite Hy). now rewrite only_sum. Qed.
Lemma mix_s_only rg rs i y t d : (i < 21)%nat -> (forall j, (j < 21)%nat -> y j = only i j) ->
  mix_s rg rs y t d = rs * s0 i t - rg * ln (d / ref_density rg).
Proof.
  intros Hi Hy. unfold mix_s.
  rewrite (sum_ext' 21 _ (fun j => only i j * (rs * s0 j t - rg * ln (d / ref_density rg)))).
  - now rewrite only_sum.
  - intros j Hj. rewrite Hy by assumption. unfold only. destruct (Nat.eqb j i); [rewrite ln_1|]; ring.
Qed.
Lemma T0_ok : 1 / 10000000 < T0. Proof. unfold T0. lra. Qed.
Lemma small_scaled r v e e' : 0 <= r -> Rabs v <= e -> r * e <= e' -> Rabs (r * v) <= e'.
Proof. intros Hr Hv He. rewrite Rabs_mult, (Rabs_right r) by lra. pose proof (Rabs_pos v). nra. Qed.
Lemma d_reference i : (i < 21)%nat -> Rabs (dprop New PH (only i) T0 0) <= 1 / 10000 /\
  Rabs (dprop New PS (only i) T0 0 + RD * ln (1 / 1000000000000000 / ref_density RD)) <= 1 / 10000000.
Proof.
  intros Hi. rewrite d_ideal_h, d_ideal_s by exact T0_ok. split.
  - unfold mix_h. rewrite (mix_only RD (fun j => h0 j T0) i) by (assumption || intros; apply only_nn).
    rewrite (sum_ext' 21 (nn (only i)) (only i)), only_one by (assumption || intros; apply only_nn).
    replace (RD * h0 i T0 - RD * T0 * (1 - 1)) with (RD * h0 i T0) by ring.
    apply (small_scaled RD (h0 i T0) (1 / 100000)); [unfold RD; lra|now apply h_ref|unfold RD; lra].
  - rewrite (mix_s_only RD RD i) by (assumption || intros; apply only_nn).
    replace (_ + _) with (RD * s0 i T0) by ring.
    apply (small_scaled RD (s0 i T0) (1 / 100000000)); [unfold RD; lra|now apply s_ref|unfold RD; lra].
Qed.
Lemma only_ac i j : down (ac (only (S i))) j = only i j.
Proof.
  unfold down, ac, only. cbn [Nat.eqb]. destruct (Nat.eqb j i); destruct (Rlt_dec _ _); lra.
Qed.
Lemma only_present i : (i < 21)%nat -> some_present (only (S i)).
Proof. intros Hi. exists (S i). split; [lia|]. unfold only. rewrite Nat.eqb_refl. lra. Qed.
Lemma g_reference i : (i < 21)%nat -> Rabs (gprop New PH (only (S i)) T0 0) <= 1 / 10000 /\
  Rabs (gprop New PS (only (S i)) T0 0 + Rg * ln (1 / 1000000000000000 / ref_density Rg)) <= 1 / 10000000.
Proof.
  intros Hi. rewrite g_ideal_h, g_ideal_s by (exact T0_ok || now apply only_present). split.
  - unfold mix_h. rewrite (mix_only RD (fun j => h0 j T0) i) by (assumption || intros; apply only_ac).
    rewrite (sum_ext' 21 (down (ac (only (S i)))) (only i)), only_one by (assumption || intros; apply only_ac).
    replace (_ + _) with (RD * h0 i T0) by ring.
    apply (small_scaled RD (h0 i T0) (1 / 100000)); [unfold RD; lra|now apply h_ref|unfold RD; lra].
  - rewrite (mix_s_only Rg RD i) by (assumption || intros; apply only_ac).
    replace (_ + _) with (RD * s0 i T0) by ring.
    apply (small_scaled RD (s0 i T0) (1 / 100000000)); [unfold RD; lra|now apply s_ref|unfold RD; lra].
Qed.

(* the two methods agree *)
Section Agree.
Variables (x : nat -> R) (t : R).
Hypothesis Hx : forall i, (i < 21)%nat -> x i <= 0 \/ 1 / 1000000000000000 < x i.
Hypothesis Hs : exists i, (i < 21)%nat /\ 1 / 10000000 < x i.
Hypothesis Ht : 1 / 10000000 < t.
Lemma same_frac i : (i < 21)%nat -> down (ac (up x)) i = nn x i.
Proof.
  intros Hi. unfold down, ac, nn, up. destruct (Hx i Hi); destruct (Rlt_dec _ _); try lra;
  [rewrite Rmax_left|rewrite Rmax_right]; lra.
Qed.
Lemma up_present : some_present (up x).
Proof. destruct Hs as (i & Hi & H). exists (S i). split; [lia|exact H]. Qed.
Lemma same_cv : gprop New PCv (up x) t 0 = dprop New PCv x t 0.
Proof.
  rewrite g_ideal_cv, d_ideal_cv by (assumption || exact up_present). unfold mix_cv. f_equal.
  apply sum_ext'. intros i Hi. now rewrite same_frac.
Qed.
Lemma same_mix f : sum 21 (fun i => down (ac (up x)) i * f i) = sum 21 (fun i => nn x i * f i).
Proof. apply sum_ext'. intros i Hi. now rewrite same_frac. Qed.
Lemma same_total : sum 21 (down (ac (up x))) = sum 21 (nn x).
Proof. apply sum_ext'. intros i Hi. now rewrite same_frac. Qed.
Lemma same_u : gprop New PU (up x) t 0 = dprop New PU x t 0 + (RD - Rg) * T0 * sum 21 (nn x).
Proof.
  rewrite g_ideal_u, d_ideal_u by (assumption || exact up_present). unfold mix_h. rewrite same_mix, same_total. ring.
Qed.
Lemma same_h : gprop New PH (up x) t 0 = dprop New PH x t 0 + (RD - Rg) * (T0 * sum 21 (nn x) - t).
Proof.
  rewrite g_ideal_h, d_ideal_h by (assumption || exact up_present). unfold mix_h. rewrite same_mix, same_total. ring.
Qed.
End Agree.

(* heat capacity and speed of sound at zero density *)
Lemma sum_le n f g : (forall i, (i < n)%nat -> f i <= g i) -> sum n f <= sum n g.
Proof. intros H. rewrite !sum_rsum. apply rsum_le. intros i Hi. apply in_seq in Hi. apply H. lia. Qed.
Lemma mix_cv_big y t : (forall i, (i < 21)%nat -> 0 <= y i) -> 0 < t -> RD * (147 / 100) * sum 21 y <= mix_cv RD y t.
Proof.
  intros Hy Ht. unfold mix_cv. rewrite Rmult_assoc. apply Rmult_le_compat_l; [unfold RD; lra|].
  rewrite <- sum_scal. apply sum_le. intros i Hi. pose proof (cp0_big i t Hi Ht). pose proof (Hy i Hi). nra.
Qed.
Lemma nn_ge0 x i : 0 <= nn x i. Proof. apply Rmax_l. Qed.
Lemma ac_ge0 x i : 0 <= ac x i. Proof. unfold ac. destruct (Rlt_dec _ _); lra. Qed.
Lemma sum_pos n f i : (i < n)%nat -> (forall j, (j < n)%nat -> 0 <= f j) -> 0 < f i -> 0 < sum n f.
Proof.
  intros Hi Hf Hp. rewrite sum_rsum. apply (rsum_gt0 f (seq 0 n) i); [|apply in_range; lia|exact Hp].
  intros j Hj. apply in_seq in Hj. apply Hf. lia.
Qed.
Lemma d_cv_big x t : 1 / 10000000 < t -> RD * (147 / 100) * sum 21 (nn x) <= dprop New PCv x t 0.
Proof. intros Ht. rewrite d_ideal_cv by exact Ht. apply mix_cv_big; [intros; apply nn_ge0|lra]. Qed.
Lemma g_cv_big x t : some_present x -> 1 / 10000000 < t -> RD * (147 / 100) * sum 21 (down (ac x)) <= gprop New PCv x t 0.
Proof. intros Hs Ht. rewrite g_ideal_cv by assumption. apply mix_cv_big; [intros; apply ac_ge0|lra]. Qed.
Lemma mmi_pos i : (i < 21)%nat -> 2 <= tb D_MMI i /\ 2 <= tb G_MMI_GERG (S i).
Proof.
  intros Hi. unfold tb. do 21 (destruct i as [|i]; [cbv [nth D_MMI G_MMI_GERG Rlit Z.pow Z.pow_pos Pos.iter Z.mul Pos.mul Pos.add Pos.succ Pos.add_carry]; lra|]). lia.
Qed.
Section Sound.
Variables (rg t cv cp w2 w kappa mm z dpdd : R).
Hypotheses (Hr : 0 < rg) (Ht : 0 < t) (Hcv : 0 < cv) (Hm : 0 < mm).
Hypotheses (Ez : z = 1) (Ed : dpdd = rg * t) (Ep : cp = cv + rg).
Hypothesis E2 : w2 = 1000 * cp / cv * dpdd / mm.
Hypothesis Ew : w = sqrt (if Rltb w2 0 then 0 else w2).
Hypothesis Ek : kappa = w * w * mm / (rg * t * 1000 * z).
Lemma sound : 0 < w /\ w * w = kappa * rg * t * 1000 / mm /\ kappa = cp / cv /\ 1 < kappa.
Proof.
  assert (0 < w2) as H2.
  { rewrite E2, Ed, Ep. apply Rdiv_lt_0_compat; [|exact Hm]. apply Rmult_lt_0_compat; [|nra]. apply Rdiv_lt_0_compat; lra. }
  assert (w = sqrt w2) as Ew'. { rewrite Ew. replace (Rltb w2 0) with false; [reflexivity|]. symmetry. apply Rltb_false. lra. }
  assert (w * w = w2) as S by (rewrite Ew'; apply sqrt_sqrt; lra).
  assert (kappa = cp / cv) as K. { rewrite Ek, S, E2, Ed, Ez. field. lra. }
  split; [rewrite Ew'; now apply sqrt_lt_R0|]. split; [rewrite S, K, E2, Ed; field; lra|]. split; [exact K|].
  rewrite K, Ep. apply (Rmult_lt_reg_r cv); [exact Hcv|]. field_simplify; lra.
Qed.
End Sound.
Section DSound.
Variables (x : nat -> R) (t : R).
Hypothesis Hx : forall i, (i < 21)%nat -> 0 <= x i.
Hypothesis Hs : exists i, (i < 21)%nat /\ 1 / 10000000 < x i.
Hypothesis Ht : 1 / 10000000 < t.
Let Ht0 : 0 < t. Proof. lra. Qed.
Lemma d_mm_pos : 0 < dprop New PMM x t 0.
Proof.
  rewrite d_mass by exact Ht. destruct Hs as (i & Hi & H). apply (sum_pos 21 _ i Hi).
  - intros j Hj. pose proof (proj1 (mmi_pos j Hj)). pose proof (Hx j Hj). nra.
  - pose proof (proj1 (mmi_pos i Hi)). nra.
Qed.
Lemma d_total_pos : 0 < sum 21 (nn x).
Proof.
  destruct Hs as (i & Hi & H). apply (sum_pos 21 _ i Hi); [intros; apply nn_ge0|]. unfold nn. rewrite Rmax_right; lra.
Qed.
Lemma d_sound : 0 < dprop New PW x t 0 /\
  dprop New PW x t 0 * dprop New PW x t 0 = dprop New PKappa x t 0 * RD * t * 1000 / dprop New PMM x t 0 /\
  dprop New PKappa x t 0 = dprop New PCp x t 0 / dprop New PCv x t 0 /\ 1 < dprop New PKappa x t 0.
Proof.
  apply (sound RD t (dprop New PCv x t 0) (dprop New PCp x t 0)
    (1000 * dprop New PCp x t 0 / dprop New PCv x t 0 * dprop New PDpDd x t 0 / dprop New PMM x t 0) _ _ _ (dprop New PZ x t 0) (dprop New PDpDd x t 0)).
  - unfold RD; lra.
  - exact Ht0.
  - pose proof (d_cv_big x t Ht). pose proof d_total_pos. unfold RD in *. nra.
  - exact d_mm_pos.
  - now apply z_zero.
  - exact (dpdd_zero New x t Ht).
  - rewrite low_cp by (assumption || lra). reflexivity.
  - reflexivity.
  - rewrite !dprop_ok by exact Ht. reflexivity.
  - rewrite !dprop_ok by exact Ht. reflexivity.
Qed.
End DSound.
Section GSound.
Variables (x : nat -> R) (t : R).
Hypothesis Hx : forall i, (1 <= i < 22)%nat -> 0 <= x i.
Hypothesis Hs : exists i, (1 <= i < 22)%nat /\ 1 / 10000000 < x i.
Hypothesis Ht : 1 / 10000000 < t.
Let Ht0 : 0 < t. Proof. lra. Qed.
Lemma g_mm_pos : 0 < gprop New PMM x t 0.
Proof.
  rewrite g_mass by assumption. destruct Hs as (i & Hi & H). destruct i as [|i]; [lia|]. apply (sum_pos 21 _ i ltac:(lia)).
  - intros j Hj. pose proof (proj2 (mmi_pos j Hj)). pose proof (Hx (S j) ltac:(lia)). nra.
  - pose proof (proj2 (mmi_pos i ltac:(lia))). nra.
Qed.
Lemma g_total_pos : 0 < sum 21 (down (ac x)).
Proof.
  destruct Hs as (i & Hi & H). destruct i as [|i]; [lia|]. apply (sum_pos 21 _ i ltac:(lia)); [intros; apply ac_ge0|].
  unfold down, ac. destruct (Rlt_dec _ _); lra.
Qed.
Lemma g_sound : 0 < gprop New PW x t 0 /\
  gprop New PW x t 0 * gprop New PW x t 0 = gprop New PKappa x t 0 * Rg * t * 1000 / gprop New PMM x t 0 /\
  gprop New PKappa x t 0 = gprop New PCp x t 0 / gprop New PCv x t 0 /\ 1 < gprop New PKappa x t 0.
Proof.
  apply (sound Rg t (gprop New PCv x t 0) (gprop New PCp x t 0)
    (1000 * gprop New PCp x t 0 / gprop New PCv x t 0 * gprop New PDpDd x t 0 / gprop New PMM x t 0) _ _ _ (gprop New PZ x t 0) (gprop New PDpDd x t 0)).
  - unfold Rg; lra.
  - exact Ht0.
  - pose proof (g_cv_big x t Hs Ht). pose proof g_total_pos. unfold RD in *. nra.
  - exact g_mm_pos.
  - rewrite gprop_ok by assumption. change (1 + @AR GN (gxl x) 1 t 0 = 1). rewrite A1_zero by assumption. ring.
  - rewrite gprop_ok by assumption. rewrite w_dpdd. change (gpar New) with GN. cbv beta.
    rewrite A1_zero, A2_zero by assumption. replace (@RGERG ArithR) with Rg by reflexivity. ring.
  - rewrite g_low_cp by (assumption || lra). reflexivity.
  - reflexivity.
  - rewrite !gprop_ok by assumption. reflexivity.
  - rewrite !gprop_ok by assumption. change (gvals New x PKappa t 0) with (@fpowi ArithR (gvals New x PW t 0) 2 * gvals New x PMM t 0 / (Rg * t * 1000 * gvals New x PZ t 0)).
    f_equal. f_equal. exact (powi2 _).
Qed.
End GSound.
