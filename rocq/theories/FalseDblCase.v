(* Methane at 150 K near 21.849 mol/l: sizes of the terms of the DETAIL pressure and its slope. *)
From Coq Require Import Reals Ranalysis5 ZArith List Bool Lra Lia Psatz.
From Coquelicot Require Import Coquelicot.
From Interval Require Import Tactic.
From Verif Require Import FArith ArithR SpecDetail StdDetail SpecStd SpecAcc SpecSlope SpecConv ConvDetail ConvCase DriftCase SlopeReal SlopeCase FalseConvCase.
Import ListNotations.
Local Open Scope R_scope.

Ltac numa := norm; unfold E1, K1, Rpower; change R0 with 0; change R1 with 1; interval with (i_prec 30).
Lemma big_V : 0 <= tot 18 (fun n => Rabs (virial_n (nn ch4) 150 n)) <= 52 / 100.
Proof. split; [apply tot_ge0; intros; apply Rabs_pos|]. rewrite (tot_ext 18 _ _ (fun n _ => f_equal Rabs (vn_1 150 n))). numa. Qed.
Lemma big_C : 0 <= tot 6 (fun m => Rabs (C_n (nn ch4) (12 + m)) * Rpower 150 (- u_ (12 + m))) <= 7 / 10.
Proof. split; [apply tot_ge0; intros; apply Rmult_le_pos; [apply Rabs_pos|left; apply exp_pos]|]. rewrite (tot_ext 6 _ (fun m => Rabs (a_ (12+m) * when (g_ (12+m)) 0 * when (q_ (12+m)) 0 * when (f_ (12+m)) 0 * Rpower E1 (u_ (12+m))) * Rpower 150 (- u_ (12 + m)))) by (intros m _; now rewrite C_1). numa. Qed.
Lemma slope_lo d : 21849 / 1000 <= d <= 21850 / 1000 -> 6000 <= dp1 d.
Proof. intros Hd. unfold dp1, c1, v1. numb. Qed.

Lemma p_lo2 : -29 / 10 <= detail_p (nn ch4) 150 (21849 / 1000).
Proof. unfold detail_p. rewrite Z_1. unfold c1, v1. numb. Qed.
Lemma p_lo3 : detail_p (nn ch4) 150 (21849 / 1000) <= -1.
Proof. unfold detail_p. rewrite Z_1. unfold c1, v1. numb. Qed.
Lemma size_150 d : 21849 / 1000 <= d <= 21850 / 1000 -> 0 <= detail_size (nn ch4) 150 d <= 30.
Proof.
  intros Hd. pose proof big_V as HV. pose proof big_C as HC. unfold detail_size. rewrite D_1.
  rewrite (tot_ext 46 _ (fun m => Rabs (a_ (12+m) * when (g_ (12+m)) 0 * when (q_ (12+m)) 0 * when (f_ (12+m)) 0 * Rpower E1 (u_ (12+m))) * Rpower 150 (- u_ (12 + m))
     * (INR (b_ (12+m)) + INR (k_ (12+m)) * (K1 ^ 3 * d) ^ k_ (12+m)) * (K1 ^ 3 * d) ^ b_ (12+m) * match k_ (12+m) with O => 1 | k => exp (- (K1 ^ 3 * d) ^ k) end)) by (intros m _; cbv zeta; now rewrite C_1).
  set (V := tot 18 _) in *. set (C := tot 6 _) in *. clearbody V C.
  assert (HK : 0 <= K1 ^ 3 * d <= 216/100) by (unfold K1; split; interval).
  set (X := tot 46 _).
  assert (HX : 0 <= X <= 15).
  { split; [|unfold X; numa]. apply tot_ge0. intros i _. assert (0 <= (K1 ^ 3 * d) ^ k_ (12 + i)) by (apply pow_le; lra). assert (0 <= (K1 ^ 3 * d) ^ b_ (12 + i)) by (apply pow_le; lra).
    pose proof (pos_INR (b_ (12 + i))). pose proof (pos_INR (k_ (12 + i))). assert (0 < Rpower 150 (- u_ (12 + i))) by apply exp_pos.
    assert (0 <= INR (k_ (12 + i)) * (K1 ^ 3 * d) ^ k_ (12 + i)) by (apply Rmult_le_pos; lra).
    assert (0 <= INR (k_ (12 + i)) * INR (k_ (12 + i)) * (K1 ^ 3 * d) ^ k_ (12 + i)) by (apply Rmult_le_pos; [apply Rmult_le_pos; lra|lra]).
    repeat apply Rmult_le_pos; try apply Rabs_pos; try lra; try (destruct (k_ (12 + i)); [lra|left; apply exp_pos]). }
  clearbody X. assert (0 <= d * V <= 2185 / 100 * (52 / 100)) by (split; [apply Rmult_le_pos; lra|apply Rmult_le_compat; lra]).
  assert (0 <= K1 ^ 3 * d * C <= 216 / 100 * (7 / 10)) by (split; [apply Rmult_le_pos; lra|apply Rmult_le_compat; lra]). lra.
Qed.
Lemma slope_150 d : 21849 / 1000 <= d <= 21850 / 1000 -> 0 <= slope_size (nn ch4) 150 d <= 230.
Proof.
  intros Hd. pose proof big_V as HV. pose proof big_C as HC. unfold slope_size. rewrite D_1.
  rewrite (tot_ext 46 _ (fun m => Rabs (a_ (12+m) * when (g_ (12+m)) 0 * when (q_ (12+m)) 0 * when (f_ (12+m)) 0 * Rpower E1 (u_ (12+m))) * Rpower 150 (- u_ (12 + m))
     * ((INR (b_ (12+m)) + INR (k_ (12+m)) * (K1 ^ 3 * d) ^ k_ (12+m)) * (INR (b_ (12+m)) + INR (k_ (12+m)) * (K1 ^ 3 * d) ^ k_ (12+m) + 3) + INR (k_ (12+m)) * INR (k_ (12+m)) * (K1 ^ 3 * d) ^ k_ (12+m)) * (K1 ^ 3 * d) ^ b_ (12+m) * match k_ (12+m) with O => 1 | k => exp (- (K1 ^ 3 * d) ^ k) end)) by (intros m _; cbv zeta; now rewrite C_1).
  set (V := tot 18 _) in *. set (C := tot 6 _) in *. clearbody V C.
  assert (HK : 0 <= K1 ^ 3 * d <= 216/100) by (unfold K1; split; interval).
  set (X := tot 46 _).
  assert (HX : 0 <= X <= 190).
  { split; [|unfold X; numa]. apply tot_ge0. intros i _. assert (0 <= (K1 ^ 3 * d) ^ k_ (12 + i)) by (apply pow_le; lra). assert (0 <= (K1 ^ 3 * d) ^ b_ (12 + i)) by (apply pow_le; lra).
    pose proof (pos_INR (b_ (12 + i))). pose proof (pos_INR (k_ (12 + i))). assert (0 < Rpower 150 (- u_ (12 + i))) by apply exp_pos.
    assert (0 <= INR (k_ (12 + i)) * (K1 ^ 3 * d) ^ k_ (12 + i)) by (apply Rmult_le_pos; lra).
    assert (0 <= INR (k_ (12 + i)) * INR (k_ (12 + i)) * (K1 ^ 3 * d) ^ k_ (12 + i)) by (apply Rmult_le_pos; [apply Rmult_le_pos; lra|lra]).
    repeat apply Rmult_le_pos; try apply Rabs_pos; try lra; try (destruct (k_ (12 + i)); [lra|left; apply exp_pos]). apply Rplus_le_le_0_compat; [apply Rmult_le_pos; lra|lra]. }
  clearbody X. assert (0 <= d * V <= 2185 / 100 * (52 / 100)) by (split; [apply Rmult_le_pos; lra|apply Rmult_le_compat; lra]).
  assert (0 <= K1 ^ 3 * d * C <= 216 / 100 * (7 / 10)) by (split; [apply Rmult_le_pos; lra|apply Rmult_le_compat; lra]). lra.
Qed.
Lemma D_150 d : 21 <= d <= 22 -> detail_D (nn ch4) d <= 3.
Proof. intros Hd. rewrite D_1. unfold K1. interval. Qed.
Lemma p_at : exists d, 21849 / 1000 <= d <= 218495 / 10000 /\ detail_p (nn ch4) 150 d = 3 / 10000.
Proof.
  assert (Ct : forall d, 0 < d -> continuity_pt (detail_p (nn ch4) 150) d) by (intros d H; apply continuity_pt_filterlim, @ex_derive_continuous; eexists; exact (dp_1 d H)).
  destruct (IVT_interv (fun d => detail_p (nn ch4) 150 d - 3 / 10000) (21849 / 1000) (21850 / 1000)) as (d & H & E).
  - intros d H. apply continuity_pt_minus; [apply Ct; lra|]. apply continuity_pt_const. now intros ? ?.
  - lra.
  - pose proof p_lo. lra.
  - pose proof p_hi. lra.
  - exists d. split; [|lra]. split; [lra|]. destruct (Rle_dec d (218495 / 10000)) as [G|G]; [exact G|exfalso].
    destruct (MVT_gen (detail_p (nn ch4) 150) (21849 / 1000) d dp1) as (c & Hc & E').
    { intros z Hz. rewrite Rmin_left in Hz by lra. apply dp_1. lra. }
    { intros z Hz. rewrite Rmin_left in Hz by lra. apply Ct. lra. }
    rewrite Rmin_left, Rmax_right in Hc by lra. pose proof (slope_lo c ltac:(lra)) as S. pose proof p_lo2 as L.
    assert (6000 * (d - 21849 / 1000) <= dp1 c * (d - 21849 / 1000)) by (apply Rmult_le_compat_r; lra). lra.
Qed.
