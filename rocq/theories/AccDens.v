(* One accepted Newton step of density() in double precision. *)
From Coq Require Import Reals ZArith List Bool Lra Lia Psatz.
From Coquelicot Require Import Coquelicot.
From Flocq Require Import Core BinarySingleNaN.
From Interval Require Import Tactic.
From Verif Require Import FArith ArithB64 B64Lemmas ArithR SpecAcc B64Err AccMix.
Local Open Scope R_scope.

(* division by a negative number *)
Lemma div_opp v1 v2 : fin v1 -> bR v2 <> 0 -> fin (bdiv v1 (Bopp v2)) -> bR (bdiv v1 v2) = - bR (bdiv v1 (Bopp v2)) /\ fin (bdiv v1 v2).
Proof.
  intros F1 H2 F. assert (E : bR (Bopp v2) = - bR v2) by apply B2R_Bopp.
  assert (H2' : bR (Bopp v2) <> 0) by (rewrite E; lra).
  pose proof (Bdiv_correct 53 1024 _ _ mode_NE v1 (Bopp v2) H2') as C.
  assert (Ho : Rabs (rnd (bR v1 / bR (Bopp v2))) < bpow radix2 1024).
  { match type of C with context [Rlt_bool ?a ?b] => change a with (Rabs (rnd (bR v1 / bR (Bopp v2)))) in C; change b with (bpow radix2 1024) in C; destruct (Rlt_bool_spec (Rabs (rnd (bR v1 / bR (Bopp v2)))) (bpow radix2 1024)) as [L|L] end; [exact L|].
    exfalso. unfold fin in F. change (Bdiv mode_NE v1 (Bopp v2)) with (bdiv v1 (Bopp v2)) in C. destruct (bdiv v1 (Bopp v2)); cbn in C, F; try discriminate F; destruct (xorb _ _) in C; discriminate C. }
  destruct (div_ok v1 (Bopp v2) F1 H2' Ho) as [E1 _].
  assert (S : rnd (bR v1 / bR v2) = - rnd (bR v1 / bR (Bopp v2))).
  { rewrite E. replace (bR v1 / - bR v2) with (- (bR v1 / bR v2)) by (field; exact H2). unfold rnd. rewrite round_NE_opp. ring. }
  assert (Ho' : Rabs (rnd (bR v1 / bR v2)) < bpow radix2 1024) by (rewrite S, Rabs_Ropp; exact Ho).
  destruct (div_ok v1 v2 F1 H2 Ho') as [E2 F2]. split; [|exact F2]. now rewrite E2, E1.
Qed.
Lemma ap_big a b v M : fin v -> Rabs (bR v) <= M -> rng a b M -> ap 0 a b v (bR v) M.
Proof.
  intros F H R. split; [exact F|]. split; [|split; [exact H|exact R]]. rewrite Rminus_eq_0, Rabs_R0. pose proof u_pos. pose proof (rng_ge0 _ _ _ R). lra.
Qed.
Lemma p2_pos a : 0 < p2 a. Proof. apply bpow_gt_0. Qed.

Section Core.
Variable m : Libm.
Hypothesis A : accurate m.
Lemma ap_ln v : fin v -> 0 < bR v -> Rabs (ln (bR v)) <= 1023 -> ap 8 0 10 (lm_ln m v) (ln (bR v)) (Rabs (ln (bR v)) + 1).
Proof.
  intros F H B. destruct A as (_ & _ & _ & A4). destruct (A4 v F H) as [Fl E]. pose proof (Rabs_pos (ln (bR v))) as Q.
  split; [exact Fl|]. split; [|split; [lra|right; change (p2 0) with 1; change (p2 10) with 1024; lra]].
  eapply Rle_trans; [exact E|]. change (bpow radix2 (-50)) with (/ 1125899906842624). rewrite u64_val. lra.
Qed.
Lemma ln_top v : p2 (-50) <= bR v -> Rabs (ln (bR v)) <= 1023.
Proof.
  intros H1. pose proof (p2_pos (-50)) as P0. assert (H : 0 < bR v) by lra.
  assert (L2 : 0 < ln 2 <= 7 / 10) by (split; interval).
  assert (E : forall e, ln (p2 e) = IZR e * ln 2) by (intros e; rewrite bpow_powerRZ; change (IZR radix2) with 2; rewrite powerRZ_Rpower by lra; unfold Rpower; rewrite ln_exp; reflexivity).
  apply Rabs_le. split.
  - apply Rle_trans with (ln (p2 (-50))); [|apply ln_mono; [apply p2_pos|exact H1]]. rewrite E. lra.
  - apply Rle_trans with (ln (p2 1024)); [|rewrite E; lra].
    apply ln_mono; [exact H|]. apply Rlt_le. eapply Rle_lt_trans; [apply Rle_abs|]. apply abs_B2R_lt_emax.
Qed.

Section Step.
Variables P p q d0 : b64.
Hypothesis FP : fin P. Hypothesis HP : p2 (-50) <= bR P.
Hypothesis Fp : fin p. Hypothesis Hp : p2 (-50) <= bR p <= p2 650.
Hypothesis Fq : fin q. Hypothesis Hq : p2 (-50) <= bR q <= p2 550.
Hypothesis Fd : fin d0. Hypothesis Hd : p2 (-200) <= bR d0 <= p2 12.
Definition wN := bdiv (bmul (bsub (lm_ln m p) (lm_ln m P)) p) (bmul (Bopp d0) q).
Lemma w_ap : ap 19 (-612) 911 wN (- ((ln (bR p) - ln (bR P)) * bR p / (bR d0 * bR q)))
   ((Rabs (ln (bR p)) + 1 + (Rabs (ln (bR P)) + 1)) * bR p / (bR d0 * bR q)).
Proof.
  pose proof (p2_pos (-50)) as P0. pose proof (p2_pos (-200)) as P1.
  pose proof (ap_sub _ _ _ _ _ _ _ _ _ _ _ _ 0 11 (ap_ln p Fp ltac:(lra) (ln_top p ltac:(lra))) (ap_ln P FP ltac:(lra) (ln_top P ltac:(lra))) ltac:(zc) ltac:(zc) ltac:(zc)) as Q1.
  assert (R1 : rng 0 11 (Rabs (ln (bR p)) + 1 + (Rabs (ln (bR P)) + 1))).
  { right. pose proof (Rabs_pos (ln (bR p))). pose proof (Rabs_pos (ln (bR P))). pose proof (ln_top p ltac:(lra)). pose proof (ln_top P ltac:(lra)). change (p2 0) with 1. change (p2 11) with 2048. lra. }
  specialize (Q1 R1).
  assert (Q2 : ap 0 (-50) 650 p (bR p) (bR p)) by (apply ap_big; [exact Fp|rewrite Rabs_pos_eq; lra|right; lra]).
  assert (Q3 : ap 0 (-50) 550 q (bR q) (bR q)) by (apply ap_big; [exact Fq|rewrite Rabs_pos_eq; lra|right; lra]).
  assert (Q4 : ap 0 (-200) 12 d0 (bR d0) (bR d0)) by (apply ap_big; [exact Fd|rewrite Rabs_pos_eq; lra|right; lra]).
  pose proof (ap_mul _ _ _ _ _ _ _ _ _ _ _ _ Q1 Q2 ltac:(zc) ltac:(zc) ltac:(zc) ltac:(zc)) as Q5.
  pose proof (ap_mul _ _ _ _ _ _ _ _ _ _ _ _ (ap_neg _ _ _ _ _ _ Q4) Q3 ltac:(zc) ltac:(zc) ltac:(zc) ltac:(zc)) as Q6.
  pose proof (ap_neg _ _ _ _ _ _ Q6) as Q7. replace (- (- bR d0 * bR q)) with (bR d0 * bR q) in Q7 by ring.
  assert (D0 : 0 < bR d0 * bR q) by (apply Rmult_lt_0_compat; lra).
  pose proof (ap_div _ _ _ _ _ _ _ _ _ _ _ Q5 Q7 D0 ltac:(zc) ltac:(zc) ltac:(zc) ltac:(zc)) as Q8.
  set (v1 := bmul (bsub (lm_ln m p) (lm_ln m P)) p) in *. set (v2 := bmul (Bopp d0) q) in *.
  assert (N2 : bR v2 <> 0).
  { destruct (rel_of _ _ _ _ _ Q7 D0 ltac:(zc)) as (_ & _ & _ & _ & V). unfold bR in V at 1. rewrite B2R_Bopp in V. fold (bR v2) in V. lra. }
  destruct (div_opp v1 v2 (ap_fin _ _ _ _ _ _ Q5) N2 (ap_fin _ _ _ _ _ _ Q8)) as [E F].
  pose proof (ap_neg _ _ _ _ _ _ Q8) as (_ & E9 & X9 & R9). split; [exact F|]. split; [|split; [exact X9|]].
  - fold v1 v2 in E. change wN with (bdiv v1 v2). rewrite E. unfold bR in E9 at 1. rewrite B2R_Bopp in E9. fold (bR (bdiv v1 (Bopp v2))) in E9. eapply Rle_trans; [exact E9|]. right. reflexivity.
  - eapply rng_weak; [exact R9|zc|zc].
Qed.
Lemma tol_R : fin (blit (L 1 (-7))) /\ bR (blit (L 1 (-7))) <= 1 / 10000000 * (1 + 1 / 1000000000).
Proof.
  destruct (lit_err (L 1 (-7)) (-24) (-23) eq_refl ltac:(zc)) as [L1 L2]. split; [exact L1|]. replace (Rlit (L 1 (-7))) with (1 / 10000000) in L2 by (cbn; lra).
  rewrite (Rabs_pos_eq (1 / 10000000)) in L2 by lra. apply Rabs_le_inv in L2. rewrite u64_val in L2. lra.
Qed.
Lemma accepted : Bltb (Babs wN) (blit (L 1 (-7))) = true -> fin wN /\ Rabs (bR wN) <= 1 / 10000000 * (1 + 1 / 1000000000) /\
  Rabs (ln (bR p) - ln (bR P)) * bR p <= 1 / 10000000 * (1 + 1 / 1000000000) * (bR d0 * bR q) + 1 / 100000000000 * bR p.
Proof.
  intros H. destruct w_ap as (F & E & _ & _). destruct tol_R as [L1 L2].
  rewrite lt_fin in H; [|unfold fin; rewrite is_finite_Babs; exact F|exact L1]. unfold bR in H at 1. rewrite B2R_Babs in H. fold (bR wN) in H.
  destruct (Rlt_bool_spec (Rabs (bR wN)) (bR (blit (L 1 (-7))))) as [G|G]; [|discriminate H].
  split; [exact F|]. split; [lra|].
  pose proof (p2_pos (-50)) as P0. pose proof (p2_pos (-200)) as P1. assert (D0 : 0 < bR d0 * bR q) by (apply Rmult_lt_0_compat; lra).
  set (Q := bR d0 * bR q) in *. set (N := ln (bR p) - ln (bR P)) in *.
  assert (M : Rabs (ln (bR p)) + 1 + (Rabs (ln (bR P)) + 1) <= 2048) by (pose proof (ln_top p ltac:(lra)); pose proof (ln_top P ltac:(lra)); lra).
  assert (B : Rabs (N * bR p / Q) <= 1 / 10000000 * (1 + 1 / 1000000000) + 1 / 100000000000 * (bR p / Q)).
  { replace (N * bR p / Q) with ((bR wN - - (N * bR p / Q)) - bR wN) by ring. eapply Rle_trans; [apply Rabs_triang|]. rewrite Rabs_Ropp.
    apply Rle_trans with (IZR 19 * u64 * (2048 * bR p / Q) + 1 / 10000000 * (1 + 1 / 1000000000)).
    - apply Rplus_le_compat; [|lra]. eapply Rle_trans; [exact E|]. apply Rmult_le_compat_l; [rewrite u64_val; lra|].
      unfold Rdiv. apply Rmult_le_compat_r; [apply Rlt_le, Rinv_0_lt_compat, D0|]. apply Rmult_le_compat_r; lra.
    - rewrite u64_val. assert (0 < bR p / Q) by (apply Rdiv_lt_0_compat; lra). replace (2048 * bR p / Q) with (2048 * (bR p / Q)) by (unfold Rdiv; ring). lra. }
  unfold Rdiv in B at 1. rewrite Rabs_mult, (Rabs_pos_eq (/ Q)), Rabs_mult, (Rabs_pos_eq (bR p)) in B by (try apply Rlt_le, Rinv_0_lt_compat, D0; lra).
  apply (Rmult_le_compat_r Q) in B; [|lra]. replace (Rabs N * bR p * / Q * Q) with (Rabs N * bR p) in B by (field; lra).
  eapply Rle_trans; [exact B|]. right. field. lra.
Qed.
End Step.

(* densities before and after the step *)
Lemma step_d v0 w : fin v0 -> -7 <= bR v0 <= 100 -> fin w -> Rabs (bR w) <= 1 / 10000000 * (1 + 1 / 1000000000) ->
  let d0 := lm_exp m (Bopp v0) in let d' := lm_exp m (Bopp (bsub v0 w)) in
  fin d0 /\ fin d' /\ p2 (-200) <= bR d0 <= p2 12 /\ 0 < bR d' /\
  bR d' <= (1 + 1 / 9900000) * bR d0 /\ bR d0 <= (1 + 1 / 9900000) * bR d'.
Proof.
  intros F0 H0 Fw Hw d0 d'.
  assert (V0 : ap 0 7 7 v0 (bR v0) 128) by (apply ap_big; [exact F0|apply Rabs_le; lra|right; change (p2 7) with 128; lra]).
  assert (Vw : ap 0 7 7 w (bR w) 128) by (apply ap_big; [exact Fw|lra|right; change (p2 7) with 128; lra]).
  assert (R8 : rng 8 8 (128 + 128)) by (right; change (p2 8) with 256; lra).
  pose proof (ap_sub _ _ _ _ _ _ _ _ _ _ _ _ 8 8 V0 Vw ltac:(zc) ltac:(zc) ltac:(zc) R8) as Q. 
  destruct (ap_neg _ _ _ _ _ _ Q) as (Fs & Es & _ & _).
  assert (Fb : fin (Bopp v0)) by (unfold fin; now rewrite is_finite_Bopp). assert (Eb : bR (Bopp v0) = - bR v0) by apply B2R_Bopp.
  assert (Rx : forall y, -101 <= y <= 8 -> rng (-160) 12 (exp y)).
  { intros y Hy. right. change (p2 (-160)) with (/ 1461501637330902918203684832716283019655932542976). change (p2 12) with 4096. split; interval. }
  pose proof (ap_exp m A (Bopp v0) (- bR v0) 0 (-160) 12 Fb) as X0. rewrite Eb, Rminus_eq_0, Rabs_R0, Rmult_0_l in X0.
  specialize (X0 ltac:(lra) ltac:(zc) ltac:(apply Rabs_le; lra) (Rx (- bR v0) ltac:(lra))).
  apply Rabs_le_inv in Hw as Hw'.
  pose proof (ap_exp m A (Bopp (bsub v0 w)) (- (bR v0 - bR w)) 512 (-160) 12 Fs) as X1.
  specialize (X1 ltac:(eapply Rle_trans; [exact Es|]; right; change (Z.max 0 0 + 2)%Z with 2%Z; lra) ltac:(zc) ltac:(apply Rabs_le; lra) (Rx (- (bR v0 - bR w)) ltac:(lra))).
  fold d0 in X0. fold d' in X1.
  destruct (rel_of _ _ _ _ _ X0 (exp_pos _) ltac:(zc)) as (A1 & A2 & A3 & _ & A4). destruct (rel_of _ _ _ _ _ X1 (exp_pos _) ltac:(zc)) as (B1 & B2 & B3 & _ & B4).
  set (e0 := exp (- bR v0)) in *. set (e1 := exp (- (bR v0 - bR w))) in *.
  assert (E1 : e1 = e0 * exp (bR w)) by (unfold e0, e1; rewrite <- exp_plus; f_equal; ring).
  assert (W1 : Rabs (exp (bR w) - 1) <= 1 / 9990000). { eapply Rle_trans; [apply (exp_rel _ _ Hw); lra|]. lra. }
  assert (P0 : 0 < e0) by apply exp_pos. apply Rabs_le_inv in A2, B2, W1. rewrite u64_val in A2, B2. change (IZR (0 + 10)) with 10 in A2. change (IZR (512 + 10)) with 522 in B2.
  split; [exact A1|]. split; [exact B1|]. split.
  { assert (p2 (-200) <= p2 (-160) / 2 /\ p2 (-160) > 0) as [Pa Pb].
    { split; [|apply p2_pos]. apply Rle_trans with (p2 (-161)); [apply bpow_le; lia|]. replace (-160)%Z with (-161 + 1)%Z by lia. rewrite bpow_plus. change (bpow radix2 1) with 2. lra. }
    assert (e0 <= 3000). { apply Rle_trans with (exp 8); [apply Rlt_le, exp_increasing; lra|interval]. }
    change (p2 12) with 4096. split; nra. }
  split; [exact B4|]. split; nra.
Qed.
End Core.
