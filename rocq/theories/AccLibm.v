(* There are elementary functions as accurate as asked: the correctly rounded ones. *)
From Coq Require Import Reals ZArith List Bool Lra Lia Psatz.
From Flocq Require Import Core BinarySingleNaN.
From Interval Require Import Tactic.
From Verif Require Import FArith ArithB64 B64Lemmas ArithR SpecAcc B64Err.
Local Open Scope R_scope.

Definition nearest (r : R) : b64 :=
  binary_normalize 53 1024 _ _ mode_NE (Ztrunc (scaled_mantissa radix2 fexp64 (rnd r))) (cexp radix2 fexp64 (rnd r)) false.
Definition best : Libm := {|
  lm_exp := fun v => nearest (exp (bR v)); lm_ln := fun v => nearest (ln (bR v));
  lm_powf := fun v w => nearest (Rpower (bR v) (bR w)); lm_powi := fun v n => nearest (powerRZ (bR v) n) |}.

Lemma nearest_ok r : Rabs (rnd r) < p2 1024 -> bR (nearest r) = rnd r /\ fin (nearest r).
Proof.
  intros H. pose proof (binary_normalize_correct 53 1024 _ _ mode_NE (Ztrunc (scaled_mantissa radix2 fexp64 (rnd r))) (cexp radix2 fexp64 (rnd r)) false) as C.
  assert (generic_format radix2 fexp64 (rnd r)) as G by (apply generic_format_round; [apply (FLT_exp_valid (-1074) 53)|apply valid_rnd_N]).
  cbv zeta in C. fold (nearest r) in C. change (F2R {| Fnum := Ztrunc (scaled_mantissa radix2 fexp64 (rnd r)); Fexp := cexp radix2 fexp64 (rnd r) |}) with
    (F2R (Float radix2 (Ztrunc (scaled_mantissa radix2 fexp64 (rnd r))) (cexp radix2 fexp64 (rnd r)))) in C.
  unfold generic_format in G. rewrite <- G in C. change (SpecFloat.fexp 53 1024) with fexp64 in C. cbn [round_mode] in C.
  rewrite round_generic in C; [|apply valid_rnd_N|rewrite G at 1; rewrite <- G; exact G].
  rewrite Rlt_bool_true in C by exact H. destruct C as (C1 & C2 & _). now split.
Qed.
Lemma nearest_close r : r = 0 \/ middle r -> close (nearest r) r.
Proof.
  intros H. assert (ap (0 + 2) (-1000) 1000 (nearest r) r (Rabs r)) as Q.
  { apply (ap_round 0 _ _ r); [unfold KM; lia|split; lia| |apply Rle_refl| |apply nearest_ok].
    - replace (r - r) with 0 by ring. rewrite Rabs_R0. lra.
    - destruct H as [->|H]; [left; apply Rabs_R0|right; exact H]. }
  destruct Q as (F & E & _). split; [exact F|]. eapply Rle_trans; [exact E|]. apply Rmult_le_compat_r; [apply Rabs_pos|].
  unfold u64. change (IZR (0 + 2)) with (p2 1). rewrite <- bpow_plus. apply bpow_le. lia.
Qed.
Lemma ln2_half : 1 / 2 <= ln 2.
Proof. pose proof (ln_le1 (/ 2) ltac:(lra)). rewrite ln_Rinv in H by lra. lra. Qed.
Lemma near_1 v : fin v -> bR v <> 1 -> bR v <= 1 - p2 (-53) \/ 1 + p2 (-52) <= bR v.
Proof.
  intros Fv N. assert (generic_format radix2 fexp64 (bR v)) as G by apply generic_format_B2R.
  assert (generic_format radix2 fexp64 1) as G1 by (apply (generic_format_bpow radix2 fexp64 0); cbv; discriminate).
  pose proof (FLT_exp_valid (-1074) 53) as V.
  destruct (Rle_lt_dec (bR v) 1) as [L|L]; [left|right].
  - assert (bR v < 1) as L' by lra. pose proof (pred_ge_gt radix2 fexp64 _ _ G G1 L') as P.
    change 1 with (p2 0) in P. rewrite (pred_bpow radix2 fexp64 0) in P. exact P.
  - pose proof (succ_le_lt radix2 fexp64 _ _ G1 G L) as P. rewrite succ_eq_pos in P by lra.
    change 1 with (p2 0) in P at 2. rewrite ulp_bpow in P. exact P.
Qed.
Lemma ln_middle v : fin v -> 0 < bR v -> ln (bR v) = 0 \/ middle (ln (bR v)).
Proof.
  intros Fv Hv. destruct (Req_dec (bR v) 1) as [->|N]; [left; apply ln_1|right].
  assert (p2 (-53) = 1 / 9007199254740992) as E53 by (cbn; lra). assert (p2 (-52) = 1 / 4503599627370496) as E52 by (cbn; lra).
  assert (p2 (-1000) <= p2 (-53)) as L53 by (apply bpow_le; lia).
  assert (Rabs (ln (bR v)) <= 1075) as U.
  { eapply (ln_rng1 (-1074) 1024); try lia; [exact Hv|]. right. split.
      assert (generic_format radix2 fexp64 (bR v)) as G by apply generic_format_B2R.
      apply (generic_format_ge_bpow radix2 fexp64 (-1074)); [|exact Hv|exact G]. intros e. unfold fexp64, FLT_exp. lia.
    - pose proof (abs_B2R_lt_emax 53 1024 v) as Q. rewrite Rabs_pos_eq in Q by (fold (bR v); lra). apply Rlt_le, Q. }
  split.
  - apply Rle_trans with (p2 (-53)); [exact L53|]. destruct (near_1 v Fv N) as [L|L].
    + pose proof (ln_le1 _ Hv). rewrite Rabs_left1 by lra. lra.
    + pose proof (ln_le1 (/ bR v) (Rinv_0_lt_compat _ Hv)) as Q. rewrite ln_Rinv in Q by exact Hv.
      pose proof (ln_mono (1 + p2 (-52)) (bR v) ltac:(lra) L) as Q1.
      pose proof (ln_le1 (/ (1 + p2 (-52))) ltac:(apply Rinv_0_lt_compat; lra)) as Q2. rewrite ln_Rinv in Q2 by lra.
      eapply Rle_trans; [|apply Rle_abs]. rewrite E52, E53 in *. lra.
  - eapply Rle_trans; [exact U|]. apply Rle_trans with (p2 11); [change (p2 11) with 2048; lra|apply bpow_le; lia].
Qed.
Lemma exp_middle y : Rabs y <= 600 -> middle (exp y).
Proof.
  intros H. apply Rabs_le_inv in H. assert (0 < exp y) by apply exp_pos. unfold middle. rewrite Rabs_pos_eq by lra.
  assert (forall z, (p2 z = exp (IZR z * ln 2))) as P by (intros z; rewrite bpow_exp; reflexivity).
  assert (69 / 100 <= ln 2) as L2 by interval.
  split; rewrite P; apply Raux.exp_le; lra.
Qed.
Lemma best_accurate : accurate best.
Proof.
  split; [|split; [|split]].
  - intros v w _ _ _ H. apply nearest_close. now right.
  - intros v n _ Hn H. cbn [lm_powi best]. rewrite <- pow_powerRZ. apply nearest_close. destruct H as [->|H]; [left|now right]. apply pow_i. lia.
  - intros v _ H. apply nearest_close. right. now apply exp_middle.
  - intros v F H. apply nearest_close. now apply ln_middle.
Qed.
