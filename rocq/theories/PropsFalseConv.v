(* C52: what an accepted density says about the pressure at it, over the reals.
   The claim a caller expects - Ok means that pressure() at the density found is (about) the pressure asked for - is false:
   the Newton correction in ln v is (ln p - ln P) * p / (d dp/dd), so where the pressure of the equation of state is small
   and rising the correction is below 1e-7 whatever pressure P was asked for. *)
From Coq Require Import List ZArith Reals Lra Lia.
From Coquelicot Require Import Coquelicot.
From Interval Require Import Tactic.
From Verif Require Import Prelude FArith ArithR DetailModel GergModel Api SpecGeneric SpecHistory SpecDetail SpecReal SpecAcc StdDetail SpecStd SpecGerg SpecIdeal ConvDetail ConvReal ConvGerg ConvLow ConvLowG ConvCase ConvCaseG SpecConv
  FalseConv FalseConvWit FalseConvWitG FalseConvPart.
From Verif Require PropsConv.
Import ListNotations.
Local Open Scope R_scope.
Local Existing Instance ArithR.

Lemma half p : -1 < p < 1 -> Rabs (p - 5000) <= 1 / 2 * 5000 -> False.
Proof. intros H B. revert B. unfold Rabs. destruct (Rcase_abs _); lra. Qed.
Lemma d_half : ~ (forall k l i (s : @Detail ArithR) r (p : R), dexec k (l ++ [Density i; Pressure]) = Some (s, r ++ [ODens ROk; OVal (A := ArithR) p]) ->
  Rabs (p - dread PP s) <= 1 / 2 * dread PP s).
Proof.
  intros H. destruct false_conv as (d0 & s & d' & p & E & _ & _ & EP & _ & HP). 
  specialize (H New [SetX (A := ArithR) ch4; Poke (A := ArithR) PT 150; Poke (A := ArithR) PP 5000; Poke (A := ArithR) PD ((- d0)%R : @F ArithR)] 0%Z s [OUnit; OUnit; OUnit; OUnit] p E).
  rewrite EP in H. exact (half p HP H).
Qed.
Lemma g_half : ~ (forall k l i (s : @Gerg ArithR) r (p : R), gexec k (l ++ [Density i; Pressure]) = Some (s, r ++ [ODens ROk; OVal (A := ArithR) p]) ->
  Rabs (p - gread PP s) <= 1 / 2 * gread PP s).
Proof.
  intros H. destruct gfalse_conv as (d0 & s & d' & p & E & _ & _ & EP & _ & HP). 
  specialize (H New [SetX (A := ArithR) ch4g; Poke (A := ArithR) PT 150; Poke (A := ArithR) PP 5000; Poke (A := ArithR) PD ((- d0)%R : @F ArithR)] 0%Z s [OUnit; OUnit; OUnit; OUnit] p E).
  rewrite EP in H. exact (half p HP H).
Qed.

(* the claim, with a tolerance of one half: pressure() right after a successful density() *)
Theorem C52_detail_refuted : ~ (forall k l i (s : @Detail ArithR) r (p : R),
  dexec k (l ++ [Density i; Pressure]) = Some (s, r ++ [ODens ROk; OVal (A := ArithR) p]) ->
  Rabs (p - dread PP s) <= 1 / 2 * dread PP s).
Proof. exact d_half. Qed.
Print Assumptions C52_detail_refuted.
Theorem C52_gerg_refuted : ~ (forall k l i (s : @Gerg ArithR) r (p : R),
  gexec k (l ++ [Density i; Pressure]) = Some (s, r ++ [ODens ROk; OVal (A := ArithR) p]) ->
  Rabs (p - gread PP s) <= 1 / 2 * gread PP s).
Proof. exact g_half. Qed.
Print Assumptions C52_gerg_refuted.

(* the inputs: methane at 150 K and 5000 kPa, search started (by the caller, through a negative d) where the pressure of the
   equation is 1e-6 kPa; the density is accepted and the pressure there is below 1 kPa *)
Theorem C52_detail_refuted_witness : exists d0 s (d' p : R),
  dexec New [SetX ch4; Poke PT 150; Poke PP 5000; Poke PD ((- d0)%R : @F ArithR); Density 0; Pressure] =
    Some (s, [OUnit; OUnit; OUnit; OUnit; ODens ROk; OVal p]) /\
  21 <= d0 <= 22 /\ dread PD s = d' /\ dread PP s = 5000 /\ p = detail_p (nn ch4) 150 d' /\ -1 < p < 1.
Proof. exact false_conv. Qed.
Print Assumptions C52_detail_refuted_witness.
Theorem C52_gerg_refuted_witness : exists d0 s (d' p : R),
  gexec New [SetX ch4g; Poke PT 150; Poke PP 5000; Poke PD ((- d0)%R : @F ArithR); Density 0; Pressure] =
    Some (s, [OUnit; OUnit; OUnit; OUnit; ODens ROk; OVal p]) /\
  22 <= d0 <= 23 /\ gread PD s = d' /\ gread PP s = 5000 /\ p = gpres New ch4g 150 d' /\ -1 < p < 1.
Proof. exact gfalse_conv. Qed.
Print Assumptions C52_gerg_refuted_witness.

(* in general: wherever the inequality in the last hypothesis holds the starting density is accepted at once *)
Theorem C52_detail_spurious : forall k l i (s : @Detail ArithR) r d0, dexec k l = Some (s, r) -> separated 0 (dasked (l ++ [Density i])) ->
  0 < d_t s -> let p := dpres k (fun j => nth j (d_x s) 0) (d_t s) in
  1 / 1000000000000000 <= d0 <= exp 7 -> d_d s = - d0 -> 1 / 1000000000000000 <= DetailModel.d_p s ->
  1 / 1000000000000000 <= p d0 -> 1 / 1000000000000000 <= Derive p d0 ->
  Rabs (ln (p d0) - ln (DetailModel.d_p s)) * p d0 < 1 / 10000000 * (d0 * Derive p d0) ->
  exists s' w, Rabs w < 1 / 10000000 /\ dstep (Density i) s = Some (s', ODens ROk) /\ d_d s' = d0 * exp w /\ dframe [PD; PZ] s s'.
Proof. exact d_one. Qed.
Print Assumptions C52_detail_spurious.
Theorem C52_gerg_spurious : forall k l i (s : @Gerg ArithR) r d0, gexec k l = Some (s, r) -> separated 1 (gasked (l ++ [Density i])) ->
  (i <= 0)%Z -> (exists j, (1 <= j < 22)%nat /\ 1 / 10000000 < nth j (g_x s) 0) ->
  0 < g_t s -> let p := gpres k (fun j => nth j (g_x s) 0) (g_t s) in
  1 / 1000000000000000 <= d0 <= exp 7 -> g_d s = - d0 -> 1 / 1000000000000000 <= GergModel.g_p s ->
  1 / 1000000000000000 <= p d0 -> 1 / 1000000000000000 <= Derive p d0 ->
  Rabs (ln (p d0) - ln (GergModel.g_p s)) * p d0 < 1 / 10000000 * (d0 * Derive p d0) ->
  exists s' w, Rabs w < 1 / 10000000 /\ gstep (Density i) s = Some (s', ODens ROk) /\ g_d s' = d0 * exp w /\ gframe [PD; PZ] s s'.
Proof. exact g_one. Qed.
Print Assumptions C52_gerg_spurious.

(* what does hold: if the logarithmic slope of the pressure is at most K within 1e-7 of the density found, the pressure at it
   is the one asked for to 2 K 1e-7 in the logarithm.  Missing from the full claim: the slope condition. *)
Theorem C52_detail_partial : forall k l i (s : @Detail ArithR) r s' K,
  dexec k l = Some (s, r) -> separated 0 (dasked (l ++ [Density i])) ->
  0 < d_t s -> dstep (Density i) s = Some (s', ODens ROk) ->
  let p := dpres k (fun j => nth j (d_x s) 0) (d_t s) in
  (forall d, exp (- (1 / 10000000)) * d_d s' <= d <= exp (1 / 10000000) * d_d s' -> 0 < p d /\ Rabs (d * Derive p d) <= K * p d) ->
  Rabs (ln (p (d_d s')) - ln (DetailModel.d_p s)) <= 2 * K / 10000000.
Proof. exact d_close. Qed.
Print Assumptions C52_detail_partial.
Theorem C52_gerg_partial : forall k l i (s : @Gerg ArithR) r s' K,
  gexec k l = Some (s, r) -> separated 1 (gasked (l ++ [Density i])) ->
  (exists j, (1 <= j < 22)%nat /\ 1 / 10000000 < nth j (g_x s) 0) ->
  0 < g_t s -> gstep (Density i) s = Some (s', ODens ROk) ->
  let p := gpres k (fun j => nth j (g_x s) 0) (g_t s) in
  (forall d, exp (- (1 / 10000000)) * g_d s' <= d <= exp (1 / 10000000) * g_d s' -> 0 < p d /\ Rabs (d * Derive p d) <= K * p d) ->
  Rabs (ln (p (g_d s')) - ln (GergModel.g_p s)) <= 2 * K / 10000000.
Proof. exact g_close. Qed.
Print Assumptions C52_gerg_partial.

(* the round trip of C15 at 300 K meets the condition with K = 7/6 *)
Lemma inside d0 w d : 0 < d0 -> Rabs w < 1 / 10000000 -> exp (- (1 / 10000000)) * (d0 * exp w) <= d <= exp (1 / 10000000) * (d0 * exp w) -> d0 / 3 <= d <= 3 * d0.
Proof.
  intros H W [B1 B2]. apply Rabs_def2 in W as [W1 W2]. assert (9 / 10 <= exp (- (1 / 10000000))) by interval. assert (exp (1 / 10000000) <= 11 / 10) by interval.
  assert (9 / 10 <= exp w <= 11 / 10) as E by (split; interval). assert (9 / 10 * d0 <= d0 * exp w <= 11 / 10 * d0) by nra.
  pose proof (exp_pos (1 / 10000000)). nra.
Qed.
Example C52_detail_case : exists l (s : @Detail ArithR) r s', dexec New l = Some (s, r) /\ separated 0 (dasked (l ++ [Density 0])) /\ 0 < d_t s /\
  dstep (Density 0) s = Some (s', ODens ROk) /\ let p := dpres New (fun j => nth j (d_x s) 0) (d_t s) in
  forall d, exp (- (1 / 10000000)) * d_d s' <= d <= exp (1 / 10000000) * d_d s' -> 0 < p d /\ Rabs (d * Derive p d) <= 7 / 6 * p d.
Proof.
  destruct PropsConv.C50_case as (A & B & C & D).
  destruct (trip ch4 300 500 0 A ltac:(lra) B ltac:(lra) C D) as (H1 & H2 & H3 & H4 & H5 & H6).
  assert (nearly_ideal (dpres New (fun j => nth j (map ch4 (seq 0 21)) 0) 300) (500 / RD / 300) 500) as [_ NI] by (apply (ideal1 ch4 300 500); trivial; lra).
  pose proof (run2 ch4 300 500) as R2. set (s2 := set_d_p _ _) in *. set (d0 := 500 / RD / 300) in *.
  assert (HB : 1 / 1000000000000000 <= d0 <= exp 7) by (split; [lra|]; unfold d0, RD; interval).
  set (p := dpres New (fun j => nth j (d_x s2) 0) (d_t s2)) in *.
  destruct (d_one New _ 0 s2 _ d0 R2 H1 H2 HB H3) as (s' & w & Hw & E & Ed & _); [rewrite H4; exact H5|exact H5|exact H6| |].
  { fold p. rewrite H4, Rminus_diag_eq, Rabs_R0, Rmult_0_l by reflexivity. apply Rmult_lt_0_compat; [lra|]. apply Rmult_lt_0_compat; lra. }
  eexists _, s2, _, s'. split; [exact R2|]. split; [exact H1|]. split; [exact H2|]. split; [exact E|]. cbv zeta. fold p.
  intros d Hd. rewrite Ed in Hd. destruct (NI d (inside d0 w d ltac:(lra) Hw Hd)) as (N1 & N2 & N3).
  change (0 < p d) in N1. split; [exact N1|]. change (5 / 6 * p d <= d * Derive p d) in N2. change (d * Derive p d <= 7 / 6 * p d) in N3.
  apply Rabs_le. split; [|exact N3]. apply Rle_trans with (2 := N2). lra.
Qed.
Example C52_gerg_case : exists l (s : @Gerg ArithR) r s', gexec New l = Some (s, r) /\ separated 1 (gasked (l ++ [Density 0])) /\
  (exists j, (1 <= j < 22)%nat /\ 1 / 10000000 < nth j (g_x s) 0) /\ 0 < g_t s /\
  gstep (Density 0) s = Some (s', ODens ROk) /\ let p := gpres New (fun j => nth j (g_x s) 0) (g_t s) in
  forall d, exp (- (1 / 10000000)) * g_d s' <= d <= exp (1 / 10000000) * g_d s' -> 0 < p d /\ Rabs (d * Derive p d) <= 7 / 6 * p d.
Proof.
  destruct gerg_low as (gv & gt & bt & N & H). destruct (N 1%nat 1%nat ltac:(lia) ltac:(lia)) as (N1 & N2 & _).
  destruct (case_g _ _ N1 N2) as [C1 C2]. rewrite <- (vol1 gv) in C1, C2. rewrite <- (temp1 gt bt) in C2.
  destruct (H ch4g 300 200 0%Z ltac:(lia) PropsConv.ch4g_some ltac:(lra) PropsConv.dg_range ltac:(lra) C1 C2) as [Hv HE].
  destruct (gtrip ch4g 300 200 0 _ _ PropsConv.ch4g_some ltac:(lra) PropsConv.dg_range ltac:(lra) Hv HE C1 C2) as (H1 & H1' & H2 & H3 & H4 & H5 & H6).
  assert (nearly_ideal (gpres New (fun j => nth j (map ch4g (seq 0 22)) 0) 300) (200 / Rg / 300) 200) as [_ NI] by (apply (gideal1 ch4g 300 200 (red_temp (ac ch4g) gt bt / 300) (red_volume (ac ch4g) gv)); first [exact PropsConv.ch4g_some|exact PropsConv.dg_range|exact Hv|exact HE|exact C1|exact C2|lra]).
  pose proof (grun2 ch4g 300 200) as R2. set (s2 := set_g_p _ _) in *. set (d0 := 200 / Rg / 300) in *.
  assert (HB : 1 / 1000000000000000 <= d0 <= exp 7) by (unfold d0, Rg; split; interval).
  set (p := gpres New (fun j => nth j (g_x s2) 0) (g_t s2)) in *.
  destruct (g_one New _ 0 s2 _ d0 R2 H1 ltac:(lia) H1' H2 HB H3) as (s' & w & Hw & E & Ed & _); [rewrite H4; exact H5|exact H5|exact H6| |].
  { fold p. rewrite H4, Rminus_diag_eq, Rabs_R0, Rmult_0_l by reflexivity. apply Rmult_lt_0_compat; [lra|]. apply Rmult_lt_0_compat; lra. }
  eexists _, s2, _, s'. split; [exact R2|]. split; [exact H1|]. split; [exact H1'|]. split; [exact H2|]. split; [exact E|]. cbv zeta. fold p.
  intros d Hd. rewrite Ed in Hd. destruct (NI d (inside d0 w d ltac:(lra) Hw Hd)) as (M1 & M2 & M3).
  change (0 < p d) in M1. split; [exact M1|]. change (5 / 6 * p d <= d * Derive p d) in M2. change (d * Derive p d <= 7 / 6 * p d) in M3.
  apply Rabs_le. split; [|exact M3]. apply Rle_trans with (2 := M2). lra.
Qed.
