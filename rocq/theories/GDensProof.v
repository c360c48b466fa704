(* What an Ok from density() means in double precision (GERG-2008). *)
From Coq Require Import Reals ZArith List Bool Lra Lia Psatz.
From Coquelicot Require Import Coquelicot.
From Flocq Require Import Core BinarySingleNaN.
From Interval Require Import Tactic.
From Verif Require Import FArith Prelude Tab ArithB64 B64Lemmas ArithR RSum SpecDetail SpecGerg SpecIdeal SpecTables StdGerg SpecStd SpecAcc SpecAccG SpecAll SpecAllF SpecSlopeG SpecHistory DetailPure GergTables GergModel GergPure GergRefine GergEval Api ApiSafe BasicProofs HistoryGerg SpecReal Thermo DetailReal DetailThermo GergReal GergIdeal GergThermo
  DetailEos GergEos GenericLemmas SpecGeneric Drift StdDetailProof StdGergProof NewtonReal ConvDetail ConvGerg SlopeReal GSlope B64Err AccFold AccMix AccEos AccProof GAccRed GAccTerms GAccEos GAccSize GAccProof AccSlope GAllCoef GAllTerms GAllSize GAllIdeal GAllIdeal2 GAllProps GAllFin GAllMain AccDens AccDensProof GDens.
Import ListNotations.
Local Open Scope R_scope.
Local Existing Instance gp_new.

(* the arithmetic of the two cases *)
Lemma two_casesG (P p p0 p1 S0 S : R) : 0 < P -> 0 < p -> 0 < S0 -> Rabs (p - p0) <= 3 / 20000000000 * S0 ->
  Rabs (ln p - ln P) * p <= (1 + 2 / 10000) / 10000000 * S0 -> Rabs (p1 - p0) <= 1 / 9900000 * (1 + 1 / 1000) * S0 -> S0 <= (1 + 3 / 10000) * S ->
  Rabs (p1 - P) <= 31 / 100000000 * S \/ p1 <= 25 / 100000000 * S.
Proof.
  intros HP Hp HS E1 E2 E3 E4. apply Rabs_le_inv in E1, E3.
  destruct (Rle_lt_dec P (2 * p)) as [L|L].
  - left. pose proof (ln_diff p P Hp HP) as G. pose proof (Rabs_pos (ln p - ln P)) as A0.
    assert (Rmax p P * Rabs (ln p - ln P) <= 2 * (Rabs (ln p - ln P) * p)) as G2.
    { replace (2 * (Rabs (ln p - ln P) * p)) with (2 * p * Rabs (ln p - ln P)) by ring. apply Rmult_le_compat_r; [exact A0|]. apply Rmax_lub; lra. }
    assert (G3 : Rabs (p - P) <= 2 * ((1 + 2 / 10000) / 10000000 * S0)) by lra. apply Rabs_le_inv in G3. apply Rabs_le. lra.
  - right. assert (ln 2 <= Rabs (ln p - ln P)) as G.
    { rewrite Rabs_minus_sym. eapply Rle_trans; [|apply Rle_abs]. assert (ln (2 * p) <= ln P) by (apply ln_mono; lra). rewrite ln_mult in H by lra. lra. }
    assert (69 / 100 <= ln 2) by interval. assert (69 / 100 * p <= Rabs (ln p - ln P) * p) by (apply Rmult_le_compat_r; lra). lra.
Qed.

(* the two values the search uses, at a double density *)
Section Pt.
Variable m : Libm.
Hypothesis A : accurate m.
Local Notation B := (ArithB64 m).
Variables (x : nat -> b64) (t d : b64).
Local Notation r := (fun i => bR (x i)).
Hypothesis Hx : forall i, (1 <= i < 22)%nat -> fin (x i) /\ (bR (x i) = 0 \/ p2 (-49) <= bR (x i)).
Hypothesis Hs : 99 / 100 <= tot 21 (fun i => bR (x (S i))) <= 101 / 100.
Hypothesis HT : fin t /\ 32 <= bR t <= 2048.
Hypothesis Hd : fin d /\ p2 (-20) <= bR d.
Hypothesis HD : bR d * vred r <= 5 / 2.
Local Notation lB := (@can_terms B gp_new (map x (seq 0 22)) t d).
Local Notation lR := (@can_terms ArithR gp_new (gxl r) (bR t) (bR d)).
Local Notation delta := (bR d * vred r). Local Notation tau := (tred r / bR t).
Lemma gp_ap : ap 790920 (-20) 500 (@gpp B lB t d) (gpres New r (bR t) (bR d)) (bR d * Rg * bR t * (1 + gerg_sum 1 r delta tau)).
Proof.
  rewrite (gpres_ok New r (some x Hs) (bR t) (bR d) (T7 t HT)).
  pose proof (fz m lB lR _ (aSum m A x t d Hx Hs HT Hd HD)) as Z. cbv beta in Z.
  pose proof (addd d (Hdd m A x d Hx Hs Hd HD)) as Dd.
  assert (E0 : gpp (gT New r (bR t) (bR d)) (bR t) (bR d) = bR d * Rg * bR t * @gqz ArithR lR) by reflexivity. rewrite E0.
  change (@gpp B lB t d) with (bmul (bmul (bmul d (@RGERG B)) t) (@gqz B lB)).
  eapply ap_weak; [eapply ap_mul; [eapply ap_mul; [eapply ap_mul; [exact Dd|exact (aRG m)|zc|zc|zc|zc]|exact (at_ t HT)|zc|zc|zc|zc]|exact Z|zc|zc|zc|zc]|zc|zc|zc].
Qed.
Lemma gq_ap : ap 790910 0 480 (@gpdpdd B lB t) (gprop New PDpDd r (bR t) (bR d)) (Rg * bR t * gerg_slope r delta tau).
Proof.
  rewrite (gprop_ok New r (some x Hs) PDpDd (bR t) (bR d) (T7 t HT)).
  exact (fdpdd m lB lR _ (aSum m A x t d Hx Hs HT Hd HD) t HT).
Qed.
End Pt.
(* the exact pressure as a function of the density *)
Section Ex.
Variables (x : nat -> b64).
Local Notation r := (fun i => bR (x i)).
Hypothesis Hx : forall i, (1 <= i < 22)%nat -> fin (x i) /\ (bR (x i) = 0 \/ p2 (-49) <= bR (x i)).
Hypothesis Hs : 99 / 100 <= tot 21 (fun i => bR (x (S i))) <= 101 / 100.
Lemma sum_ac e D T : gerg_sum e (ac r) D T = gerg_sum e r D T.
Proof.
  unfold gerg_sum. apply f_equal2.
  - change (tot 21) with (sum 21). apply sum_ext. intros i Hi. now rewrite (ac_r x Hx) by lia.
  - rewrite departs_rows, !lsum_map. apply lsum_ext. intros p Hp. apply filter_In in Hp. destruct Hp as [Hp _]. unfold allp in Hp.
    apply in_flat_map in Hp. destruct Hp as (j & Hj & Hp). apply in_seq in Hj. apply in_map_iff in Hp. destruct Hp as (i & <- & Hi). apply in_seq in Hi.
    unfold dlit. cbn [fst snd]. now rewrite !(ac_r x Hx) by lia.
Qed.
Lemma slope_ac D T : gerg_slope (ac r) D T = gerg_slope r D T.
Proof. unfold gerg_slope. now rewrite !sum_ac. Qed.
Lemma v_pos : 0 < vred r. Proof. exact (vr_pos x Hx Hs). Qed.
Lemma gpres_res T : 1 / 10000000 < T -> forall d, exists a' : R, is_derive (fun delta => residual (ac r) delta (tred r / T)) (d * vred r) a' /\
  gpres New r T d = d * Rg * T * (1 + d * vred r * a').
Proof.
  intros HT d. destruct (gpres_alphar r (somer x Hs) T HT d) as (a' & Ha & Hp & _). rewrite (vred_ext (ac r) r), (tred_ext (ac r) r) in * by (exact (ac_r x Hx)).
  exists a'. split; [|exact Hp]. eapply is_derive_ext; [|exact Ha]. intros e. symmetry. apply residual_std.
Qed.
Lemma gclose T k d d' : 1 / 10000000 < T -> 1 <= k <= 1 + 1 / 8000000 -> 0 < d -> 0 < d' -> d <= k * d' -> d' <= k * d -> d * vred r <= 5 / 2 ->
  Rabs (gpres New r T d' - gpres New r T d) <= (k - 1) * (1 + 1 / 1000) * (d * Rg * T * gerg_slope r (d * vred r) (tred r / T)).
Proof.
  intros HT. rewrite <- slope_ac. apply (gp_close (ac r) (tred r / T) (vred r) T); [intros; apply ac_ge0|lra|exact v_pos|now apply gpres_res].
Qed.
Lemma gratio k T d d' : 1 <= k <= 1 + 1 / 8000000 -> 0 <= d -> 0 <= d' -> d <= k * d' -> d' <= k * d -> d <= 251 / 100 ->
  gerg_slope r d T <= kS * gerg_slope r d' T.
Proof. intros. rewrite <- !slope_ac. now apply (slw_slope (ac r) T (ac_ge0 r) k). Qed.
Lemma gge T d : 0 <= d <= 251 / 100 -> 1 <= 1 + gerg_sum 1 r d T <= gerg_slope r d T.
Proof. intros. rewrite <- slope_ac, <- sum_ac. apply gslope_ge; [apply ac_ge0|exact H]. Qed.
End Ex.

Section Final.
Variable m : Libm.
Hypothesis A : accurate m.
Local Notation B := (ArithB64 m).
Lemma gdens_core (x : nat -> b64) (T P v0 w d : b64) :
  let r i := bR (x i) in
  (forall i, (1 <= i < 22)%nat -> fin (x i) /\ (r i = 0 \/ p2 (-49) <= r i)) ->
  99 / 100 <= tot 21 (fun i => r (S i)) <= 101 / 100 -> fin T /\ 32 <= bR T <= 2048 -> fin P /\ p2 (-50) <= bR P ->
  fin v0 -> -7 <= bR v0 <= 100 ->
  let d0 := lm_exp m (Bopp v0) in let lB := @can_terms B gp_new (map x (seq 0 22)) T d0 in
  let p := @gpp B lB T d0 in let q := @gpdpdd B lB T in
  Bltb q (blit (L 1 (-15))) = false -> Bltb p (blit (L 1 (-15))) = false -> w = wN m P p q d0 -> Bltb (Babs w) (blit (L 1 (-7))) = true ->
  d = lm_exp m (Bopp (bsub v0 w)) -> p2 (-19) <= bR d -> bR d * vred r <= 249 / 100 ->
  let S := bR d * Rg * bR T * gerg_slope r (bR d * vred r) (tred r / bR T) in
  Rabs (gpres New r (bR T) (bR d) - bR P) <= 31 / 100000000 * S \/ gpres New r (bR T) (bR d) <= 25 / 100000000 * S.
Proof.
  intros r Hx Hs HT [FP HP] Fv Hv d0 lB p q Hq Hp Hw Hc Hd' Hd HD S.
  assert (Fw : fin w /\ Rabs (bR w) <= 1 / 10000000 * (1 + 1 / 1000000000)).
  { destruct tol_R as [L1 L2]. assert (F : fin w). { unfold fin. clear - Hc. destruct w; try reflexivity; cbv in Hc; discriminate Hc. }
    split; [exact F|]. rewrite lt_fin in Hc; [|unfold fin; rewrite is_finite_Babs; exact F|exact L1]. unfold bR in Hc at 1. rewrite B2R_Babs in Hc. fold (bR w) in Hc.
    destruct (Rlt_bool_spec (Rabs (bR w)) (bR (blit (L 1 (-7))))) as [G|G]; [lra|discriminate Hc]. }
  destruct Fw as [Fw Bw]. destruct (step_d m A v0 w Fv Hv Fw Bw) as (Fd0 & Fd & Rd0 & Pd & S1 & S2). fold d0 in Fd0, Rd0, S1, S2. rewrite <- Hd' in Fd, Pd, S1, S2.
  set (z := bR d0) in *. set (y := bR d) in *.
  pose proof (v_pos x Hx Hs) as VP. change (0 < vred r) in VP.
  assert (Z20 : p2 (-20) <= z). { replace (-19)%Z with (-20 + 1)%Z in Hd by lia. rewrite bpow_plus in Hd. change (bpow radix2 1) with 2 in Hd. pose proof (p2_pos (-20)). lra. }
  assert (Z0 : 0 < z) by (pose proof (p2_pos (-20)); lra).
  assert (ZY : z * vred r <= (1 + 1 / 9900000) * (y * vred r)) by (rewrite <- Rmult_assoc; apply Rmult_le_compat_r; lra).
  assert (YZ : y * vred r <= (1 + 1 / 9900000) * (z * vred r)) by (rewrite <- Rmult_assoc; apply Rmult_le_compat_r; lra).
  assert (PZ0 : 0 < z * vred r) by (apply Rmult_lt_0_compat; lra). assert (PY0 : 0 < y * vred r) by (apply Rmult_lt_0_compat; lra).
  assert (DZ : z * vred r <= 5 / 2) by lra.
  pose proof (gp_ap m A x T d0 Hx Hs HT (conj Fd0 Z20) DZ) as AP. pose proof (gq_ap m A x T d0 Hx Hs HT (conj Fd0 Z20) DZ) as AQ.
  change (fun i => bR (x i)) with r in AP, AQ. fold lB in AP, AQ. fold p in AP. fold q in AQ. fold z in AP, AQ.
  set (t := bR T) in *. set (tau := tred r / t) in *.
  destruct AP as (Fp & E1 & B1 & R1). destruct AQ as (Fq & E2 & B2 & R2).
  pose proof (gge x Hx tau (z * vred r) ltac:(lra)) as [SG SL]. pose proof (gge x Hx tau (y * vred r) ltac:(lra)) as [SYG SYL]. change (fun i => bR (x i)) with r in SG, SL, SYG, SYL.
  set (p0 := gpres New r t z) in *. set (q0 := gprop New PDpDd r t z) in *.
  set (sz := 1 + gerg_sum 1 r (z * vred r) tau) in *. set (sl := gerg_slope r (z * vred r) tau) in *. set (sy := gerg_slope r (y * vred r) tau) in *.
  assert (T0 : 32 <= t <= 2048) by apply HT. assert (PRg : Rg = 8314472 / 1000000) by reflexivity.
  assert (zt : 0 < z * Rg * t) by (apply Rmult_lt_0_compat; [apply Rmult_lt_0_compat|]; lra).
  assert (M1 : z * Rg * t * sz <= z * Rg * t * sl) by (apply Rmult_le_compat_l; lra).
  assert (M0 : 0 <= z * Rg * t * sz) by (exact (rng_ge0 _ _ _ R1)).
  assert (Q0 : 0 < Rg * t * sl) by (apply Rmult_lt_0_compat; [apply Rmult_lt_0_compat|]; lra).
  set (S0 := z * Rg * t * sl) in *. assert (S0p : 0 < S0) by (unfold S0; apply Rmult_lt_0_compat; lra).
  assert (E1' : Rabs (bR p - p0) <= 3 / 20000000000 * S0).
  { eapply Rle_trans; [exact E1|]. rewrite u64_val. lra. }
  assert (Pp : bR p <= (1 + 3 / 20000000000) * S0) by (apply Rabs_le_inv in E1', B1; lra).
  assert (Qq : bR q <= (1 + 3 / 20000000000) * (Rg * t * sl)) by (apply Rabs_le_inv in E2, B2; rewrite u64_val in E2; lra).
  assert (Pt : bR p <= p2 650).
  { pose proof (rng_le _ _ _ R1) as G. apply Rabs_le_inv in E1, B1. rewrite u64_val in E1. apply Rle_trans with (2 * p2 500); [lra|].
    replace (2 * p2 500) with (p2 501); [apply bpow_le; lia|]. replace 501%Z with (1 + 500)%Z by lia. rewrite bpow_plus. reflexivity. }
  assert (Qt : bR q <= p2 550).
  { pose proof (rng_le _ _ _ R2) as G. apply Rabs_le_inv in E2, B2. rewrite u64_val in E2. apply Rle_trans with (2 * p2 480); [lra|].
    replace (2 * p2 480) with (p2 481); [apply bpow_le; lia|]. replace 481%Z with (1 + 480)%Z by lia. rewrite bpow_plus. reflexivity. }
  pose proof (above p Fp Hp) as Pl. pose proof (above q Fq Hq) as Ql.
  rewrite Hw in Hc. destruct (accepted m A P p q d0 FP HP Fp (conj Pl Pt) Fq (conj Ql Qt) Fd0 Rd0 Hc) as (_ & _ & AC). fold z in AC.
  assert (PC : Rabs (gpres New r t y - p0) <= (1 + 1 / 9900000 - 1) * (1 + 1 / 1000) * S0).
  { exact (gclose x Hx Hs t (1 + 1 / 9900000) z y ltac:(lra) ltac:(lra) Z0 Pd S2 S1 DZ). }
  pose proof (gratio x Hx (1 + 1 / 9900000) tau (z * vred r) (y * vred r) ltac:(lra) ltac:(lra) ltac:(lra) ZY YZ ltac:(lra)) as SR. change (fun i => bR (x i)) with r in SR. fold sl sy in SR.
  apply (two_casesG (bR P) (bR p) p0 (gpres New r t y) S0 S); try lra.
  - pose proof (p2_pos (-50)). lra.
  - pose proof (p2_pos (-50)). lra.
  - eapply Rle_trans; [exact AC|]. assert (z * bR q <= (1 + 3 / 20000000000) * S0). { replace ((1 + 3 / 20000000000) * S0) with (z * ((1 + 3 / 20000000000) * (Rg * t * sl))) by (unfold S0; ring). apply Rmult_le_compat_l; lra. } lra.
  - unfold S0, S. fold sy.
    apply Rle_trans with ((1 + 1 / 9900000) * y * Rg * t * (kS * sy)).
    + apply Rmult_le_compat; [lra|lra| |exact SR]. apply Rmult_le_compat_r; [lra|]. apply Rmult_le_compat_r; lra.
    + assert (0 <= y * Rg * t * sy) by (repeat apply Rmult_le_pos; lra).
      replace ((1 + 1 / 9900000) * y * Rg * t * (kS * sy)) with ((1 + 1 / 9900000) * kS * (y * Rg * t * sy)) by ring. apply Rmult_le_compat_r; [exact H|unfold kS; lra].
Qed.
End Final.
Lemma sub_opp (v w : b64) : badd v (Bopp w) = bsub v w.
Proof. destruct v as [[]|[]| |[] ? ? ?], w as [[]|[]| |[] ? ? ?]; reflexivity. Qed.
Lemma gdensity_double : exists gv gt bt : nat -> nat -> R,
  (forall i j, (1 <= i <= j)%nat -> (j < 22)%nat ->
    near (gv i j) (v_red i j) /\ near (gt i j) (t_red i j) /\ near (bt i j) (b_red i j)) /\
  forall m, accurate m -> forall l i (s s' : @Gerg (ArithB64 m)) o, @gexec (ArithB64 m) New l = Some (s, o) ->
  separated (A := ArithB64 m) 1 (gasked (A := ArithB64 m) (l ++ [Density (A := ArithB64 m) i])) ->
  gstep (A := ArithB64 m) (Density i) s = Some (s', ODens (A := ArithB64 m) ROk) ->
  let r j := bR (nth j (g_x s) B0) in let T := gread (A := ArithB64 m) PT s in let P := gread (A := ArithB64 m) PP s in let d := gread (A := ArithB64 m) PD s' in
  (forall i, (1 <= i < 22)%nat -> fin (nth i (g_x s) B0) /\ (r i = 0 \/ bpow radix2 (-49) <= r i)) ->
  99 / 100 <= tot 21 (fun i => r (S i)) <= 101 / 100 -> fin T /\ 32 <= bR T <= 2048 -> fin P /\ bpow radix2 (-50) <= bR P ->
  bpow radix2 (-19) <= bR d -> bR d * red_volume r v_red <= 248 / 100 ->
  let S := bR d * Rg * bR T * gerg_slope r (bR d * red_volume r gv) (red_temp r gt bt / bR T) in
  Rabs (gpres New r (bR T) (bR d) - bR P) <= 31 / 100000000 * S \/ gpres New r (bR T) (bR d) <= 25 / 100000000 * S.
Proof.
  exists (tb2 G_GVIJ), (tb2 G_GTIJ), (tb2 G_BTIJ). split.
  { intros i j Hi Hj. split; [now apply v_std|]. split; [now apply t_std|now apply b_std]. }
  intros m A l i s s' o E HV ED r T P d Hx Hs HT HP Hd HD S. unfold S. rewrite vred_std, tred_std.
  destruct (@g_hinv (ArithB64 m) New l [Density (A := ArithB64 m) i] s o E HV) as (Hh & Hin & HL).
  specialize (Hin _ (or_introl eq_refl)). pose proof (HL _ _ Hin) as Lx.
  assert (Hr : @greach (ArithB64 m) s) by (exists New, l, o; exact E).
  destruct (@gdens_step (ArithB64 m) s i s' ROk Hr ED) as (nq & ng & _ & _ & SS).
  destruct (@gsearch_point (ArithB64 m) gp_new _ HV HL _ _ _ _ _ _ _ _ _ _ _ _ _ SS eq_refl (@hinv_set_gd (ArithB64 m) gp_new _ (@gguess (ArithB64 m) i s) s Hh) Hin)
    as (v0 & w & Hv & Hq & Hp & Hw & Hc & Hd'). cbv zeta beta in *.
  change (g_x (set_g_d (@gguess (ArithB64 m) i s) s)) with (g_x s) in *. change (g_t (set_g_d (@gguess (ArithB64 m) i s) s)) with T in *.
  change (GergModel.g_p s) with P in *. change (g_d s') with d in Hd'.
  set (xs := fun j => nth j (g_x s) B0) in *. assert (X22 : g_x s = map xs (seq 0 22)) by (symmetry; apply nth22, Lx).
  rewrite X22 in Hp, Hq, Hw, Hv. clear SS Hin Hh HL HV E Hr ED.
  assert (HR : fin v0 /\ -7 <= bR v0 <= 100).
  { destruct Hv as [Hv|Hv]; [exact (v_range v0 Hv)|exact (rstart_rng m A xs Hx Hs v0 Hv)]. }
  destruct HR as [Fv Rv].
  assert (HD' : bR d * vred r <= 249 / 100).
  { assert (0 <= bR d) as D0 by (eapply Rle_trans; [apply Rlt_le, bpow_gt_0|exact Hd]).
    pose proof (vred_le r (rg_ge0 xs Hx)) as G. apply Rmult_le_compat_l with (1 := D0) in G. lra. }
  assert (Hd2 : d = lm_exp m (Bopp (bsub v0 w))) by (rewrite <- sub_opp; exact Hd'). clear Hd'. rename Hd2 into Hd'.
  exact (gdens_core m A xs T P v0 w d Hx Hs HT HP Fv Rv Hq Hp Hw Hc Hd' Hd HD').
Qed.
