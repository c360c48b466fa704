(* density() in double precision succeeds where the gas is nearly ideal (GERG-2008). *)
From Coq Require Import Reals ZArith List Bool Lra Lia Psatz.
From Coquelicot Require Import Coquelicot.
From Flocq Require Import Core BinarySingleNaN.
From Interval Require Import Tactic.
From Verif Require Import FArith Prelude Tab ArithB64 B64Lemmas ArithR RSum SpecDetail SpecGerg SpecIdeal SpecTables StdGerg SpecStd SpecAcc SpecAccG SpecAll SpecAllF SpecSlopeG SpecConv SpecHistory SpecGeneric DetailModel DetailPure GergTables GergModel GergPure GergRefine GergEval Api ApiSafe BasicProofs DensityProofs HistoryGerg SpecReal Thermo DetailReal DetailThermo GergReal GergIdeal GergThermo
  DetailEos GergEos GenericLemmas Drift StdDetailProof StdGergProof Newton NewtonReal ConvDetail ConvGerg SlopeReal GSlope B64Err AccFold AccMix AccEos AccProof GAccRed GAccTerms GAccEos GAccSize GAccProof AccSlope GAllCoef GAllTerms GAllSize GAllIdeal GAllIdeal2 GAllProps GAllFin GAllMain AccDens AccDensProof GDens Converge ConvergeEps ConvReal ConvDouble ConvFin GDensProof.
Import ListNotations.
Local Open Scope R_scope.
Local Existing Instance gp_new.

Lemma fair_last18 (p q : R -> R) P d0 (Hd0 : 0 < d0) (H : forall d, d0 / 3 <= d <= 3 * d0 -> 0 < p d /\ 5 / 6 * p d <= d * q d <= 7 / 6 * p d) v :
  fair p P d0 18 v -> Rabs (step p q P v) <= 7 / 100000000.
Proof.
  intros G. destruct (step_size p q P d0 Hd0 H v (fair_near p P d0 18 v ltac:(lia) G)) as [_ S]. destruct G as [_ G].
  assert (406 / 1000 * (2 / 5) ^ 18 < 28 / 1000000000) by (cbn [pow]; lra). lra.
Qed.
Section U.
Variable m : Libm.
Hypothesis A : accurate m.
Section D.
Local Notation B := (ArithB64 m).
Variables (x : nat -> b64) (t P : b64) (d0 : R).
Let r i := bR (x i).
Hypothesis Hx : forall i, (1 <= i < 22)%nat -> fin (x i) /\ (r i = 0 \/ p2 (-49) <= r i).
Hypothesis Hs : 99 / 100 <= tot 21 (fun i => r (S i)) <= 101 / 100.
Hypothesis HT : fin t /\ 32 <= bR t <= 2048.
Hypothesis FP : fin P. Hypothesis HP : p2 (-49) <= bR P.
Hypothesis Hd0 : p2 (-18) <= d0 <= 300.
Hypothesis HD : 3 * d0 * vred r <= 5 / 2.
Variables p q : R -> R.
Hypothesis Hpe : p = gpres New r (bR t). Hypothesis Hqe : q = gprop New PDpDd r (bR t).
Hypothesis NI : nearly_ideal p d0 (bR P).
Hypothesis HS : forall d, d0 / 3 <= d <= 3 * d0 -> d * Rg * bR t * gerg_slope r (d * vred r) (tred r / bR t) <= 10 * p d.
Let lB d := @can_terms B gp_new (map x (seq 0 22)) t d.
Lemma gd0_pos : 0 < d0. Proof. pose proof (p2_pos (-18)). lra. Qed.
Lemma gp_D d : 0 < d -> is_derive p d (q d).
Proof.
  rewrite Hpe, Hqe. intros _. destruct (some x Hs) as (i & Hi & Hb). apply (gerg_pressure_derive New r ltac:(exists i; split; [lia|exact Hb]) (bR t) d). lra.
Qed.
Lemma H : forall d, d0 / 3 <= d <= 3 * d0 -> 0 < p d /\ 5 / 6 * p d <= d * q d <= 7 / 6 * p d.
Proof. intros d Hd. pose proof gd0_pos. rewrite <- (is_derive_unique _ _ _ (gp_D d ltac:(lra))). now apply (proj2 NI). Qed.
Let H0 := proj1 NI.
Lemma gPP0 : 0 < bR P. Proof. pose proof (p2_pos (-49)). lra. Qed.
Let stp u := step p q (bR P) u.
(* one evaluation and one step *)
Lemma geval v : fin v -> -9 <= bR v <= 102 -> Rabs (uof m v - - ln d0) <= 1 -> Rabs (fN p (ln (bR P)) (uof m v)) <= 41 / 100 ->
  let d := lm_exp m (Bopp v) in let w := wN m P (@gpp B (lB d) t d) (@gpdpdd B (lB d) t) d in
  @DetailModel.vlog_ok B v = true /\ Bltb (@gpdpdd B (lB d) t) (blit (L 1 (-15))) = false /\ Bltb (@gpp B (lB d) t d) (blit (L 1 (-15))) = false /\
  fin w /\ Rabs (bR w - stp (uof m v)) <= 9 / 1000000000 /\
  fin (bsub v w) /\ -9 <= bR (bsub v w) <= 102 /\ Rabs (uof m (bsub v w) - (uof m v - stp (uof m v)))  <= 1 / 100000000 /\ Bltb (@gpdpdd B (lB d) t) B0 = false.
Proof.
  intros Fv Rv Nu Fu d w. destruct (uof_ok m A v Fv Rv) as (Fd & Ld & Ud). fold d in Fd, Ld. set (u := uof m v) in *. set (z := bR d) in *.
  assert (z0 : 0 < z) by (pose proof (p2_pos (-200)); lra). assert (Ez : exp (- u) = z) by (unfold u, uof; fold d z; rewrite Ropp_involutive; apply exp_ln, z0).
  pose proof gd0_pos as dp. pose proof (near_d d0 dp u Nu) as Nz. rewrite Ez in Nz.
  assert (L0 : -125 / 10 <= ln d0 <= 571 / 100).
  { split.
    - apply Rle_trans with (ln (p2 (-18))); [change (p2 (-18)) with (/ 262144); interval|apply ln_mono; [apply p2_pos|lra]].
    - apply Rle_trans with (ln 300); [apply ln_mono; lra|interval]. }
  apply Rabs_le_inv in Nu as Nu'. apply Rabs_le_inv in Ud as Ud'.
  assert (Z20 : p2 (-20) <= z). { assert (p2 (-20) = p2 (-18) / 4) by (change (p2 (-20)) with (/ 1048576); change (p2 (-18)) with (/ 262144); lra). pose proof (p2_pos (-18)). lra. }
  pose proof (v_pos x Hx Hs) as VP. change (0 < vred r) in VP.
  assert (DZ : z * vred r <= 5 / 2) by (apply Rle_trans with (3 * d0 * vred r); [apply Rmult_le_compat_r; lra|exact HD]).
  set (tt := bR t) in *. assert (T0 : 32 <= tt <= 2048) by apply HT.
  set (ph := @gpp B (lB d) t d) in *. set (qh := @gpdpdd B (lB d) t) in *.
  assert (AP : ap 790920 (-20) 500 ph (p z) (z * Rg * tt * (1 + gerg_sum 1 r (z * vred r) (tred r / tt)))) by (rewrite Hpe; exact (gp_ap m A x t d Hx Hs HT (conj Fd Z20) DZ)).
  assert (AQ : ap 790910 0 480 qh (q z) (Rg * tt * gerg_slope r (z * vred r) (tred r / tt))) by (rewrite Hqe; exact (gq_ap m A x t d Hx Hs HT (conj Fd Z20) DZ)).
  destruct AP as (Fp & E1 & B1 & R1). destruct AQ as (Fq & E2 & B2 & R2).
  assert (z0v : 0 < z * vred r) by (apply Rmult_lt_0_compat; lra).
  pose proof (gge x Hx (tred r / tt) (z * vred r) ltac:(lra)) as SLG. change (fun i => bR (x i)) with r in SLG. destruct SLG as [SG SL].
  pose proof (HS z Nz) as HSz. fold tt in HSz.
  destruct (H z Nz) as [Hp Hq].
  set (sz := 1 + gerg_sum 1 r (z * vred r) (tred r / tt)) in *. set (sl := gerg_slope r (z * vred r) (tred r / tt)) in *. set (pz := p z) in *. set (qz := q z) in *.
  assert (PRg : Rg = 8314472 / 1000000) by reflexivity.
  assert (zt : 0 < z * Rg * tt) by (apply Rmult_lt_0_compat; [apply Rmult_lt_0_compat|]; lra).
  assert (M1 : z * Rg * tt * sz <= z * Rg * tt * sl) by (apply Rmult_le_compat_l; lra).
  assert (M0 : 0 <= z * Rg * tt * sz) by (exact (rng_ge0 _ _ _ R1)).
  assert (M2 : z * Rg * tt * 1 <= z * Rg * tt * sl) by (apply Rmult_le_compat_l; lra).
  assert (P15 : Rabs (bR ph - pz) <= 15 / 10000000000 * pz). { eapply Rle_trans; [exact E1|]. rewrite u64_val. lra. }
  assert (qz0 : 0 < qz) by (apply (Rmult_lt_reg_l z); lra).
  assert (Q15 : Rabs (bR qh - qz) <= 18 / 10000000000 * qz).
  { apply (Rmult_le_reg_l z); [exact z0|]. apply Rle_trans with (z * (IZR 790910 * u64 * (Rg * tt * sl))); [apply Rmult_le_compat_l; [lra|exact E2]|].
    replace (z * (IZR 790910 * u64 * (Rg * tt * sl))) with (IZR 790910 * u64 * (z * Rg * tt * sl)) by ring. rewrite u64_val. lra. }
  assert (pl : p2 (-20) <= pz).
  { assert (p2 (-20) * (8 * 32) <= z * Rg * tt) by (rewrite Rmult_assoc; apply Rmult_le_compat; try lra; [apply Rlt_le, p2_pos|apply Rmult_le_compat; lra]). pose proof (p2_pos (-20)). lra. }
  assert (ql : 1 <= qz).
  { apply (Rmult_le_reg_l z); [exact z0|]. assert (z * (8 * 32) <= z * Rg * tt) by (rewrite (Rmult_assoc z); apply Rmult_le_compat_l; [lra|]; apply Rmult_le_compat; lra). lra. }
  apply Rabs_le_inv in P15 as P15'. apply Rabs_le_inv in Q15 as Q15'.
  assert (Pl : p2 (-49) <= bR ph).
  { assert (p2 (-49) <= p2 (-20) / 2); [|pose proof (p2_pos (-20)); lra]. change (p2 (-20) / 2) with (p2 (-20) * / 2). change (/ 2) with (p2 (-1)). rewrite <- bpow_plus. apply bpow_le. lia. }
  assert (Ql : 1 / 2 <= bR qh) by lra.
  assert (Pt : bR ph <= p2 650).
  { pose proof (rng_le _ _ _ R1) as G. apply Rabs_le_inv in B1. apply Rle_trans with (2 * p2 500); [lra|].
    replace (2 * p2 500) with (p2 501); [apply bpow_le; lia|]. replace 501%Z with (1 + 500)%Z by lia. rewrite bpow_plus. reflexivity. }
  assert (Qt : bR qh <= p2 550).
  { pose proof (rng_le _ _ _ R2) as G. apply Rabs_le_inv in B2. apply Rle_trans with (2 * p2 480); [lra|].
    replace (2 * p2 480) with (p2 481); [apply bpow_le; lia|]. replace 481%Z with (1 + 480)%Z by lia. rewrite bpow_plus. reflexivity. }
  pose proof eps_R as [Fe _]. pose proof eps_top as Te.
  assert (P49 : p2 (-50) <= p2 (-49)) by (apply bpow_le; lia). assert (P49' : p2 (-49) <= 1 / 2) by (change (1 / 2) with (1 * p2 (-1)); rewrite Rmult_1_l; apply bpow_le; lia).
  split; [apply (vok m); [exact Fv|lra]|]. split; [apply below; [exact Fq|exact Fe|lra]|]. split; [apply below; [exact Fp|exact Fe|lra]|].
  pose proof (w_ap m A P ph qh d FP ltac:(lra) Fp (conj (Rle_trans _ _ _ P49 Pl) Pt) Fq ltac:(lra) Fd) as WA.
  specialize (WA ltac:(fold z; split; [lra|]; change (p2 12) with 4096; lra)). fold w z in WA.
  destruct WA as (Fw & Ew & _ & _). split; [exact Fw|].
  pose proof gPP0 as P0.
  (* the step *)
  set (LL := fN p (ln (bR P)) u) in *.
  assert (EL : LL = ln pz - ln (bR P)) by (unfold LL, fN; rewrite Ez; reflexivity).
  assert (ES0 : stp u = (ln pz - ln (bR P)) * pz / (- z * qz)) by (unfold stp, step; rewrite Ez; reflexivity).
  set (SU := stp u) in *. clearbody pz qz LL ph qh SU.
  set (a := bR ph / pz - 1). set (b := bR qh / qz - 1). set (g := pz / (z * qz)).
  assert (Ha : Rabs a <= 16 / 10000000000).
  { replace a with ((bR ph - pz) / pz) by (unfold a; field; lra). unfold Rdiv. rewrite Rabs_mult, (Rabs_pos_eq (/ pz)) by (apply Rlt_le, Rinv_0_lt_compat, Hp).
    apply (Rmult_le_reg_r pz); [exact Hp|]. rewrite Rmult_assoc, Rinv_l by lra. lra. }
  assert (Hb : Rabs b <= 19 / 10000000000).
  { replace b with ((bR qh - qz) / qz) by (unfold b; field; lra). unfold Rdiv. rewrite Rabs_mult, (Rabs_pos_eq (/ qz)) by (apply Rlt_le, Rinv_0_lt_compat, qz0).
    apply (Rmult_le_reg_r qz); [exact qz0|]. rewrite Rmult_assoc, Rinv_l by lra. lra. }
  assert (Hl : Rabs (ln (bR ph) - ln pz) <= 17 / 10000000000).
  { eapply Rle_trans; [apply (ln_rel _ _ (15 / 10000000000)); [exact Hp|lra|exact P15]|]. lra. }
  assert (zq : 0 < z * qz) by (apply Rmult_lt_0_compat; lra).
  assert (Hg : 0 < g <= 6 / 5).
  { unfold g. split; [apply Rdiv_lt_0_compat; lra|]. apply (Rmult_le_reg_r (z * qz)); [exact zq|]. unfold Rdiv. rewrite Rmult_assoc, Rinv_l by lra. lra. }
  assert (qh0 : 0 < bR qh) by lra. assert (ph0 : 0 < bR ph) by lra.
  pose proof (step_pert LL (ln (bR ph) - ln pz) g a b Fu Hl Hg Ha Hb) as SP.
  set (C := (ln (bR ph) - ln (bR P)) * bR ph / (z * bR qh)) in *.
  assert (EC : (LL + (ln (bR ph) - ln pz)) * (g * (1 + a) / (1 + b)) = C) by (rewrite EL; unfold C, g, a, b; field; lra).
  assert (ES : SU = - (LL * g)) by (rewrite ES0, EL; unfold g; field; lra).
  rewrite EC in SP.
  assert (WC : Rabs (bR w - - C) <= 1 / 1000000000).
  { eapply Rle_trans; [exact Ew|]. apply Rle_trans with (IZR 19 * u64 * (2048 * 2)); [|rewrite u64_val; lra].
    apply Rmult_le_compat_l; [rewrite u64_val; lra|]. unfold Rdiv. rewrite Rmult_assoc.
    pose proof (ln_top ph ltac:(lra)). pose proof (ln_top P ltac:(lra)).
    assert (G2 : bR ph * / (z * bR qh) <= 2).
    { apply (Rmult_le_reg_r (z * bR qh)); [apply Rmult_lt_0_compat; lra|]. rewrite Rmult_assoc, Rinv_l by (apply Rgt_not_eq, Rmult_lt_0_compat; lra).
      assert (z * (qz * (1 - 18 / 10000000000)) <= z * bR qh) by (apply Rmult_le_compat_l; lra). lra. }
    pose proof (Rabs_pos (ln (bR ph))). pose proof (Rabs_pos (ln (bR P))).
    apply Rmult_le_compat; [lra| |lra|exact G2]. apply Rmult_le_pos; [lra|]. apply Rlt_le, Rinv_0_lt_compat, Rmult_lt_0_compat; lra. }
  assert (WS : Rabs (bR w - SU) <= 9 / 1000000000). { rewrite ES. apply Rabs_le_inv in WC, SP. apply Rabs_le. lra. }
  split; [exact WS|].
  assert (SB : Rabs SU <= 1 / 2).
  { rewrite ES, Rabs_Ropp, Rabs_mult, (Rabs_pos_eq g) by lra. pose proof (Rabs_pos LL). apply Rle_trans with (41 / 100 * (6 / 5)); [|lra]. apply Rmult_le_compat; lra. }
  apply Rabs_le_inv in WS as WS'. apply Rabs_le_inv in SB as SB'.
  destruct (sub_near v w Fv Fw ltac:(apply Rabs_le; lra) ltac:(apply Rabs_le; lra)) as [Fs Es]. apply Rabs_le_inv in Es as Es'.
  split; [exact Fs|]. assert (Rs : -9 <= bR (bsub v w) <= 102) by lra. split; [exact Rs|].
  destruct (uof_ok m A (bsub v w) Fs Rs) as (_ & _ & Us). apply Rabs_le_inv in Us. split; [apply Rabs_le; lra|].
  rewrite lt_fin; [|exact Fq|reflexivity]. change (bR B0) with 0. apply Rlt_bool_false. lra.
Qed.


Variable V : list (list (@F B) * (@F B)).
Hypothesis HV : @separated B 1 V.
Hypothesis HL : forall (x : list (@F B)) (t : @F B), In (x, t) V -> length x = 22%nat.
Hypothesis Hin : In (map x (seq 0 22), t) V.
Variables (i : Z) (dcx : @F B).
Hypothesis Hi : (i <= 0)%Z.
Lemma gb_loop k j : forall n v (s : @Gerg B), (n + j = 18)%nat -> fin v -> -9 <= bR v <= 102 -> fair p (bR P) d0 n (uof m v) -> @HistoryGerg.hinv B gp_new V s ->
  g_x s = map x (seq 0 22) -> g_t s = t ->
  exists s' n' v', @gdensity_loop B (S j + k) i dcx (lm_ln m P) (S n) 0 false v s = Some (s', ROk) /\ (n' < 20)%nat /\ fair p (bR P) d0 n' v' /\ Rabs (stp v') <= 12 / 100000000 /\
    fin (g_d s') /\ 0 < bR (g_d s') /\ Rabs (- ln (bR (g_d s')) - (v' - stp v')) <= 1 / 100000000 /\ gframe (A := B) [PD; PZ] s s'.
Proof.
  pose proof gd0_pos as dp. pose proof gPP0 as P0.
  induction j as [|j IH]; intros n v s En Fv Rv G Hh Ex Et.
  all: pose proof (fair_near p (bR P) d0 n (uof m v) ltac:(lia) G) as Nu; pose proof (fair_f p (bR P) d0 n (uof m v) ltac:(lia) G) as Fu.
  all: destruct (geval v Fv Rv Nu Fu) as (V1 & T2 & T1 & Fw & Ew & Fs & Rs & Us & T3).
  all: cbn [Nat.add]; rewrite (@gdensity_loop_it B) by (exact V1 || lia).
  all: change (@fexp B (@fneg B v)) with (lm_exp m (Bopp v)); set (d := lm_exp m (Bopp v)) in *.
  all: destruct (@HistoryGerg.press_hist B gp_new V HV HL (@set_g_d B d s) (@hinv_set_gd B gp_new V d s Hh)) as (s2 & E2 & Hh2 & Hf & Hc & Ed);
     [cbn; change (In (g_x s, g_t s) V); rewrite Ex, Et; exact Hin|].
  all: change (g_x (@set_g_d B d s)) with (g_x s) in *; change (g_t (@set_g_d B d s)) with (g_t s) in *;
    change (g_d (@set_g_d B d s)) with d in *; rewrite Ex, Et in E2, Ed.
  all: assert (Edd : g_d s2 = d) by (apply (proj2 Hf PD); intros [|[]]; discriminate).
  all: assert (Ex2 : g_x s2 = map x (seq 0 22)) by (rewrite (proj1 Hf); exact Ex).
  all: assert (Et2 : g_t s2 = t) by (rewrite <- Et; apply (proj2 Hf PT); intros [|[]]; discriminate).
  all: assert (Fr : gframe (A := B) [PD; PZ] s s2) by (eapply gframe_trans; [apply (@gframe_set_d B d s); now left|];
     eapply gframe_incl; [|exact Hf]; intros ? [<-|[]]; right; now left).
  all: rewrite E2; cbn [bind]; rewrite Ed, Edd; fold (lB d).
  all: match goal with |- context [(@flt B ?a ?b || @flt B ?c ?e)%bool] => change (@flt B a b) with (Bltb (@gpdpdd B (lB d) t) (blit (L 1 (-15)))); change (@flt B c e) with (Bltb (@gpp B (lB d) t d) (blit (L 1 (-15)))) end; rewrite T1, T2; cbn [orb]; cbv zeta.
  all: match goal with |- context [@fabs B ?w] => change w with (wN m P (@gpp B (lB d) t d) (@gpdpdd B (lB d) t) d) end.
  all: set (w := wN m P (@gpp B (lB d) t d) (@gpdpdd B (lB d) t) d) in *.
  all: match goal with |- context [@flt B (@fabs B ?a) ?b] => change (@flt B (@fabs B a) b) with (Bltb (Babs w) (blit (L 1 (-7)))) end.
  all: match goal with |- context [@flt B ?a (@f0 B)] => change (@flt B a (@f0 B)) with (Bltb (@gpdpdd B (lB d) t) B0) end; rewrite T3.
  all: assert (Ev : @fadd B v (@fneg B w) = bsub v w) by exact (sub_opp v w); rewrite Ev.
  all: destruct (Z.ltb_spec 0 i) as [Ci|Ci]; [lia|].
  all: destruct tol_R as [L1 L2]; pose proof tol_low as L3; rewrite (abs_lt w (L 1 (-7)) Fw L1).
  all: apply Rabs_le_inv in Ew.
  all: destruct (uof_ok m A (bsub v w) Fs Rs) as (Fe & Le & _).
  - replace n with 18%nat in G by lia. pose proof (fair_last18 p q (bR P) d0 dp H (uof m v) G) as LS. change (step p q (bR P) (uof m v)) with (stp (uof m v)) in LS.
    apply Rabs_le_inv in LS. rewrite Rlt_bool_true by (apply Rle_lt_trans with (8 / 100000000); [apply Rabs_le|]; lra).
    do 3 eexists. split; [reflexivity|]. split; [|split; [exact G|]]; [lia|]. split; [apply Rabs_le; lra|].
    change (g_d (set_g_d (@fexp B (@fneg B (bsub v w))) s2)) with (lm_exp m (Bopp (bsub v w))).
    split; [exact Fe|]. split; [pose proof (p2_pos (-200)); lra|]. split; [exact Us|]. eapply gframe_trans; [exact Fr|apply (@gframe_set_d B); now left].
  - destruct (Rlt_bool_spec (Rabs (bR w)) (bR (blit (L 1 (-7))))) as [LS|LS].
    + do 3 eexists. split; [reflexivity|]. split; [|split; [exact G|]]; [lia|]. split.
      { assert (Rabs (bR w) <= 11 / 100000000) as Q by lra. apply Rabs_le_inv in Q. apply Rabs_le. lra. }
      change (g_d (set_g_d (@fexp B (@fneg B (bsub v w))) s2)) with (lm_exp m (Bopp (bsub v w))).
      split; [exact Fe|]. split; [pose proof (p2_pos (-200)); lra|]. split; [exact Us|]. eapply gframe_trans; [exact Fr|apply (@gframe_set_d B); now left].
    + destruct (fair_next p q (bR P) d0 dp gp_D H n (uof m v) (uof m (bsub v w)) ltac:(lia) G Us) as [G' _].
      destruct (IH (S n) (bsub v w) s2 ltac:(lia) Fs Rs G' Hh2 Ex2 Et2) as (s' & n' & v' & E & N' & A1 & A2 & A3 & A4 & A5 & F').
      exists s', n', v'. split; [exact E|]. split; [exact N'|]. split; [exact A1|]. split; [exact A2|]. split; [exact A3|]. split; [exact A4|]. split; [exact A5|]. eapply gframe_trans; [exact Fr|exact F'].
Qed.
End D.
End U.
