(* density() in double precision succeeds where the gas is moderately close to ideal (DETAIL); as ConvDouble, with the
   narrower region of Tight. *)
From Coq Require Import Reals ZArith List Bool Lra Lia Psatz.
From Coquelicot Require Import Coquelicot.
From Flocq Require Import Core BinarySingleNaN.
From Interval Require Import Tactic.
From Verif Require Import FArith Prelude Tab ArithB64 B64Lemmas ArithR RSum SpecDetail SpecStd SpecAcc SpecSlope SpecConv SpecHistory SpecGeneric DetailTables DetailModel DetailPure DetailRefine DetailEval
  DetailEos Api ApiSafe BasicProofs DensityProofs GenericLemmas HistoryDetail Newton NewtonReal DetailThermo Drift StdDetailProof B64Err AccFold AccMix AccMix2 AccMix3 AccMix4 AccEos AccProof AccSlope AccSlopeProof ConvDetail SlopeReal AccDens AccDensProof Converge ConvergeEps ConvDouble SpecMed Tight.
Import ListNotations.
Local Open Scope R_scope.

Section U.
Variable m : Libm.
Hypothesis A : accurate m.
Local Notation uof := (uof m).
Local Notation RR := (831451 / 100000).
Section D.
Local Notation B := (ArithB64 m).
Variables (x : nat -> b64) (t P : b64) (d0 : R).
Let r i := bR (x i).
Hypothesis Hx : forall i, (i < 21)%nat -> fin (x i) /\ (r i = 0 \/ p2 (-50) <= r i).
Hypothesis Hs : 99 / 100 <= tot 21 r <= 101 / 100.
Hypothesis HT : fin t /\ 32 <= bR t <= 2048.
Hypothesis FP : fin P. Hypothesis HP : p2 (-49) <= bR P.
Hypothesis Hd0 : p2 (-18) <= d0 <= 300.
Hypothesis HD : detail_D r (3 * d0) <= 3.
Let p := detail_p r (bR t).
Let q := Derive p.
Hypothesis NI : medium_ideal p d0 (bR P).
Hypothesis HS : forall d, 8 / 11 * d0 <= d <= 11 / 8 * d0 -> d * RR * bR t * slope_size r (bR t) d <= 10 * p d.
Let K := @cache_of B dp_new (Some (map x (seq 0 21))) (Some t).
Lemma d0_pos : 0 < d0. Proof. pose proof (p2_pos (-18)). lra. Qed.
Lemma p_D d : 0 < d -> is_derive p d (q d).
Proof. intros H. apply Derive_correct. eexists. apply p_derive, H. Qed.
Let H := proj2 NI.
Let H0 := proj1 NI.
Lemma PP0 : 0 < bR P. Proof. pose proof (p2_pos (-49)). lra. Qed.
Let stp u := step p q (bR P) u.
(* one evaluation and one step *)
Lemma eval v : fin v -> -9 <= bR v <= 102 -> Rabs (uof v - - ln d0) <= 31 / 100 -> Rabs (fN p (ln (bR P)) (uof v)) <= 15 / 100 ->
  let d := lm_exp m (Bopp v) in let w := wN m P (@pp B K t d) (@pdpdd B K t d) d in
  @vlog_ok B v = true /\ Bltb (@pdpdd B K t d) (blit (L 1 (-15))) = false /\ Bltb (@pp B K t d) (blit (L 1 (-15))) = false /\
  fin w /\ Rabs (bR w - stp (uof v)) <= 9 / 1000000000 /\
  fin (bsub v w) /\ -9 <= bR (bsub v w) <= 102 /\ Rabs (uof (bsub v w) - (uof v - stp (uof v))) <= 1 / 100000000.
Proof.
  intros Fv Rv Nu Fu d w. destruct (uof_ok m A v Fv Rv) as (Fd & Ld & Ud). fold d in Fd, Ld. set (u := uof v) in *. set (z := bR d) in *.
  assert (z0 : 0 < z) by (pose proof (p2_pos (-200)); lra). assert (Ez : exp (- u) = z) by (unfold u, ConvDouble.uof; fold d z; rewrite Ropp_involutive; apply exp_ln, z0).
  pose proof d0_pos as dp. pose proof (t_near_d d0 dp u Nu) as Nz. rewrite Ez in Nz.
  assert (L0 : -125 / 10 <= ln d0 <= 571 / 100).
  { split.
    - apply Rle_trans with (ln (p2 (-18))); [change (p2 (-18)) with (/ 262144); interval|apply ln_mono; [apply p2_pos|lra]].
    - apply Rle_trans with (ln 300); [apply ln_mono; lra|interval]. }
  apply Rabs_le_inv in Nu as Nu'. apply Rabs_le_inv in Ud as Ud'.
  assert (Z20 : p2 (-20) <= z). { assert (p2 (-20) = p2 (-18) / 4) by (change (p2 (-20)) with (/ 1048576); change (p2 (-18)) with (/ 262144); lra). pose proof (p2_pos (-18)). lra. }
  assert (DZ : detail_D r z <= 3).
  { unfold detail_D in *. set (kap := Rpower (sizeK5 r) (1 / 5) ^ 3) in *. assert (0 < kap) by apply (kap_pos r). nra. }
  set (tt := bR t) in *. assert (T0 : 32 <= tt <= 2048) by apply HT.
  set (ph := @pp B K t d) in *. set (qh := @pdpdd B K t d) in *.
  assert (AP : ap 1202380 (-20) 600 ph (detail_p r tt z) (z * RR * tt * detail_size r tt z)) by exact (press_ap m A x t d Hx Hs HT (conj Fd (or_intror Z20)) DZ).
  pose proof (slope_derive m x t d z0) as SD. fold r z tt in SD.
  assert (AQ : ap 1210660 8 500 qh (q z) (RR * tt * slope_size r tt z)).
  { unfold q, p. fold tt. rewrite (is_derive_unique _ _ _ SD). exact (slope_ap m A x t d Hx Hs HT (conj Fd (or_intror Z20)) DZ). }
  destruct AP as (Fp & E1 & B1 & R1). destruct AQ as (Fq & E2 & B2 & R2).
  pose proof (size_le_slope r tt z ltac:(lra)) as SL. pose proof (slope_ge1 r tt z ltac:(lra)) as SG. pose proof (HS z Nz) as HSz. fold tt in HSz.
  destruct (H z Nz) as [Hp Hq]. fold q in Hq.
  change (detail_p r tt z) with (p z) in *. set (sz := detail_size r tt z) in *. set (sl := slope_size r tt z) in *. set (pz := p z) in *. set (qz := q z) in *.
  assert (zt : 0 < z * RR * tt) by (apply Rmult_lt_0_compat; lra).
  assert (M1 : z * RR * tt * sz <= z * RR * tt * sl) by (apply Rmult_le_compat_l; lra).
  assert (M0 : 0 <= z * RR * tt * sz) by (exact (rng_ge0 _ _ _ R1)).
  assert (M2 : z * RR * tt * 1 <= z * RR * tt * sl) by (apply Rmult_le_compat_l; lra).
  assert (P15 : Rabs (bR ph - pz) <= 15 / 10000000000 * pz). { eapply Rle_trans; [exact E1|]. rewrite u64_val. lra. }
  assert (qz0 : 0 < qz) by (apply (Rmult_lt_reg_l z); lra).
  assert (Q15 : Rabs (bR qh - qz) <= 18 / 10000000000 * qz).
  { apply (Rmult_le_reg_l z); [exact z0|]. apply Rle_trans with (z * (IZR 1210660 * u64 * (RR * tt * sl))); [apply Rmult_le_compat_l; [lra|exact E2]|].
    replace (z * (IZR 1210660 * u64 * (RR * tt * sl))) with (IZR 1210660 * u64 * (z * RR * tt * sl)) by ring. rewrite u64_val. lra. }
  assert (pl : p2 (-20) <= pz).
  { assert (p2 (-20) * (RR * 32) <= z * RR * tt) by (rewrite Rmult_assoc; apply Rmult_le_compat; try lra; apply Rlt_le, p2_pos). pose proof (p2_pos (-20)). lra. }
  assert (ql : 1 <= qz).
  { apply (Rmult_le_reg_l z); [exact z0|]. assert (RR * 32 * z <= z * RR * tt) by (replace (RR * 32 * z) with (z * RR * 32) by ring; apply Rmult_le_compat_l; lra). lra. }
  apply Rabs_le_inv in P15 as P15'. apply Rabs_le_inv in Q15 as Q15'.
  assert (Pl : p2 (-49) <= bR ph).
  { assert (p2 (-49) <= p2 (-20) / 2); [|pose proof (p2_pos (-20)); lra]. change (p2 (-20) / 2) with (p2 (-20) * / 2). change (/ 2) with (p2 (-1)). rewrite <- bpow_plus. apply bpow_le. lia. }
  assert (Ql : 1 / 2 <= bR qh) by lra.
  assert (Pt : bR ph <= p2 650).
  { pose proof (rng_le _ _ _ R1) as G. apply Rabs_le_inv in B1. apply Rle_trans with (2 * p2 600); [lra|].
    replace (2 * p2 600) with (p2 601); [apply bpow_le; lia|]. replace 601%Z with (1 + 600)%Z by lia. rewrite bpow_plus. reflexivity. }
  assert (Qt : bR qh <= p2 550).
  { pose proof (rng_le _ _ _ R2) as G. apply Rabs_le_inv in B2. apply Rle_trans with (2 * p2 500); [lra|].
    replace (2 * p2 500) with (p2 501); [apply bpow_le; lia|]. replace 501%Z with (1 + 500)%Z by lia. rewrite bpow_plus. reflexivity. }
  pose proof eps_R as [Fe _]. pose proof eps_top as Te.
  assert (P49 : p2 (-50) <= p2 (-49)) by (apply bpow_le; lia). assert (P49' : p2 (-49) <= 1 / 2) by (change (1 / 2) with (1 * p2 (-1)); rewrite Rmult_1_l; apply bpow_le; lia).
  split; [apply (vok m); [exact Fv|lra]|]. split; [apply below; [exact Fq|exact Fe|lra]|]. split; [apply below; [exact Fp|exact Fe|lra]|].
  pose proof (w_ap m A P ph qh d FP ltac:(lra) Fp (conj (Rle_trans _ _ _ P49 Pl) Pt) Fq ltac:(lra) Fd) as WA.
  specialize (WA ltac:(fold z; split; [lra|]; change (p2 12) with 4096; lra)). fold w z in WA.
  destruct WA as (Fw & Ew & _ & _). split; [exact Fw|].
  pose proof PP0 as P0.
  (* the step *)
  set (a := bR ph / pz - 1). set (b := bR qh / qz - 1). set (g := pz / (z * qz)). set (LL := fN p (ln (bR P)) u) in *.
  assert (EL : LL = ln pz - ln (bR P)) by (unfold LL, fN; rewrite Ez; reflexivity).
  assert (Ha : Rabs a <= 16 / 10000000000).
  { replace a with ((bR ph - pz) / pz) by (unfold a; field; lra). unfold Rdiv. rewrite Rabs_mult, (Rabs_pos_eq (/ pz)) by (apply Rlt_le, Rinv_0_lt_compat, Hp).
    apply (Rmult_le_reg_r pz); [exact Hp|]. rewrite Rmult_assoc, Rinv_l by lra. lra. }
  assert (Hb : Rabs b <= 19 / 10000000000).
  { replace b with ((bR qh - qz) / qz) by (unfold b; field; lra). unfold Rdiv. rewrite Rabs_mult, (Rabs_pos_eq (/ qz)) by (apply Rlt_le, Rinv_0_lt_compat, qz0).
    apply (Rmult_le_reg_r qz); [exact qz0|]. rewrite Rmult_assoc, Rinv_l by lra. lra. }
  assert (Hl : Rabs (ln (bR ph) - ln pz) <= 17 / 10000000000).
  { eapply Rle_trans; [apply (ln_rel _ _ (15 / 10000000000)); [exact Hp|lra|exact P15]|]. lra. }
  assert (zq : 0 < z * qz) by (apply Rmult_lt_0_compat; lra).
  assert (Hg : 0 < g <= 13 / 10).
  { unfold g. split; [apply Rdiv_lt_0_compat; lra|]. apply (Rmult_le_reg_r (z * qz)); [exact zq|]. unfold Rdiv. rewrite Rmult_assoc, Rinv_l by lra. lra. }
  assert (qh0 : 0 < bR qh) by lra. assert (ph0 : 0 < bR ph) by lra.
  pose proof (t_step_pert LL (ln (bR ph) - ln pz) g a b Fu Hl Hg Ha Hb) as SP.
  set (C := (ln (bR ph) - ln (bR P)) * bR ph / (z * bR qh)) in *.
  assert (EC : (LL + (ln (bR ph) - ln pz)) * (g * (1 + a) / (1 + b)) = C) by (rewrite EL; unfold C, g, a, b; field; lra).
  assert (ES : stp u = - (LL * g)) by (unfold stp, step; rewrite Ez; fold pz qz; rewrite EL; unfold g; field; lra).
  rewrite EC in SP.
  assert (WC : Rabs (bR w - - C) <= 1 / 1000000000).
  { eapply Rle_trans; [exact Ew|]. apply Rle_trans with (IZR 19 * u64 * (2048 * 2)); [|rewrite u64_val; lra].
    apply Rmult_le_compat_l; [rewrite u64_val; lra|]. unfold Rdiv. rewrite Rmult_assoc.
    pose proof (ln_top ph ltac:(lra)). pose proof (ln_top P ltac:(lra)).
    assert (G2 : bR ph * / (z * bR qh) <= 2).
    { apply (Rmult_le_reg_r (z * bR qh)); [apply Rmult_lt_0_compat; lra|]. rewrite Rmult_assoc, Rinv_l by (apply Rgt_not_eq, Rmult_lt_0_compat; lra).
      assert (z * (qz * (1 - 18 / 10000000000)) <= z * bR qh) by (apply Rmult_le_compat_l; lra). lra. }
    pose proof (Rabs_pos (ln (bR ph))). pose proof (Rabs_pos (ln (bR P))).
    apply Rmult_le_compat; [lra| |lra|exact G2]. apply Rmult_le_pos; [lra|]. apply Rlt_le, Rinv_0_lt_compat, Rmult_lt_0_compat; lra. }
  assert (WS : Rabs (bR w - stp u) <= 9 / 1000000000). { rewrite ES. apply Rabs_le_inv in WC, SP. apply Rabs_le. lra. }
  split; [exact WS|].
  assert (SB : Rabs (stp u) <= 1 / 2).
  { rewrite ES, Rabs_Ropp, Rabs_mult, (Rabs_pos_eq g) by lra. pose proof (Rabs_pos LL). apply Rle_trans with (15 / 100 * (13 / 10)); [|lra]. apply Rmult_le_compat; lra. }
  apply Rabs_le_inv in WS as WS'. apply Rabs_le_inv in SB as SB'.
  destruct (sub_near v w Fv Fw ltac:(apply Rabs_le; lra) ltac:(apply Rabs_le; lra)) as [Fs Es]. apply Rabs_le_inv in Es as Es'.
  split; [exact Fs|]. assert (Rs : -9 <= bR (bsub v w) <= 102) by lra. split; [exact Rs|].
  destruct (uof_ok m A (bsub v w) Fs Rs) as (_ & _ & Us). apply Rabs_le_inv in Us. apply Rabs_le. lra.
Qed.

Variable V : list (list (@F B) * (@F B)).
Hypothesis HV : @separated B 0 V.
Hypothesis HL : forall (x : list (@F B)) (t : @F B), In (x, t) V -> length x = 21%nat.
Hypothesis Hin : In (map x (seq 0 21), t) V.
Local Opaque ar_of ar00 ar01 ar02 ar03 ar10 ar11 ar20 cTun cBs cCsn cK3 x_diff pa0 pmm tab pressure properties.
Lemma d_loop j : forall n v (s : @Detail B), (n + j = 19)%nat -> fin v -> -9 <= bR v <= 102 -> tfair p (bR P) d0 n (uof v) -> @HistoryDetail.hinv B dp_new V s ->
  d_x s = map x (seq 0 21) -> d_t s = t ->
  exists s' n' v', @density_loop B (S j) (lm_ln m P) v s = Some (s', ROk) /\ (n' < 20)%nat /\ tfair p (bR P) d0 n' v' /\ Rabs (stp v') <= 12 / 100000000 /\
    fin (d_d s') /\ 0 < bR (d_d s') /\ Rabs (- ln (bR (d_d s')) - (v' - stp v')) <= 1 / 100000000 /\ dframe (A := B) [PD; PZ] s s'.
Proof.
  pose proof d0_pos as dp. pose proof PP0 as P0.
  induction j as [|j IH]; intros n v s En Fv Rv G Hh Ex Et.
  all: pose proof (tfair_near p (bR P) d0 n (uof v) ltac:(lia) G) as Nu; pose proof (tfair_f p (bR P) d0 n (uof v) ltac:(lia) G) as Fu.
  all: destruct (eval v Fv Rv Nu Fu) as (V1 & T2 & T1 & Fw & Ew & Fs & Rs & Us).
  all: rewrite density_loop_S, V1; cbn [negb].
  all: change (@fexp B (@fneg B v)) with (lm_exp m (Bopp v)); set (d := lm_exp m (Bopp v)) in *.
  all: destruct (@HistoryDetail.press_hist B dp_new V HV HL (@set_d_d B d s) (@HistoryDetail.hinv_poke B dp_new V PD d s Hh)) as (s2 & E2 & Hh2 & Hf & Hc & Ed);
     [cbn; change (In (d_x s, d_t s) V); rewrite Ex, Et; exact Hin|].
  all: change (d_x (@set_d_d B d s)) with (d_x s) in *; change (d_t (@set_d_d B d s)) with (d_t s) in *;
    change (d_d (@set_d_d B d s)) with d in *; rewrite Ex, Et in E2, Ed.
  all: assert (Edd : d_d s2 = d) by (apply (proj2 Hf PD); intros [|[]]; discriminate).
  all: assert (Ex2 : d_x s2 = map x (seq 0 21)) by (rewrite (proj1 Hf); exact Ex).
  all: assert (Et2 : d_t s2 = t) by (rewrite <- Et; apply (proj2 Hf PT); intros [|[]]; discriminate).
  all: assert (Fr : dframe (A := B) [PD; PZ] s s2) by (eapply dframe_trans; [apply (@dframe_set_d B d s); now left|];
     eapply dframe_incl; [|exact Hf]; intros ? [<-|[]]; right; now left).
  all: rewrite E2; cbn [bind]; rewrite Ed, Edd; fold K.
  all: match goal with |- context [(@flt B ?a ?b || @flt B ?c ?e)%bool] => change (@flt B a b) with (Bltb (@pdpdd B K t d) (blit (L 1 (-15)))); change (@flt B c e) with (Bltb (@pp B K t d) (blit (L 1 (-15)))) end; rewrite T1, T2; cbn [orb]; cbv zeta.
  all: match goal with |- context [@fabs B ?w] => change w with (wN m P (@pp B K t d) (@pdpdd B K t d) d) end.
  all: set (w := wN m P (@pp B K t d) (@pdpdd B K t d) d) in *.
  all: match goal with |- context [@flt B ?a ?b] => change (@flt B a b) with (Bltb (Babs w) (blit (L 1 (-7)))) end; change (@fsub B v w) with (bsub v w).
  all: destruct tol_R as [L1 L2]; pose proof tol_low as L3; rewrite (abs_lt w (L 1 (-7)) Fw L1).
  all: apply Rabs_le_inv in Ew.
  all: destruct (uof_ok m A (bsub v w) Fs Rs) as (Fe & Le & _).
  - replace n with 19%nat in G by lia. pose proof (tfair_last p q (bR P) d0 dp H (uof v) G) as LS. fold stp in LS. change (step p q (bR P) (uof v)) with (stp (uof v)) in LS.
    apply Rabs_le_inv in LS. rewrite Rlt_bool_true by (apply Rle_lt_trans with (7 / 100000000); [apply Rabs_le|]; lra).
    do 3 eexists. split; [reflexivity|]. split; [|split; [exact G|]]; [lia|]. split; [apply Rabs_le; lra|].
    change (d_d (set_d_d (@fexp B (@fneg B (bsub v w))) s2)) with (lm_exp m (Bopp (bsub v w))).
    split; [exact Fe|]. split; [pose proof (p2_pos (-200)); lra|]. split; [exact Us|]. eapply dframe_trans; [exact Fr|apply (@dframe_set_d B); now left].
  - destruct (Rlt_bool_spec (Rabs (bR w)) (bR (blit (L 1 (-7))))) as [LS|LS].
    + do 3 eexists. split; [reflexivity|]. split; [|split; [exact G|]]; [lia|]. split.
      { assert (Rabs (bR w) <= 11 / 100000000) as Q by lra. apply Rabs_le_inv in Q. apply Rabs_le. lra. }
      change (d_d (set_d_d (@fexp B (@fneg B (bsub v w))) s2)) with (lm_exp m (Bopp (bsub v w))).
      split; [exact Fe|]. split; [pose proof (p2_pos (-200)); lra|]. split; [exact Us|]. eapply dframe_trans; [exact Fr|apply (@dframe_set_d B); now left].
    + destruct (tfair_next p q (bR P) d0 dp p_D H n (uof v) (uof (bsub v w)) ltac:(lia) G Us) as [G' _].
      destruct (IH (S n) (bsub v w) s2 ltac:(lia) Fs Rs G' Hh2 Ex2 Et2) as (s' & n' & v' & E & N' & A1 & A2 & A3 & A4 & A5 & F').
      exists s', n', v'. split; [exact E|]. split; [exact N'|]. split; [exact A1|]. split; [exact A2|]. split; [exact A3|]. split; [exact A4|]. split; [exact A5|]. eapply dframe_trans; [exact Fr|exact F'].
Qed.
End D.
End U.
