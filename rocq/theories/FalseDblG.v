(* density() of GERG-2008 in double precision reports Ok at a density whose pressure is a thousandth of the one asked for. *)
From Coq Require Import Reals ZArith List Bool Lra Lia Psatz FunctionalExtensionality.
From Coquelicot Require Import Coquelicot.
From Flocq Require Import Core BinarySingleNaN.
From Interval Require Import Tactic.
From Verif Require Import FArith Prelude Tab ArithB64 B64Lemmas ArithR RSum SpecDetail SpecGerg SpecIdeal SpecTables StdGerg SpecStd SpecAcc SpecAccG SpecAll SpecAllF SpecSlopeG SpecConv SpecHistory SpecGeneric DetailModel DetailPure GergTables GergModel GergPure GergRefine GergEval Api ApiSafe BasicProofs DensityProofs HistoryGerg SpecReal Thermo DetailReal DetailThermo GergReal GergIdeal GergThermo
  DetailEos GergEos GenericLemmas Drift DriftWit StdDetailProof StdGergProof Newton NewtonReal ConvDetail ConvGerg SlopeReal GSlope B64Err AccFold AccMix AccEos AccProof GAccRed GAccTerms GAccEos GAccSize GAccProof AccSlope GAllCoef GAllTerms GAllSize GAllIdeal GAllIdeal2 GAllProps GAllFin GAllMain AccDens AccDensProof GDens Converge ConvergeEps ConvReal ConvDouble ConvFin ConvLowG GDensProof GConvDouble GConvFin GConvLow GAllCase FalseConvCaseG FalseDblCaseG.
From Verif Require ConvCaseG ConvCase.

Import ListNotations.
Local Open Scope R_scope.
Local Existing Instance gp_new.
Local Opaque gp gp1.

Section M.
Variable m : Libm.
Hypothesis A : accurate m.
Local Notation B := (ArithB64 m).
Local Notation x := ch4d.
Let t := bofZ 150.
Let P := bofZ 5000.
Let p := gpres New (fun j => bR (x j)) (bR t).
Let lB d := @can_terms B gp_new (map x (seq 0 22)) t d.
Lemma gxR : (fun j => bR (x j)) = ac ConvCaseG.ch4g. Proof. rewrite ac_id. apply functional_extensionality. intros i. exact (ch4d_R i). Qed.
Lemma gtR : bR t = 150. Proof. exact (ofZ_R 150 ltac:(lia)). Qed.
Lemma gPR : bR P = 5000. Proof. exact (ofZ_R 5000 ltac:(lia)). Qed.
Lemma gHx : forall j, (1 <= j < 22)%nat -> fin (x j) /\ (bR (x j) = 0 \/ p2 (-49) <= bR (x j)).
Proof. intros j _. split; [destruct j as [|[|j]]; reflexivity|]. rewrite ch4d_R. destruct j as [|[|j]]; [now left|right|now left]. change 1 with (bpow radix2 0). apply bpow_le. lia. Qed.
Lemma gHs : 99 / 100 <= tot 21 (fun j => bR (x (S j))) <= 101 / 100.
Proof. rewrite (ConvCase.tot_one 20); [rewrite ch4d_R; lra|]. intros j Hj. rewrite ch4d_R. destruct j; [lia|reflexivity]. Qed.
Lemma gHT : fin t /\ 32 <= bR t <= 2048. Proof. split; [reflexivity|]. rewrite gtR. lra. Qed.
Lemma p_gp d : 0 < d -> p d = gp d.
Proof. intros Hd. unfold p. rewrite gxR, gtR, ac_id. now apply gp_eq. Qed.
Lemma DZ d : 22139 / 1000 <= d <= 22140 / 1000 -> d * vred (fun j => bR (x j)) <= 5 / 2.
Proof. intros Hd. rewrite gxR. fold vm. pose proof (del_box d Hd). lra. Qed.
Lemma gev_p d : fin d -> 22139 / 1000 <= bR d <= 22140 / 1000 -> fin (@gpp B (lB d) t d) /\ Rabs (bR (@gpp B (lB d) t d) - gp (bR d)) <= 1 / 10000.
Proof.
  intros Fd Rd. assert (Z20 : p2 (-20) <= bR d) by (change (p2 (-20)) with (/ 1048576); lra).
  destruct (gp_ap m A x t d gHx gHs gHT (conj Fd Z20) (DZ _ Rd)) as (F & E & _). fold (lB d) in F, E. split; [exact F|]. rewrite <- (p_gp (bR d)) by lra. unfold p.
  eapply Rle_trans; [exact E|]. clear E. rewrite gxR, gtR. fold vm tm. pose proof (gsum1_hi (bR d) Rd) as S. set (z := gerg_sum _ _ _ _) in *. clearbody z. rewrite u64_val. assert (PRg : Rg = 8314472 / 1000000) by reflexivity. rewrite PRg.
  assert (bR d * (8314472 / 1000000) * 150 * (1 + z) <= 22140 / 1000 * (8314472 / 1000000) * 150 * 31); [|lra].
  apply Rle_trans with (bR d * (8314472 / 1000000) * 150 * 31); [apply Rmult_le_compat_l; lra|lra].
Qed.
Lemma q_gp d : 0 < d -> gprop New PDpDd (fun j => bR (x j)) (bR t) d = gp1 d.
Proof.
  intros Hd. pose proof (gp_D x t gHs gHT p _ eq_refl eq_refl d Hd) as D1.
  assert (D2 : is_derive p d (gp1 d)).
  { apply (is_derive_ext_loc gp p); [|now apply gp_d]. apply (filter_imp (fun y => 0 < y)); [intros y Hy; symmetry; now apply p_gp|]. exact (open_gt 0 d Hd). }
  rewrite <- (is_derive_unique _ _ _ D2). symmetry. exact (is_derive_unique _ _ _ D1).
Qed.
Lemma gev_q d : fin d -> 22139 / 1000 <= bR d <= 22140 / 1000 -> fin (@gpdpdd B (lB d) t) /\ Rabs (bR (@gpdpdd B (lB d) t) - gp1 (bR d)) <= 1 / 1000.
Proof.
  intros Fd Rd. assert (Z20 : p2 (-20) <= bR d) by (change (p2 (-20)) with (/ 1048576); lra).
  destruct (gq_ap m A x t d gHx gHs gHT (conj Fd Z20) (DZ _ Rd)) as (F & E & _). fold (lB d) in F, E. split; [exact F|]. rewrite <- (q_gp (bR d)) by lra.
  eapply Rle_trans; [exact E|]. clear E. rewrite gxR, gtR. fold vm tm. unfold gerg_slope. pose proof (gsum1_hi (bR d) Rd) as S1. pose proof (gsum2_hi (bR d) Rd) as S2. set (z1 := gerg_sum 1 _ _ _) in *. set (z2 := gerg_sum 2 _ _ _) in *. clearbody z1 z2.
  rewrite u64_val. assert (PRg : Rg = 8314472 / 1000000) by reflexivity. rewrite PRg. lra.
Qed.
Lemma gp_lip a b c : 22138 / 1000 <= a <= 22141 / 1000 -> 22138 / 1000 <= b <= 22141 / 1000 -> Rabs (b - a) <= c -> Rabs (gp b - gp a) <= 20000 * c.
Proof.
  intros Ha Hb Hc.
  destruct (MVT_gen gp a b gp1) as (e & He & E).
  { intros z Hz. apply gp_d. destruct (Rle_dec a b); [rewrite Rmin_left in Hz by lra|rewrite Rmin_right in Hz by lra]; lra. }
  { intros z Hz. apply continuity_pt_filterlim, @ex_derive_continuous. eexists. apply gp_d. destruct (Rle_dec a b); [rewrite Rmin_left in Hz by lra|rewrite Rmin_right in Hz by lra]; lra. }
  assert (Be : 22138 / 1000 <= e <= 22141 / 1000) by (destruct (Rle_dec a b); [rewrite Rmin_left, Rmax_right in He by lra|rewrite Rmin_right, Rmax_left in He by lra]; lra).
  pose proof (gp_box e Be). rewrite E, Rabs_mult. apply Rmult_le_compat; [apply Rabs_pos|apply Rabs_pos|rewrite Rabs_pos_eq; lra|exact Hc].
Qed.
Lemma gexp_near d u e : 0 <= e <= 1 / 1000 -> 0 < d <= 23 -> Rabs (u - - ln d) <= e -> Rabs (exp (- u) - d) <= 24 * e.
Proof.
  intros He Hd Hu. replace (- u) with (ln d + - (u - - ln d)) by ring. rewrite exp_plus, exp_ln by lra. set (w := - (u - - ln d)) in *.
  assert (Hw : Rabs w <= e) by (unfold w; rewrite Rabs_Ropp; exact Hu). clearbody w. replace (d * exp w - d) with (d * (exp w - 1)) by ring. rewrite Rabs_mult, (Rabs_pos_eq d) by lra.
  assert (G : Rabs (exp w - 1) <= 101 / 100 * e).
  { apply Raux.Rabs_le_inv in Hw. pose proof (exp_ineq1_le w) as X1. pose proof (exp_ineq1_le (- w)) as X2. rewrite exp_Ropp in X2. pose proof (exp_pos w).
    assert (exp w <= / (1 - w)). { apply (Rmult_le_reg_r (/ exp w)); [now apply Rinv_0_lt_compat|]. rewrite Rinv_r by lra. apply (Rmult_le_reg_l (1 - w)); [lra|]. replace ((1 - w) * (/ (1 - w) * / exp w)) with (/ exp w) by (field; lra). lra. }
    assert (/ (1 - w) <= 1 + 101 / 100 * e). { apply (Rmult_le_reg_l (1 - w)); [lra|]. rewrite Rinv_r by lra. nra. }
    apply Rabs_le. lra. }
  apply Rle_trans with (23 * (101 / 100 * e)); [apply Rmult_le_compat; [lra|apply Rabs_pos|lra|exact G]|lra].
Qed.
Lemma gstart_fine g : fin g -> 22 <= bR g <= 23 ->
  fin (Bopp (lm_ln m g)) /\ -4 <= bR (Bopp (lm_ln m g)) <= -3 /\ Rabs (uof m (Bopp (lm_ln m g)) - - ln (bR g)) <= 1 / 5000000000000.
Proof.
  intros F H. assert (L : 305 / 100 <= ln (bR g) <= 32 / 10) by (split; interval).
  destruct (ap_ln m A g F ltac:(lra) ltac:(apply Rabs_le; lra)) as (Fl & E1 & _).
  assert (La : Rabs (ln (bR g)) <= 32 / 10) by (apply Rabs_le; lra).
  rewrite u64_val in E1. change (IZR 8) with 8 in E1.
  assert (E2 : Rabs (bR (lm_ln m g) - ln (bR g)) <= 1 / 10000000000000) by lra. apply Raux.Rabs_le_inv in E2.
  assert (Fo : fin (Bopp (lm_ln m g))) by (unfold fin; now rewrite is_finite_Bopp). assert (Eo : bR (Bopp (lm_ln m g)) = - bR (lm_ln m g)) by apply B2R_Bopp.
  assert (Ro : -4 <= bR (Bopp (lm_ln m g)) <= -3) by lra.
  split; [exact Fo|]. split; [exact Ro|]. destruct (uof_ok m A _ Fo ltac:(lra)) as (_ & _ & U). apply Raux.Rabs_le_inv in U. apply Rabs_le. lra.
Qed.
Lemma gstart_at : exists g, fin g /\ 2213904 / 100000 <= bR g <= 2213951 / 100000 /\ Rabs (gp (bR g) - 3 / 10000) <= 1 / 10000000.
Proof.
  destruct gp_at as (e & He & Ee). set (n := Zfloor (e * 4398046511104)).
  assert (Hn : IZR n <= e * 4398046511104 < IZR n + 1) by (split; [apply Zfloor_lb|apply Zfloor_ub]).
  assert (Zn : (0 <= n + 1 < 2 ^ 53)%Z).
  { split; [apply le_IZR|apply lt_IZR]; rewrite plus_IZR; [lra|]. change (IZR (2 ^ 53)) with 9007199254740992. lra. }
  destruct (bdy_R (n + 1) (-42)) as [F R]; [lia|lia|]. rewrite plus_IZR in R. change (p2 (-42)) with (/ 4398046511104) in R.
  exists (bdy (n + 1) (-42)). split; [exact F|]. assert (Q : Rabs (bR (bdy (n + 1) (-42)) - e) <= 1 / 4000000000000) by (rewrite R; apply Rabs_le; lra).
  apply Raux.Rabs_le_inv in Q as Q'. split; [split; [|lra]|].
  - destruct (Rle_dec (22139049 / 1000000) e) as [G|G]; [lra|exfalso].
    assert (QQ : Rabs (e - 22139 / 1000) <= 1 / 20001) by (apply Rabs_le; lra). pose proof (gp_lip (22139 / 1000) e (1 / 20001) ltac:(lra) ltac:(lra) QQ) as Q3. pose proof g_lo3 as N. apply Raux.Rabs_le_inv in Q3. lra.
  - rewrite <- Ee. eapply Rle_trans; [apply (gp_lip e _ (1 / 4000000000000)); [lra|lra|exact Q]|lra].
Qed.
Local Opaque can_terms.
Lemma grun1 V (s1 : @Gerg B) g w : separated (A := B) 1 V -> (forall (y : list (@F B)) (e : @F B), In (y, e) V -> length y = 22%nat) -> @HistoryGerg.hinv B gp_new V s1 ->
  g_x s1 = map x (seq 0 22) -> g_t s1 = t -> GergModel.g_p s1 = P -> g_d s1 = Bopp g -> In (map x (seq 0 22), t) V -> fin g -> 22 <= bR g ->
  let v := Bopp (lm_ln m g) in let d := lm_exp m (Bopp v) in fin v -> -4 <= bR v <= -3 ->
  Bltb (@gpp B (lB d) t d) (blit (L 1 (-15))) = false -> Bltb (@gpdpdd B (lB d) t) (blit (L 1 (-15))) = false -> Bltb (@gpdpdd B (lB d) t) B0 = false ->
  w = wN m P (@gpp B (lB d) t d) (@gpdpdd B (lB d) t) d -> fin w -> Rabs (bR w) <= 9 / 100000000 ->
  exists s3, gstep (A := B) (Density 0) s1 = Some (s3, ODens (A := B) ROk) /\ g_x s3 = map x (seq 0 22) /\ g_t s3 = t /\ GergModel.g_p s3 = P /\ g_d s3 = lm_exp m (Bopp (bsub v w)).
Proof.
  intros HV HL Hh Ex Et Ep Ed Hin Fg Rg v d Fv Rv T1 T2 T3 Hw Fw W.
  destruct (@HistoryGerg.press_hist B gp_new V HV HL (@set_g_d B d (@set_g_d B g s1)) (@hinv_set_gd B gp_new V d _ (@hinv_set_gd B gp_new V g s1 Hh))) as (s2 & E2 & _ & Hf & _ & E3);
    [cbn; change (In (g_x s1, g_t s1) V); rewrite Ex, Et; exact Hin|].
  change (g_x (@set_g_d B d (@set_g_d B g s1))) with (g_x s1) in *. change (g_t (@set_g_d B d (@set_g_d B g s1))) with (g_t s1) in *. change (g_d (@set_g_d B d (@set_g_d B g s1))) with d in *.
  rewrite Ex, Et in E2, E3.
  assert (Edd : g_d s2 = d) by (apply (proj2 Hf PD); intros [|[]]; discriminate).
  exists (@set_g_d B (lm_exp m (Bopp (bsub v w))) s2). split; [|split; [|split; [|split]]].
  - assert (GE : @gguess B 0 s1 = g).
    { unfold gguess. rewrite Ed. change (@flt B (@fneg B (@GEPSILON B)) (Bopp g)) with (Bltb (Bopp (blit (L 1 (-15)))) (Bopp g)).
      rewrite lt_fin; [|unfold fin; rewrite is_finite_Bopp; reflexivity|unfold fin; now rewrite is_finite_Bopp]. unfold bR. rewrite !B2R_Bopp. fold (bR (blit (L 1 (-15)))). fold (bR g).
      pose proof eps_top. assert (P49 : p2 (-49) <= 1 / 100000000) by (change (p2 (-49)) with (/ 562949953421312); lra).
      rewrite Rlt_bool_false by lra. change (Babs (Bopp g) = g). clear - Rg. destruct g as [sg|sg| |sg mg eg Hg]; try (unfold bR in Rg; cbn in Rg; exfalso; lra).
      destruct sg; [exfalso|reflexivity]. assert (bR (B754_finite true mg eg Hg) <= 0); [|lra]. unfold bR. cbn [B2R]. left. now apply F2R_lt_0. }
    apply (gdensity_run m 0 s1); [rewrite Ex; reflexivity|]. rewrite GE.
    change (@fneg B (@fln B g)) with v.
    assert (VO : @DetailModel.vlog_ok B v = true) by (apply (vok m v Fv); lra).
    rewrite (@gdensity_loop_it B) by (exact VO || lia).
    change (@fexp B (@fneg B v)) with d. rewrite E2. cbn [bind]. rewrite E3, Edd. fold (lB d).
    match goal with |- context [(@flt B ?a ?b || @flt B ?c ?e)%bool] => change (@flt B a b) with (Bltb (@gpdpdd B (lB d) t) (blit (L 1 (-15)))); change (@flt B c e) with (Bltb (@gpp B (lB d) t d) (blit (L 1 (-15)))) end. rewrite T1, T2. cbn [orb]. cbv zeta.
    match goal with |- context [@fabs B ?a] => change a with (wN m (GergModel.g_p s1) (@gpp B (lB d) t d) (@gpdpdd B (lB d) t) d) end. rewrite Ep, <- Hw.
    match goal with |- context [@flt B (@fabs B ?a) ?b] => change (@flt B (@fabs B a) b) with (Bltb (Babs w) (blit (L 1 (-7)))) end.
    match goal with |- context [@flt B ?a (@f0 B)] => change (@flt B a (@f0 B)) with (Bltb (@gpdpdd B (lB d) t) B0) end. rewrite T3.
    assert (Ev : @fadd B v (@fneg B w) = bsub v w) by exact (sub_opp v w). rewrite Ev.
    destruct (Z.ltb_spec 0 0) as [Ci|Ci]; [lia|].
    destruct tol_R as [L1 _]. pose proof tol_low as L3. rewrite (abs_lt w (L 1 (-7)) Fw L1). rewrite Rlt_bool_true by lra. reflexivity.
  - exact (eq_trans (proj1 Hf) Ex).
  - rewrite <- Et. apply (proj2 Hf PT). intros [|[]]; discriminate.
  - rewrite <- Ep. apply (proj2 Hf PP). intros [|[]]; discriminate.
  - reflexivity.
Qed.
Lemma grun2 V (s3 : @Gerg B) : separated (A := B) 1 V -> (forall (y : list (@F B)) (e : @F B), In (y, e) V -> length y = 22%nat) -> @HistoryGerg.hinv B gp_new V s3 ->
  g_x s3 = map x (seq 0 22) -> g_t s3 = t -> In (map x (seq 0 22), t) V ->
  exists s4, gstep (A := B) (Pressure (A := B)) s3 = Some (s4, OVal (A := B) (@gpp B (lB (g_d s3)) t (g_d s3))) /\ gread (A := B) PP s4 = GergModel.g_p s3 /\ gread (A := B) PD s4 = g_d s3.
Proof.
  intros HV HL Hh Ex Et Hin.
  destruct (@HistoryGerg.press_hist B gp_new V HV HL s3 Hh) as (s4 & E4 & _ & Hf4 & _); [rewrite Ex, Et; exact Hin|]. rewrite Ex, Et in E4. fold (lB (g_d s3)) in E4.
  exists s4. split; [|split].
  - cbn [gstep]. rewrite E4. reflexivity.
  - apply (proj2 Hf4 PP). intros [|[]]; discriminate.
  - apply (proj2 Hf4 PD). intros [|[]]; discriminate.
Qed.
Lemma gfalse_double : exists (g : b64) s (ph : b64),
  @gexec B New [SetX (A := B) x; Poke (A := B) PT t; Poke (A := B) PP P; Poke (A := B) PD (Bopp g); Density (A := B) 0; Pressure (A := B)]
    = Some (s, [OUnit; OUnit; OUnit; OUnit; ODens (A := B) ROk; OVal (A := B) ph]) /\
  (fin g /\ 22 <= bR g <= 23) /\ gread (A := B) PP s = P /\ (fin (gread (A := B) PD s) /\ -1 < gpres New (fun j => bR (x j)) (bR t) (bR (gread (A := B) PD s)) < 1) /\ fin ph /\ -1 < bR ph < 1.
Proof.
  destruct gstart_at as (g & Fg & Rg & Pg). exists g.
  set (l := [SetX (A := B) x; Poke (A := B) PT t; Poke (A := B) PP P; Poke (A := B) PD (Bopp g)]).
  assert (S1 : separated (A := B) 1 (gasked (A := B) (l ++ [Density (A := B) 0]))) by exact (gbsep1 m x t P 0 gHx gHs gHT).
  assert (S2 : separated (A := B) 1 (gasked (A := B) ((l ++ [Density (A := B) 0]) ++ [Pressure (A := B)]))).
  { destruct S1 as [A1 A2]. split.
    - intros a b c e H1 H2. apply (A1 a b c e); [destruct H1 as [H1|[H1|[]]]|destruct H2 as [H2|[H2|[]]]]; (left; assumption).
    - intros a b H1. apply (A2 a b). destruct H1 as [H1|[H1|[]]]; (left; assumption). }
  (* the first evaluation *)
  destruct (gstart_fine g Fg ltac:(lra)) as (Fv & Rv & Uv). set (v := Bopp (lm_ln m g)) in *.
  destruct (uof_ok m A v Fv ltac:(lra)) as (Fd & Ld & _). set (d := lm_exp m (Bopp v)) in *.
  assert (d0 : 0 < bR d) by (pose proof (p2_pos (-200)); lra).
  assert (Ed : exp (- uof m v) = bR d) by (unfold uof; fold d; rewrite Ropp_involutive; now apply exp_ln).
  pose proof (gexp_near (bR g) (uof m v) (1 / 5000000000000) ltac:(lra) ltac:(lra) Uv) as Nd. rewrite Ed in Nd.
  assert (Nd' : Rabs (bR d - bR g) <= 1 / 200000000000) by lra. apply Raux.Rabs_le_inv in Nd' as Nd2.
  assert (Rd : 22139 / 1000 <= bR d <= 22140 / 1000) by lra.
  destruct (gev_p d Fd Rd) as [Fp Ep]. destruct (gev_q d Fd Rd) as [Fq Eq]. set (ph := @gpp B (lB d) t d) in *. set (qh := @gpdpdd B (lB d) t) in *.
  assert (Pd : Rabs (gp (bR d) - gp (bR g)) <= 20000 * (1 / 200000000000)) by (apply gp_lip; lra).
  pose proof (gslope_lo (bR d) Rd) as Sl. pose proof (gp_box (bR d) ltac:(lra)) as Su.
  assert (Php : 18 / 100000 <= bR ph <= 42 / 100000). { apply Raux.Rabs_le_inv in Pd, Ep, Pg. lra. }
  assert (Qh : 4999 <= bR qh <= 20001). { apply Raux.Rabs_le_inv in Eq. lra. }
  pose proof eps_R as [Fe _]. pose proof eps_top as Te. assert (P49 : p2 (-49) <= 1 / 100000000) by (change (p2 (-49)) with (/ 562949953421312); lra).
  assert (T1 : Bltb ph (blit (L 1 (-15))) = false) by (apply below; [exact Fp|exact Fe|lra]).
  assert (T2 : Bltb qh (blit (L 1 (-15))) = false) by (apply below; [exact Fq|exact Fe|lra]).
  assert (T3 : Bltb qh B0 = false) by (rewrite lt_fin; [|exact Fq|reflexivity]; change (bR B0) with 0; apply Rlt_bool_false; lra).
  assert (P50 : p2 (-50) <= 1 / 100000000) by (change (p2 (-50)) with (/ 1125899906842624); lra).
  assert (T650 : 1000000 <= p2 550 /\ p2 550 <= p2 650) by (split; [apply Rle_trans with (p2 20); [change (p2 20) with 1048576; lra|apply bpow_le; lia]|apply bpow_le; lia]).
  pose proof (w_ap m A P ph qh d eq_refl ltac:(rewrite gPR; lra) Fp ltac:(lra) Fq ltac:(lra) Fd ltac:(split; [exact Ld|change (p2 12) with 4096; lra])) as WA.
  set (w := wN m P ph qh d) in *. destruct WA as (Fw & Ew & _ & _). rewrite gPR in Ew.
  assert (Lp : - (87 / 10) <= ln (bR ph) <= - (77 / 10)) by (split; interval). assert (LP : 85 / 10 <= ln 5000 <= 86 / 10) by (split; interval).
  assert (DQ : 22139 / 1000 * 4999 <= bR d * bR qh) by (apply Rmult_le_compat; lra).
  assert (G : 0 <= bR ph / (bR d * bR qh) <= 39 / 10000000000).
  { split; [apply Rlt_le, Rdiv_lt_0_compat; lra|]. apply (Rmult_le_reg_r (bR d * bR qh)); [lra|]. unfold Rdiv. rewrite Rmult_assoc, Rinv_l by lra. lra. }
  assert (W : Rabs (bR w) <= 9 / 100000000).
  { set (gg := bR ph / (bR d * bR qh)) in *.
    assert (E1 : (ln (bR ph) - ln 5000) * bR ph / (bR d * bR qh) = (ln (bR ph) - ln 5000) * gg) by (unfold gg; field; lra).
    assert (E2 : (Rabs (ln (bR ph)) + 1 + (Rabs (ln 5000) + 1)) * bR ph / (bR d * bR qh) = (Rabs (ln (bR ph)) + 1 + (Rabs (ln 5000) + 1)) * gg) by (unfold gg; field; lra).
    rewrite E1, E2 in Ew. clear E1 E2.
    assert (B1 : 0 <= (ln 5000 - ln (bR ph)) * gg <= 18 * (39 / 10000000000)) by (split; [apply Rmult_le_pos; lra|apply Rmult_le_compat; lra]).
    assert (B2 : (Rabs (ln (bR ph)) + 1 + (Rabs (ln 5000) + 1)) * gg <= 20 * (39 / 10000000000)).
    { apply Rmult_le_compat; try lra; [pose proof (Rabs_pos (ln (bR ph))); pose proof (Rabs_pos (ln 5000)); lra|]. rewrite (Rabs_left1 (ln (bR ph))), (Rabs_pos_eq (ln 5000)) by lra. lra. }
    rewrite u64_val in Ew. apply Raux.Rabs_le_inv in Ew. apply Rabs_le. lra. }
  apply Raux.Rabs_le_inv in W as W'.
  destruct (sub_near v w Fv Fw ltac:(apply Rabs_le; lra) ltac:(apply Rabs_le; lra)) as [Fs Es]. apply Raux.Rabs_le_inv in Es as Es'.
  destruct (uof_ok m A (bsub v w) Fs ltac:(lra)) as (Fd2 & Ld2 & Ud2). set (d2 := lm_exp m (Bopp (bsub v w))) in *.
  assert (d20 : 0 < bR d2) by (pose proof (p2_pos (-200)); lra).
  assert (Ed2 : exp (- uof m (bsub v w)) = bR d2) by (unfold uof; fold d2; rewrite Ropp_involutive; now apply exp_ln).
  destruct (uof_ok m A v Fv ltac:(lra)) as (_ & _ & Uv2).
  assert (Nu2 : Rabs (uof m (bsub v w) - - ln (bR g)) <= 1 / 10000000). { apply Raux.Rabs_le_inv in Ud2, Uv, Uv2. apply Rabs_le. lra. }
  pose proof (gexp_near (bR g) _ (1 / 10000000) ltac:(lra) ltac:(lra) Nu2) as N2. rewrite Ed2 in N2.
  assert (N2' : Rabs (bR d2 - bR g) <= 1 / 400000) by lra. apply Raux.Rabs_le_inv in N2' as N3.
  assert (Pd2 : Rabs (gp (bR d2) - gp (bR g)) <= 20000 * (1 / 400000)) by (apply gp_lip; lra).
  (* the run *)
  assert (R1 : exists s1, @gexec B New l = Some (s1, [OUnit; OUnit; OUnit; OUnit]) /\ g_x s1 = map x (seq 0 22) /\ g_t s1 = t /\ GergModel.g_p s1 = P /\ g_d s1 = Bopp g).
  { exists (set_g_d (Bopp g : @F B) (set_g_p (P : @F B) (set_g_t (t : @F B) (@set_g_x B (map x (seq 0 22)) gerg_fresh)))). split; [apply (@gexec_new B); reflexivity|]. generalize (@gerg_fresh B). intros q0. repeat split. }
  destruct R1 as (s1 & R1 & Ex1 & Et1 & Ep1 & Ed1).
  destruct (@g_hinv B New l [Density (A := B) 0] s1 _ R1 S1) as (Hh & Hin & HL). specialize (Hin _ (or_introl eq_refl)). rewrite Ex1, Et1 in Hin.
  destruct (grun1 _ s1 g w S1 HL Hh Ex1 Et1 Ep1 Ed1 Hin Fg ltac:(lra) Fv Rv T1 T2 T3 eq_refl Fw W) as (s3 & ED & Ex3 & Et3 & Ep3 & Ed3).
  assert (R2 : @gexec B New (l ++ [Density (A := B) 0]) = Some (s3, [OUnit; OUnit; OUnit; OUnit] ++ [ODens (A := B) ROk])).
  { eapply (@gexec_app B); [exact R1|]. cbn [grun]. rewrite ED. reflexivity. }
  destruct (@g_hinv B New (l ++ [Density (A := B) 0]) [Pressure (A := B)] s3 _ R2 S2) as (Hh3 & Hin3 & HL3). specialize (Hin3 _ (or_introl eq_refl)). rewrite Ex3, Et3 in Hin3.
  destruct (grun2 _ s3 S2 HL3 Hh3 Ex3 Et3 Hin3) as (s4 & E4 & Ep4 & Ed4). fold v in Ed3. fold d2 in Ed3. rewrite Ed3 in E4, Ed4. rewrite Ep3 in Ep4.
  assert (Rd2 : 22139 / 1000 <= bR d2 <= 22140 / 1000) by lra.
  destruct (gev_p d2 Fd2 Rd2) as [Fp2 Ep2].
  exists s4, (@gpp B (lB d2) t d2). split; [|split; [|split; [|split; [|split]]]].
  - refine (@gexec_app B New (l ++ [Density (A := B) 0]) [Pressure (A := B)] s3 _ s4 [OVal (A := B) (@gpp B (lB d2) t d2)] R2 _). cbn [grun]. rewrite E4. reflexivity.
  - split; [exact Fg|lra].
  - exact Ep4.
  - rewrite Ed4. fold p. rewrite p_gp by lra. split; [exact Fd2|]. apply Raux.Rabs_le_inv in Pd2, Pg. lra.
  - exact Fp2.
  - apply Raux.Rabs_le_inv in Pd2, Pg, Ep2. lra.
Qed.
End M.
