(* density() of DETAIL in double precision reports Ok at a density whose pressure is a thousandth of the one asked for. *)
From Coq Require Import Reals ZArith List Bool Lra Lia Psatz.
From Coquelicot Require Import Coquelicot.
From Flocq Require Import Core BinarySingleNaN.
From Interval Require Import Tactic.
From Verif Require Import FArith Prelude Tab ArithB64 B64Lemmas ArithR RSum SpecDetail SpecStd SpecAcc SpecSlope SpecConv SpecHistory SpecGeneric DetailTables DetailModel DetailPure DetailRefine DetailEval
  DetailEos Api ApiSafe BasicProofs DensityProofs GenericLemmas HistoryDetail Newton NewtonReal DetailThermo Drift DriftWit StdDetail StdDetailProof B64Err AccFold AccMix AccMix2 AccMix3 AccMix4 AccEos AccProof AccSlope AccSlopeProof ConvDetail ConvCase SlopeReal SlopeCase AccDens AccDensProof ConvDouble ConvFin ConvFinLow FalseConvCase FalseDblCase.
Import ListNotations.
Local Open Scope R_scope.
Local Notation RR := (831451 / 100000).
Local Opaque dp1.

Section M.
Variable m : Libm.
Hypothesis A : accurate m.
Local Notation B := (ArithB64 m).
Local Notation x := ch4b.
Let t := bofZ 150.
Let P := bofZ 5000.
Let p := detail_p (nn ch4) 150.
Let K := @cache_of B dp_new (Some (map x (seq 0 21))) (Some t).
Lemma xR : (fun j => bR (x j)) = nn ch4. Proof. exact ch4b_R. Qed.
Lemma tR : bR t = 150. Proof. exact (ofZ_R 150 ltac:(lia)). Qed.
Lemma PR : bR P = 5000. Proof. exact (ofZ_R 5000 ltac:(lia)). Qed.
Lemma Hx : forall j, (j < 21)%nat -> fin (x j) /\ (bR (x j) = 0 \/ p2 (-50) <= bR (x j)).
Proof. intros j _. split; [destruct j; reflexivity|]. destruct j; [right|now left]. unfold ch4b. rewrite (ofZ_R 1) by lia. change 1 with (bpow radix2 0). apply bpow_le. lia. Qed.
Lemma Hs : 99 / 100 <= tot 21 (fun j => bR (x j)) <= 101 / 100.
Proof. cbn [tot]. unfold ch4b. rewrite (ofZ_R 1) by lia. change (bR B0) with 0. lra. Qed.
Lemma HT : fin t /\ 32 <= bR t <= 2048. Proof. split; [reflexivity|]. rewrite tR. lra. Qed.
(* the pressure as evaluated near the root *)
Lemma ev_p d : fin d -> 21 <= bR d <= 22 -> detail_size (nn ch4) 150 (bR d) <= 30 \/ 21849 / 1000 <= bR d <= 21850 / 1000 -> fin (@pp B K t d) /\ Rabs (bR (@pp B K t d) - p (bR d)) <= 11 / 100000.
Proof.
  intros Fd Rd Hz. assert (S : 0 <= detail_size (nn ch4) 150 (bR d) <= 30 \/ detail_size (nn ch4) 150 (bR d) <= 30).
  { destruct Hz as [H|H]; [now right|left; now apply size_150]. }
  assert (DZ : detail_D (fun j => bR (x j)) (bR d) <= 3) by (rewrite xR; apply D_150; lra).
  assert (Z20 : p2 (-20) <= bR d) by (change (p2 (-20)) with (/ 1048576); lra).
  destruct (press_ap m A x t d Hx Hs HT (conj Fd (or_intror Z20)) DZ) as (F & E & _). rewrite xR, tR in E. fold K in F, E. fold p in E. split; [exact F|].
  eapply Rle_trans; [exact E|]. rewrite u64_val. set (z := detail_size _ _ _) in *. clearbody z.
  assert (bR d * RR * 150 * z <= 22 * RR * 150 * 30); [|lra].
  destruct (Rle_dec 0 z) as [Pz|Pz]; [apply Rmult_le_compat; try lra|].
  assert (bR d * RR * 150 * z <= 0); [|lra]. assert (0 <= bR d * RR * 150 * - z) by (apply Rmult_le_pos; lra). lra.
Qed.
Lemma ev_q d : fin d -> 21849 / 1000 <= bR d <= 21850 / 1000 -> fin (@pdpdd B K t d) /\ Rabs (bR (@pdpdd B K t d) - dp1 (bR d)) <= 1 / 1000.
Proof.
  intros Fd Rd. pose proof (slope_150 _ Rd) as S.
  assert (DZ : detail_D (fun j => bR (x j)) (bR d) <= 3) by (rewrite xR; apply D_150; lra).
  assert (Z20 : p2 (-20) <= bR d) by (change (p2 (-20)) with (/ 1048576); lra).
  pose proof (slope_derive m x t d ltac:(lra)) as SD. rewrite xR, tR in SD. pose proof (dp_1 (bR d) ltac:(lra)) as D1.
  destruct (slope_ap m A x t d Hx Hs HT (conj Fd (or_intror Z20)) DZ) as (F & E & _). rewrite xR, tR in E. 
  split; [exact F|]. 
  match type of E with Rabs (_ - ?a) <= _ => assert (Eq : a = dp1 (bR d)) by (rewrite <- (is_derive_unique _ _ _ D1); symmetry; exact (is_derive_unique _ _ _ SD)) end.
  rewrite Eq in E. eapply Rle_trans; [exact E|]. rewrite u64_val. lra.
Qed.
Lemma p_lip a b c : 21848 / 1000 <= a <= 21851 / 1000 -> 21848 / 1000 <= b <= 21851 / 1000 -> Rabs (b - a) <= c -> Rabs (p b - p a) <= 20000 * c.
Proof.
  intros Ha Hb Hc.
  destruct (MVT_gen p a b dp1) as (e & He & E).
  { intros z Hz. apply dp_1. destruct (Rle_dec a b); [rewrite Rmin_left in Hz by lra|rewrite Rmin_right in Hz by lra]; lra. }
  { intros z Hz. apply continuity_pt_filterlim, @ex_derive_continuous. eexists. apply dp_1. destruct (Rle_dec a b); [rewrite Rmin_left in Hz by lra|rewrite Rmin_right in Hz by lra]; lra. }
  assert (Be : 21848 / 1000 <= e <= 21851 / 1000) by (destruct (Rle_dec a b); [rewrite Rmin_left, Rmax_right in He by lra|rewrite Rmin_right, Rmax_left in He by lra]; lra).
  pose proof (dp_box e Be). rewrite E, Rabs_mult. apply Rmult_le_compat; [apply Rabs_pos|apply Rabs_pos|rewrite Rabs_pos_eq; lra|exact Hc].
Qed.
Lemma exp_near d u e : 0 <= e <= 1 / 1000 -> 0 < d <= 22 -> Rabs (u - - ln d) <= e -> Rabs (exp (- u) - d) <= 23 * e.
Proof.
  intros He Hd Hu. replace (- u) with (ln d + - (u - - ln d)) by ring. rewrite exp_plus, exp_ln by lra. set (w := - (u - - ln d)) in *.
  assert (Hw : Rabs w <= e) by (unfold w; rewrite Rabs_Ropp; exact Hu). clearbody w. replace (d * exp w - d) with (d * (exp w - 1)) by ring. rewrite Rabs_mult, (Rabs_pos_eq d) by lra.
  assert (G : Rabs (exp w - 1) <= 101 / 100 * e).
  { apply Raux.Rabs_le_inv in Hw. pose proof (exp_ineq1_le w) as X1. pose proof (exp_ineq1_le (- w)) as X2. rewrite exp_Ropp in X2. pose proof (exp_pos w).
    assert (exp w <= / (1 - w)). { apply (Rmult_le_reg_r (/ exp w)); [now apply Rinv_0_lt_compat|]. rewrite Rinv_r by lra. apply (Rmult_le_reg_l (1 - w)); [lra|]. replace ((1 - w) * (/ (1 - w) * / exp w)) with (/ exp w) by (field; lra). lra. }
    assert (/ (1 - w) <= 1 + 101 / 100 * e). { apply (Rmult_le_reg_l (1 - w)); [lra|]. rewrite Rinv_r by lra. nra. }
    apply Rabs_le. lra. }
  apply Rle_trans with (22 * (101 / 100 * e)); [apply Rmult_le_compat; [lra|apply Rabs_pos|lra|exact G]|lra].
Qed.
Lemma start_fine g : fin g -> 21 <= bR g <= 22 ->
  fin (Bopp (lm_ln m g)) /\ -4 <= bR (Bopp (lm_ln m g)) <= -3 /\ Rabs (uof m (Bopp (lm_ln m g)) - - ln (bR g)) <= 1 / 5000000000000.
Proof.
  intros F H. assert (L : 304 / 100 <= ln (bR g) <= 31 / 10) by (split; interval).
  destruct (ap_ln m A g F ltac:(lra) ltac:(apply Rabs_le; lra)) as (Fl & E1 & _).
  assert (La : Rabs (ln (bR g)) <= 31 / 10) by (apply Rabs_le; lra).
  rewrite u64_val in E1. change (IZR 8) with 8 in E1.
  assert (E2 : Rabs (bR (lm_ln m g) - ln (bR g)) <= 1 / 10000000000000) by lra. apply Raux.Rabs_le_inv in E2.
  assert (Fo : fin (Bopp (lm_ln m g))) by (unfold fin; now rewrite is_finite_Bopp). assert (Eo : bR (Bopp (lm_ln m g)) = - bR (lm_ln m g)) by apply B2R_Bopp.
  assert (Ro : -4 <= bR (Bopp (lm_ln m g)) <= -3) by lra.
  split; [exact Fo|]. split; [exact Ro|]. destruct (uof_ok m A _ Fo ltac:(lra)) as (_ & _ & U). apply Raux.Rabs_le_inv in U. apply Rabs_le. lra.
Qed.
Lemma start_at : exists g, fin g /\ 2184904 / 100000 <= bR g <= 2184951 / 100000 /\ Rabs (p (bR g) - 3 / 10000) <= 1 / 10000000.
Proof.
  destruct p_at as (e & He & Ee). set (n := Zfloor (e * 4398046511104)).
  assert (Hn : IZR n <= e * 4398046511104 < IZR n + 1) by (split; [apply Zfloor_lb|apply Zfloor_ub]).
  assert (Zn : (0 <= n + 1 < 2 ^ 53)%Z).
  { split; [apply le_IZR|apply lt_IZR]; rewrite plus_IZR; [lra|]. change (IZR (2 ^ 53)) with 9007199254740992. lra. }
  destruct (bdy_R (n + 1) (-42)) as [F R]; [lia|lia|]. rewrite plus_IZR in R. change (p2 (-42)) with (/ 4398046511104) in R.
  exists (bdy (n + 1) (-42)). split; [exact F|]. assert (Q : Rabs (bR (bdy (n + 1) (-42)) - e) <= 1 / 4000000000000) by (rewrite R; apply Rabs_le; lra).
  apply Raux.Rabs_le_inv in Q as Q'. split; [split; [|lra]|].
  - destruct (Rle_dec (21849049 / 1000000) e) as [G|G]; [lra|exfalso].
    assert (QQ : Rabs (e - 21849 / 1000) <= 1 / 20001) by (apply Rabs_le; lra). pose proof (p_lip (21849 / 1000) e (1 / 20001) ltac:(lra) ltac:(lra) QQ) as Q3. pose proof p_lo3 as N. fold p in N, Ee. apply Raux.Rabs_le_inv in Q3. lra.
  - fold p in Ee. rewrite <- Ee. eapply Rle_trans; [apply (p_lip e _ (1 / 4000000000000)); [lra|lra|exact Q]|lra].
Qed.
Local Opaque ar_of ar00 ar01 ar02 ar03 ar10 ar11 ar20 cTun cBs cCsn cK3 x_diff pa0 pmm tab pressure properties.
Lemma run1 V (s1 : @Detail B) g w : separated 0 V -> (forall y e, In (y, e) V -> length y = 21%nat) -> @HistoryDetail.hinv B dp_new V s1 ->
  d_x s1 = map x (seq 0 21) -> d_t s1 = t -> DetailModel.d_p s1 = P -> d_d s1 = Bopp g -> In (map x (seq 0 21), t) V -> fin g -> 21 <= bR g ->
  let v := Bopp (lm_ln m g) in let d := lm_exp m (Bopp v) in fin v -> -4 <= bR v <= -3 ->
  Bltb (@pp B K t d) (blit (L 1 (-15))) = false -> Bltb (@pdpdd B K t d) (blit (L 1 (-15))) = false ->
  w = wN m P (@pp B K t d) (@pdpdd B K t d) d -> fin w -> Rabs (bR w) <= 9 / 100000000 ->
  exists s3, dstep (A := B) (Density 0) s1 = Some (s3, ODens (A := B) ROk) /\ d_x s3 = map x (seq 0 21) /\ d_t s3 = t /\ DetailModel.d_p s3 = P /\ d_d s3 = lm_exp m (Bopp (bsub v w)).
Proof.
  intros HV HL Hh Ex Et Ep Ed Hin Fg Rg v d Fv Rv T1 T2 Hw Fw W.
  destruct (@HistoryDetail.press_hist B dp_new V HV HL (@set_d_d B d (@set_d_d B g s1)) (@HistoryDetail.hinv_poke B dp_new V PD d _ (@HistoryDetail.hinv_poke B dp_new V PD g s1 Hh))) as (s2 & E2 & _ & Hf & _ & E3);
    [cbn; change (In (d_x s1, d_t s1) V); rewrite Ex, Et; exact Hin|].
  change (d_x (@set_d_d B d (@set_d_d B g s1))) with (d_x s1) in *. change (d_t (@set_d_d B d (@set_d_d B g s1))) with (d_t s1) in *. change (d_d (@set_d_d B d (@set_d_d B g s1))) with d in *.
  rewrite Ex, Et in E2, E3.
  assert (Edd : d_d s2 = d) by (apply (proj2 Hf PD); intros [|[]]; discriminate).
  exists (@set_d_d B (lm_exp m (Bopp (bsub v w))) s2). split; [|split; [|split; [|split]]].
  - cbn [dstep]. unfold density. rewrite (@density_start_eq B).
    assert (Q : @flt B (@fabs B (DetailModel.d_p s1)) (@EPSILON B) = false).
    { rewrite Ep. change (Bltb (Babs P) (blit (L 1 (-15))) = false). rewrite (abs_lt P (L 1 (-15)) eq_refl eq_refl). apply Rlt_bool_false. rewrite PR, Rabs_pos_eq by lra. pose proof eps_top. assert (P49 : p2 (-49) <= 1 / 100000000) by (change (p2 (-49)) with (/ 562949953421312); lra). lra. }
    rewrite Q. cbv zeta.
    assert (GE : @dguess B s1 = g).
    { unfold dguess. rewrite Ed. change (@flt B (@fneg B (@EPSILON B)) (Bopp g)) with (Bltb (Bopp (blit (L 1 (-15)))) (Bopp g)).
      rewrite lt_fin; [|unfold fin; rewrite is_finite_Bopp; reflexivity|unfold fin; now rewrite is_finite_Bopp]. unfold bR. rewrite !B2R_Bopp. fold (bR (blit (L 1 (-15)))). fold (bR g).
      pose proof eps_top. assert (P49 : p2 (-49) <= 1 / 100000000) by (change (p2 (-49)) with (/ 562949953421312); lra).
      rewrite Rlt_bool_false by lra. change (Babs (Bopp g) = g). clear - Rg. destruct g as [sg|sg| |sg mg eg Hg]; try (unfold bR in Rg; cbn in Rg; exfalso; lra).
      destruct sg; [exfalso|reflexivity]. assert (bR (B754_finite true mg eg Hg) <= 0); [|lra]. unfold bR. cbn [B2R]. left. now apply F2R_lt_0. }
    rewrite GE. rewrite density_loop_S.
    change (@fneg B (@fln B (d_d (@set_d_d B g s1)))) with v.
    rewrite (vok m v Fv ltac:(lra)). cbn [negb]. cbv zeta. change (@fexp B (@fneg B v)) with d. rewrite E2. cbn [bind]. rewrite E3, Edd. fold K.
    match goal with |- context [(@flt B ?a ?b || @flt B ?c ?e)%bool] => change (@flt B a b) with (Bltb (@pdpdd B K t d) (blit (L 1 (-15)))); change (@flt B c e) with (Bltb (@pp B K t d) (blit (L 1 (-15)))) end. rewrite T1, T2. cbn [orb].
    match goal with |- context [@fabs B ?a] => change a with (wN m (DetailModel.d_p s1) (@pp B K t d) (@pdpdd B K t d) d) end. rewrite Ep, <- Hw.
    match goal with |- context [@flt B ?a ?b] => change (@flt B a b) with (Bltb (Babs w) (blit (L 1 (-7)))) end. change (@fsub B v w) with (bsub v w).
    destruct tol_R as [L1 _]. pose proof tol_low as L3. rewrite (abs_lt w (L 1 (-7)) Fw L1). rewrite Rlt_bool_true by lra. reflexivity.
  - exact (eq_trans (proj1 Hf) Ex).
  - rewrite <- Et. apply (proj2 Hf PT). intros [|[]]; discriminate.
  - rewrite <- Ep. apply (proj2 Hf PP). intros [|[]]; discriminate.
  - reflexivity.
Qed.
Lemma run2 V (s3 : @Detail B) : separated 0 V -> (forall y e, In (y, e) V -> length y = 21%nat) -> @HistoryDetail.hinv B dp_new V s3 ->
  d_x s3 = map x (seq 0 21) -> d_t s3 = t -> In (map x (seq 0 21), t) V ->
  exists s4, dstep (A := B) (Pressure (A := B)) s3 = Some (s4, OVal (A := B) (@pp B K t (d_d s3))) /\ dread (A := B) PP s4 = DetailModel.d_p s3 /\ dread (A := B) PD s4 = d_d s3.
Proof.
  intros HV HL Hh Ex Et Hin.
  destruct (@HistoryDetail.press_hist B dp_new V HV HL s3 Hh) as (s4 & E4 & _ & Hf4 & _); [rewrite Ex, Et; exact Hin|]. rewrite Ex, Et in E4. fold K in E4.
  exists s4. split; [|split].
  - cbn [dstep]. rewrite E4. reflexivity.
  - apply (proj2 Hf4 PP). intros [|[]]; discriminate.
  - apply (proj2 Hf4 PD). intros [|[]]; discriminate.
Qed.
Lemma false_double : exists (g : b64) s (ph : b64),
  @dexec B New [SetX (A := B) x; Poke (A := B) PT t; Poke (A := B) PP P; Poke (A := B) PD (Bopp g); Density (A := B) 0; Pressure (A := B)]
    = Some (s, [OUnit; OUnit; OUnit; OUnit; ODens (A := B) ROk; OVal (A := B) ph]) /\
  (fin g /\ 21 <= bR g <= 22) /\ dread (A := B) PP s = P /\ (fin (dread (A := B) PD s) /\ -1 < detail_p (fun j => bR (x j)) (bR t) (bR (dread (A := B) PD s)) < 1) /\ fin ph /\ -1 < bR ph < 1.
Proof.
  destruct start_at as (g & Fg & Rg & Pg). exists g.
  set (l := [SetX (A := B) x; Poke (A := B) PT t; Poke (A := B) PP P; Poke (A := B) PD (Bopp g)]).
  assert (S1 : separated 0 (dasked (l ++ [Density (A := B) 0]))) by exact (bsep1 m x t P 0 Hx Hs HT).
  assert (S2 : separated 0 (dasked ((l ++ [Density (A := B) 0]) ++ [Pressure (A := B)]))).
  { destruct S1 as [A1 A2]. split.
    - intros a b c e H1 H2. apply (A1 a b c e); [destruct H1 as [H1|[H1|[]]]|destruct H2 as [H2|[H2|[]]]]; (left; assumption).
    - intros a b H1. apply (A2 a b). destruct H1 as [H1|[H1|[]]]; (left; assumption). }
  (* the first evaluation *)
  destruct (start_fine g Fg ltac:(lra)) as (Fv & Rv & Uv). set (v := Bopp (lm_ln m g)) in *.
  destruct (uof_ok m A v Fv ltac:(lra)) as (Fd & Ld & _). set (d := lm_exp m (Bopp v)) in *.
  assert (d0 : 0 < bR d) by (pose proof (p2_pos (-200)); lra).
  assert (Ed : exp (- uof m v) = bR d) by (unfold uof; fold d; rewrite Ropp_involutive; now apply exp_ln).
  pose proof (exp_near (bR g) (uof m v) (1 / 5000000000000) ltac:(lra) ltac:(lra) Uv) as Nd. rewrite Ed in Nd.
  assert (Nd' : Rabs (bR d - bR g) <= 1 / 200000000000) by lra. apply Raux.Rabs_le_inv in Nd' as Nd2.
  assert (Rd : 21849 / 1000 <= bR d <= 21850 / 1000) by lra.
  destruct (ev_p d Fd ltac:(lra) (or_intror Rd)) as [Fp Ep]. destruct (ev_q d Fd Rd) as [Fq Eq]. set (ph := @pp B K t d) in *. set (qh := @pdpdd B K t d) in *.
  assert (Pd : Rabs (p (bR d) - p (bR g)) <= 20000 * (1 / 200000000000)) by (apply p_lip; lra).
  pose proof (slope_lo (bR d) Rd) as Sl. pose proof (dp_box (bR d) ltac:(lra)) as Su.
  assert (Php : 18 / 100000 <= bR ph <= 42 / 100000). { apply Raux.Rabs_le_inv in Pd, Ep, Pg. lra. }
  assert (Qh : 5999 <= bR qh <= 20001). { apply Raux.Rabs_le_inv in Eq. lra. }
  pose proof eps_R as [Fe _]. pose proof eps_top as Te. assert (P49 : p2 (-49) <= 1 / 100000000) by (change (p2 (-49)) with (/ 562949953421312); lra).
  assert (T1 : Bltb ph (blit (L 1 (-15))) = false) by (apply below; [exact Fp|exact Fe|lra]).
  assert (T2 : Bltb qh (blit (L 1 (-15))) = false) by (apply below; [exact Fq|exact Fe|lra]).
  assert (P50 : p2 (-50) <= 1 / 100000000) by (change (p2 (-50)) with (/ 1125899906842624); lra).
  assert (T650 : 1000000 <= p2 550 /\ p2 550 <= p2 650) by (split; [apply Rle_trans with (p2 20); [change (p2 20) with 1048576; lra|apply bpow_le; lia]|apply bpow_le; lia]).
  pose proof (w_ap m A P ph qh d eq_refl ltac:(rewrite PR; lra) Fp ltac:(lra) Fq ltac:(lra) Fd ltac:(split; [exact Ld|change (p2 12) with 4096; lra])) as WA.
  set (w := wN m P ph qh d) in *. destruct WA as (Fw & Ew & _ & _). rewrite PR in Ew.
  assert (Lp : - (87 / 10) <= ln (bR ph) <= - (77 / 10)) by (split; interval). assert (LP : 85 / 10 <= ln 5000 <= 86 / 10) by (split; interval).
  assert (DQ : 21849 / 1000 * 5999 <= bR d * bR qh) by (apply Rmult_le_compat; lra).
  assert (G : 0 <= bR ph / (bR d * bR qh) <= 33 / 10000000000).
  { split; [apply Rlt_le, Rdiv_lt_0_compat; lra|]. apply (Rmult_le_reg_r (bR d * bR qh)); [lra|]. unfold Rdiv. rewrite Rmult_assoc, Rinv_l by lra. lra. }
  assert (W : Rabs (bR w) <= 9 / 100000000).
  { set (gg := bR ph / (bR d * bR qh)) in *.
    assert (E1 : (ln (bR ph) - ln 5000) * bR ph / (bR d * bR qh) = (ln (bR ph) - ln 5000) * gg) by (unfold gg; field; lra).
    assert (E2 : (Rabs (ln (bR ph)) + 1 + (Rabs (ln 5000) + 1)) * bR ph / (bR d * bR qh) = (Rabs (ln (bR ph)) + 1 + (Rabs (ln 5000) + 1)) * gg) by (unfold gg; field; lra).
    rewrite E1, E2 in Ew. clear E1 E2.
    assert (B1 : 0 <= (ln 5000 - ln (bR ph)) * gg <= 18 * (33 / 10000000000)) by (split; [apply Rmult_le_pos; lra|apply Rmult_le_compat; lra]).
    assert (B2 : (Rabs (ln (bR ph)) + 1 + (Rabs (ln 5000) + 1)) * gg <= 20 * (33 / 10000000000)).
    { apply Rmult_le_compat; try lra; [pose proof (Rabs_pos (ln (bR ph))); pose proof (Rabs_pos (ln 5000)); lra|]. rewrite (Rabs_left1 (ln (bR ph))), (Rabs_pos_eq (ln 5000)) by lra. lra. }
    rewrite u64_val in Ew. apply Raux.Rabs_le_inv in Ew. apply Rabs_le. lra. }
  apply Raux.Rabs_le_inv in W as W'.
  destruct (sub_near v w Fv Fw ltac:(apply Rabs_le; lra) ltac:(apply Rabs_le; lra)) as [Fs Es]. apply Raux.Rabs_le_inv in Es as Es'.
  destruct (uof_ok m A (bsub v w) Fs ltac:(lra)) as (Fd2 & Ld2 & Ud2). set (d2 := lm_exp m (Bopp (bsub v w))) in *.
  assert (d20 : 0 < bR d2) by (pose proof (p2_pos (-200)); lra).
  assert (Ed2 : exp (- uof m (bsub v w)) = bR d2) by (unfold uof; fold d2; rewrite Ropp_involutive; now apply exp_ln).
  destruct (uof_ok m A v Fv ltac:(lra)) as (_ & _ & Uv2).
  assert (Nu2 : Rabs (uof m (bsub v w) - - ln (bR g)) <= 1 / 10000000). { apply Raux.Rabs_le_inv in Ud2, Uv, Uv2. apply Rabs_le. lra. }
  pose proof (exp_near (bR g) _ (1 / 10000000) ltac:(lra) ltac:(lra) Nu2) as N2. rewrite Ed2 in N2.
  assert (N2' : Rabs (bR d2 - bR g) <= 1 / 400000) by lra. apply Raux.Rabs_le_inv in N2' as N3.
  assert (Pd2 : Rabs (p (bR d2) - p (bR g)) <= 20000 * (1 / 400000)) by (apply p_lip; lra).
  (* the run *)
  assert (R1 : exists s1, @dexec B New l = Some (s1, [OUnit; OUnit; OUnit; OUnit]) /\ d_x s1 = map x (seq 0 21) /\ d_t s1 = t /\ DetailModel.d_p s1 = P /\ d_d s1 = Bopp g).
  { exists (set_d_d (Bopp g : @F B) (set_d_p (P : @F B) (set_d_t (t : @F B) (@set_d_x B (map x (seq 0 21)) detail_fresh)))). split; [apply (@dexec_new B); reflexivity|]. generalize (@detail_fresh B). intros q0. repeat split. }
  destruct R1 as (s1 & R1 & Ex1 & Et1 & Ep1 & Ed1).
  destruct (@d_hinv B New l [Density (A := B) 0] s1 _ R1 S1) as (Hh & Hin & HL). specialize (Hin _ (or_introl eq_refl)). rewrite Ex1, Et1 in Hin.
  destruct (run1 _ s1 g w S1 HL Hh Ex1 Et1 Ep1 Ed1 Hin Fg ltac:(lra) Fv Rv T1 T2 eq_refl Fw W) as (s3 & ED & Ex3 & Et3 & Ep3 & Ed3).
  assert (R2 : @dexec B New (l ++ [Density (A := B) 0]) = Some (s3, [OUnit; OUnit; OUnit; OUnit] ++ [ODens (A := B) ROk])).
  { eapply (@dexec_app B); [exact R1|]. cbn [drun]. rewrite ED. reflexivity. }
  destruct (@d_hinv B New (l ++ [Density (A := B) 0]) [Pressure (A := B)] s3 _ R2 S2) as (Hh3 & Hin3 & HL3). specialize (Hin3 _ (or_introl eq_refl)). rewrite Ex3, Et3 in Hin3.
  destruct (run2 _ s3 S2 HL3 Hh3 Ex3 Et3 Hin3) as (s4 & E4 & Ep4 & Ed4). fold v in Ed3. fold d2 in Ed3. rewrite Ed3 in E4, Ed4. rewrite Ep3 in Ep4.
  assert (Rd2 : 21849 / 1000 <= bR d2 <= 21850 / 1000) by lra.
  destruct (ev_p d2 Fd2 ltac:(lra) (or_intror Rd2)) as [Fp2 Ep2].
  exists s4, (@pp B K t d2). split; [|split; [|split; [|split; [|split]]]].
  - refine (@dexec_app B New (l ++ [Density (A := B) 0]) [Pressure (A := B)] s3 _ s4 [OVal (A := B) (@pp B K t d2)] R2 _). cbn [drun]. rewrite E4. reflexivity.
  - split; [exact Fg|lra].
  - exact Ep4.
  - rewrite Ed4, xR, tR. fold p. split; [exact Fd2|]. apply Raux.Rabs_le_inv in Pd2, Pg. lra.
  - exact Fp2.
  - apply Raux.Rabs_le_inv in Pd2, Pg, Ep2. lra.
Qed.
End M.
