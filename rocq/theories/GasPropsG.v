(* The whole computation with GERG-2008 for a natural gas near base conditions, in double precision. *)
From Coq Require Import Reals ZArith List Bool Lra Lia Psatz.
From Coquelicot Require Import Coquelicot.
From Flocq Require Import Core BinarySingleNaN.
From Verif Require GenericLemmas.
From Verif Require Import FArith Prelude Tab ArithB64 B64Lemmas ArithR RSum DetailPure SpecGerg SpecIdeal SpecDetail StdGerg SpecStd SpecGas SpecAcc SpecAccG SpecSlopeG SpecConv SpecAll SpecAllF SpecAllD SpecRel SpecHistory SpecGeneric GergTables GergModel GergPure GergRefine GergEval HistoryGerg Api ApiSafe Drift SpecReal GergReal GergIdeal GergThermo IdealGas MassReal
  ConvDetail ConvGerg AccProof AccDensProof B64Err AccEos AccLibm StdGergProof GergEos GAccEos GAccProof GDensProof RelDouble GAllFin GAllMain GAllCase GConvLow SlopeReal FixUp GasThird GasRed2 GasGerg GasCase GasSum GasIdeal GasDerived GasSumG SpecGasState.
Import ListNotations.
Local Open Scope R_scope.

Section Ideal.
Variable x : nat -> R.
Local Notation y := (fun i => x (S i)).
Hypothesis Hx : natural_gas y.
Lemma gmass_range : 144 / 10 <= tot 21 (fun i => x (S i) * tb G_MMI_GERG (S i)) <= 30.
Proof.
  cbn [tot]. unfold tb. cbn [nth G_MMI_GERG].
  destruct Hx as (Hm & G & Ht); unfold gas_limit in G;
  pose proof (G 0%nat ltac:(lia)); pose proof (G 1%nat ltac:(lia)); pose proof (G 2%nat ltac:(lia)); pose proof (G 3%nat ltac:(lia)); pose proof (G 4%nat ltac:(lia));
  pose proof (G 5%nat ltac:(lia)); pose proof (G 6%nat ltac:(lia)); pose proof (G 7%nat ltac:(lia)); pose proof (G 8%nat ltac:(lia)); pose proof (G 9%nat ltac:(lia));
  pose proof (G 10%nat ltac:(lia)); pose proof (G 11%nat ltac:(lia)); pose proof (G 12%nat ltac:(lia)); pose proof (G 13%nat ltac:(lia)); pose proof (G 14%nat ltac:(lia));
  pose proof (G 15%nat ltac:(lia)); pose proof (G 16%nat ltac:(lia)); pose proof (G 17%nat ltac:(lia)); pose proof (G 18%nat ltac:(lia)); pose proof (G 19%nat ltac:(lia));
  pose proof (G 20%nat ltac:(lia)); clear G Hx; cbn [tot nth GAS_LIMITS] in *; cbv [Rlit Z.pow Z.pow_pos Pos.iter Z.mul Pos.mul Pos.add Pos.succ Pos.add_carry Z.opp Z.leb Z.compare] in *.
  split; lra.
Qed.
Lemma gsize2_le T d : 270 <= T <= 350 -> 0 <= ideal_sum 2 x T d <= 708.
Proof.
  intros HT. pose proof (size2_le y Hx T d HT) as Q. assert (PRg : Rg = 8314472 / 1000000) by reflexivity. assert (PRD : RD = 831451 / 100000) by reflexivity.
  assert (E : ideal_sum 2 x T d = RD / Rg * dideal_sum 2 y T d).
  { unfold ideal_sum, dideal_sum. rewrite <- tot_scal. apply tot_ext. intros i _. unfold ideal_size, dideal_size. cbn [tot]. unfold hyp_size, dhyp_size, nsize, n3size. cbv zeta. ring. }
  rewrite E. rewrite PRg, PRD. set (s := dideal_sum _ _ _ _) in *. clearbody s. lra.
Qed.
End Ideal.

Section P.
Variable m : Libm.
Hypothesis A : accurate m.
Local Notation B := (ArithB64 m).
Variables (x : nat -> b64) (t d : b64).
Local Notation r := (fun j => bR (x j)).
Hypothesis Hx : forall j, (1 <= j < 22)%nat -> fin (x j) /\ (bR (x j) = 0 \/ bpow radix2 (-49) <= bR (x j)).
Hypothesis Hg : natural_gas (fun j => bR (x (S j))).
Hypothesis Ft : fin t. Hypothesis HT : 270 <= bR t <= 350.
Hypothesis Fd : fin d. Hypothesis Hd : / 262144 <= bR d <= 573 / 10000.
Lemma gHs : 99 / 100 <= tot 21 (fun j => bR (x (S j))) <= 101 / 100. Proof. apply Hg. Qed.
Lemma gHT : fin t /\ 32 <= bR t <= 2048. Proof. split; [exact Ft|lra]. Qed.
Lemma gd20 : bpow radix2 (-20) <= bR d. Proof. replace (bpow radix2 (-20)) with (/ 1048576) by (cbn; lra). lra. Qed.
Lemma gHd : fin d /\ bpow radix2 (-20) <= bR d. Proof. split; [exact Fd|exact gd20]. Qed.
Local Notation delta := (bR d * vred r).
Local Notation tau := (tred r / bR t).
Lemma vr : 0 <= vred r <= 1162 / 10000.
Proof. rewrite <- vred_std. apply (vol_le r Hg (tb2 G_GVIJ) (tb2 G_GTIJ) (tb2 G_BTIJ)). intros i j Hi Hj. split; [now apply v_std|]. split; [now apply t_std|now apply b_std]. Qed.
Lemma tr : 38 <= tred r <= 25370 / 100.
Proof. rewrite <- tred_std. apply (tmp_le r Hg (tb2 G_GVIJ) (tb2 G_GTIJ) (tb2 G_BTIJ)). intros i j Hi Hj. split; [now apply v_std|]. split; [now apply t_std|now apply b_std]. Qed.
Lemma dl : 0 <= delta <= 666 / 100000.
Proof. pose proof vr. split; [apply Rmult_le_pos; lra|]. apply Rle_trans with (573 / 10000 * (1162 / 10000)); [apply Rmult_le_compat; lra|lra]. Qed.
Lemma ta : 38 / 350 <= tau <= 93964 / 100000.
Proof.
  pose proof tr as Tr. set (T := bR t) in *. assert (PT0 : 0 < / T) by (apply Rinv_0_lt_compat; lra). clearbody T. split.
  + apply Rle_trans with (38 * / T); [|unfold Rdiv; apply Rmult_le_compat_r; [lra|exact (proj1 Tr)]]. unfold Rdiv. apply Rmult_le_compat_l; [lra|]. apply Rinv_le_contravar; lra.
  + apply (Rmult_le_reg_r T); [lra|]. unfold Rdiv at 1. rewrite Rmult_assoc, Rinv_l by lra. rewrite Rmult_1_r. apply Rle_trans with (1 := proj2 Tr). lra.
Qed.
Lemma gHD : delta <= 5 / 2. Proof. pose proof dl. lra. Qed.
Local Notation X := (@xf B (map x (seq 0 22))).
Local Notation lB := (@can_terms B gp_new (map x (seq 0 22)) t d).
Local Notation lR := (@can_terms ArithR gp_new (gxl r) (bR t) (bR d)).
Local Notation fB f := (@gfield B gp_new lB X t d f).
Lemma S1 : 0 <= gerg_sum 1 r delta tau <= 3633 / 100000. Proof. exact (G1_le delta tau dl ta r Hg). Qed.
Lemma S2 : 0 <= gerg_sum 2 r delta tau <= 7302 / 100000. Proof. exact (G2_le delta tau dl ta r Hg). Qed.
Lemma S5 : 0 <= gerg_sum 5 r delta tau <= 5466 / 100000. Proof. exact (G5_le delta tau dl ta r Hg). Qed.
Lemma S7 : 0 <= gerg_sum 7 r delta tau <= 1801 / 10000. Proof. exact (G7_le delta tau dl ta r Hg). Qed.
Lemma aS e : Rabs (@arS ArithR lR e) <= gerg_sum e r delta tau.
Proof. destruct (aSum m A x t d Hx gHs gHT gHd gHD e) as (_ & _ & H & _). exact H. Qed.
Lemma gT7 : 1 / 10000000 < bR t. Proof. lra. Qed.
Lemma ggot f : plain_field f -> fin (fB f) /\ Rabs (bR (fB f) - gvals New r f (bR t) (bR d)) <= 1 / 10000000000 * field_size f r delta tau (bR t) (bR d).
Proof.
  intros Hf. pose proof (fields m A x t d Hx gHs gHT gHd gHD f Hf) as Q. rewrite gprop_ok in Q; [exact Q|exact (some x gHs)|exact gT7].
Qed.
Ltac R1 E := change (@fadd ArithR) with Rplus in E; change (@fsub ArithR) with Rminus in E; change (@fmul ArithR) with Rmult in E; change (@fdiv ArithR) with Rdiv in E; change (@fneg ArithR) with Ropp in E; change (@f1 ArithR) with 1 in E; change (@f2 ArithR) with 2 in E;
  change (GergThermo.gT New r (bR t) (bR d)) with lR in E; rewrite ?RGe in E.
Lemma GTr : 2244 <= Rg * bR t <= 2911. Proof. unfold Rg. lra. Qed.
Lemma gz_val : fin (fB PZ) /\ Rabs (bR (fB PZ) - 1) <= 4 / 100.
Proof.
  destruct (ggot PZ I) as [F E]. split; [exact F|]. pose proof (aS 1) as H1. pose proof S1 as H2.
  set (v := bR (fB PZ)) in *. clearbody v. cbn [gvals field_size] in E. unfold gqz in E. R1 E.
  set (a1 := @arS ArithR lR 1) in *. set (s := gerg_sum 1 _ _ _) in *. clearbody a1 s. apply Rabs_le_inv in E. apply Rabs_le_inv in H1. apply Rabs_le. lra.
Qed.
(* the second log derivative, by the sharper size *)
Lemma a12 : Rabs (@arS ArithR lR 1 + @arS ArithR lR 2) <= 38 / 1000.
Proof.
  destruct (small_residual (ac r) tau (GergEos.ac_ge0 r)) as (_ & f1 & f2 & H).
  pose proof (GDensProof.v_pos x Hx gHs) as VP. set (v := vred r) in *.
  assert (D0 : 0 < bR d) by lra. assert (DV : 0 < bR d * v) by (apply Rmult_lt_0_compat; lra).
  assert (PE : forall e, 0 < e -> gpres New r (bR t) e = e * Rg * bR t * (1 + f1 (e * v))).
  { intros e He. destruct (GDensProof.gpres_res x Hx gHs (bR t) gT7 e) as (a & Da & E). fold v in Da, E. rewrite E. assert (EV : 0 < e * v) by (apply Rmult_lt_0_compat; lra). destruct (H _ EV) as (D & _).
    assert (Ea : a = f1 (e * v) / (e * v)) by (rewrite <- (is_derive_unique _ _ _ Da); exact (is_derive_unique _ _ _ D)). rewrite Ea. field. lra. }
  destruct (H _ DV) as (_ & D2 & C). destruct (C ltac:(pose proof dl; unfold v; lra)) as [_ C2].
  pose proof (proj1 (gerg_pressure_derive New r ltac:(destruct (some x gHs) as (i & Hi & K); exists i; split; [lia|exact K]) (bR t) (bR d) gT7)) as Dp.
  assert (Dq : is_derive (fun e => gpres New r (bR t) e) (bR d) (Rg * bR t * (1 + f1 (bR d * v) + f2 (bR d * v)))).
  { apply (is_derive_ext_loc (fun e => Rg * bR t * (e * (1 + f1 (e * v))))).
    - exists (mkposreal (bR d) D0). intros e He. rewrite (PE e); [toR; ring|]. unfold ball in He; cbn in He. unfold AbsRing_ball, abs, minus, plus, opp in He; cbn in He. apply Rabs_def2 in He. lra.
    - apply is_derive_scal. evar_last; [apply (@is_derive_mult R_AbsRing); [apply is_derive_id|apply (@is_derive_plus R_AbsRing R_NormedModule); [apply is_derive_const|]|intros; apply Rmult_comm]|].
      + apply (is_derive_comp f1 (fun e => e * v)); [exact D2|]. apply (is_derive_ext (fun e => v * e)); [intros; apply Rmult_comm|]. apply is_derive_scal, is_derive_id.
      + unfold plus, mult, one, zero, scal; cbn. unfold mult; cbn. toR. field. lra. }
  assert (E1 : gprop New PDpDd r (bR t) (bR d) = Rg * bR t * (1 + f1 (bR d * v) + f2 (bR d * v))) by (rewrite <- (is_derive_unique _ _ _ Dp); exact (is_derive_unique _ _ _ Dq)).
  assert (E0 : gpres New r (bR t) (bR d) = bR d * Rg * bR t * (1 + f1 (bR d * v))) by (apply PE; lra).
  rewrite (gprop_ok New r (some x gHs) PDpDd (bR t) (bR d) gT7) in E1. rewrite (gpres_ok New r (some x gHs) (bR t) (bR d) gT7) in E0. cbn [gvals] in E1. unfold gqdpdd, grt in E1. unfold gpp in E0. R1 E1. R1 E0. change (gpz lR) with (1 + @arS ArithR lR 1) in E0.
  set (a1 := @arS ArithR lR 1) in *. set (a2 := @arS ArithR lR 2) in *. set (g1 := f1 (bR d * v)) in *. set (g2 := f2 (bR d * v)) in *.
  assert (V2 : gerg_spread (ac r) (bR d * v) tau <= 38 / 1000).
  { pose proof (GV_le delta tau dl ta r Hg) as Q. rewrite <- (spread_ac x Hx) in Q. exact (proj2 Q). }
  assert (PRg : Rg = 8314472 / 1000000) by reflexivity. assert (GT0 : 0 < Rg * bR t) by (rewrite PRg; lra).
  assert (Q1 : 1 + a1 = 1 + g1).
  { apply (Rmult_eq_reg_l (bR d * (Rg * bR t))); [|apply Rgt_not_eq, Rmult_lt_0_compat; lra]. transitivity (bR d * Rg * bR t * (1 + g1)); [|ring]. rewrite <- E0. ring. }
  assert (Q2 : 1 + 2 * a1 + a2 = 1 + g1 + g2).
  { apply (Rmult_eq_reg_l (Rg * bR t)); [exact E1|lra]. }
  replace (a1 + a2) with g2 by lra. lra.
Qed.
Lemma gq_val : fin (fB PDpDd) /\ Rabs (bR (fB PDpDd) - Rg * bR t) <= 75 / 1000 * (Rg * bR t).
Proof.
  destruct (ggot PDpDd I) as [F E]. split; [exact F|]. pose proof (aS 1) as H1. pose proof S1 as K1. pose proof a12 as H2. pose proof S2 as K2. pose proof GTr as G.
  set (v := bR (fB PDpDd)) in *. clearbody v. cbn [gvals field_size] in E. unfold gqdpdd, grt in E. R1 E.
  set (a1 := @arS ArithR lR 1) in *. set (a2 := @arS ArithR lR 2) in *. set (s := gerg_sum 1 _ _ _) in *. set (u := gerg_sum 2 _ _ _) in *. set (g := Rg * bR t) in *. clearbody a1 a2 s u g.
  assert (W : Rabs (2 * a1 + a2) <= 7434 / 100000) by (apply Rabs_le_inv in H1; apply Rabs_le_inv in H2; apply Rabs_le; lra).
  assert (Z : 1 + 2 * s + u <= 2) by lra. apply Rabs_le_inv in E. apply Rabs_le_inv in W.
  replace (g * (1 + 2 * a1 + a2)) with (g + g * (2 * a1 + a2)) in E by ring. set (w := 2 * a1 + a2) in *. set (z := 1 + 2 * s + u) in *. assert (Z0 : 0 <= z) by (unfold z; lra). clearbody w z.
  assert (g * z <= g * 2) by (apply Rmult_le_compat_l; lra). assert (- (7434 / 100000) * g <= g * w <= 7434 / 100000 * g) by nra. apply Rabs_le. lra.
Qed.
Lemma gp_val : fin (fB PDpDt) /\ Rabs (bR (fB PDpDt) - bR d * Rg) <= 143 / 1000 * (bR d * Rg).
Proof.
  destruct (ggot PDpDt I) as [F E]. split; [exact F|]. pose proof (aS 1) as H1. pose proof S1 as K1. pose proof (aS 5) as H2. pose proof S5 as K2. assert (PRg : Rg = 8314472 / 1000000) by reflexivity.
  set (v := bR (fB PDpDt)) in *. clearbody v. cbn [gvals field_size] in E. unfold gqdpdt in E. R1 E.
  set (a1 := @arS ArithR lR 1) in *. set (a2 := @arS ArithR lR 5) in *. set (s := gerg_sum 1 _ _ _) in *. set (u := gerg_sum 5 _ _ _) in *.
  assert (G0 : 0 < bR d * Rg) by (apply Rmult_lt_0_compat; lra). set (g := bR d * Rg) in *. clearbody a1 a2 s u g.
  assert (W : Rabs (a1 - a2) <= 92 / 1000) by (apply Rabs_le_inv in H1; apply Rabs_le_inv in H2; apply Rabs_le; lra).
  apply Rabs_le_inv in E. apply Rabs_le_inv in W. assert (Z0 : 0 <= 1 + s + u <= 2) by lra. set (z := 1 + s + u) in *. 
  replace (g * (1 + a1 - a2)) with (g + g * (a1 - a2)) in E by ring. set (w := a1 - a2) in *. clearbody w z.
  assert (g * z <= g * 2) by (apply Rmult_le_compat_l; lra). assert (- (92 / 1000) * g <= g * w <= 92 / 1000 * g) by nra. apply Rabs_le. lra.
Qed.
Lemma gcv_zero : - Rg * xf (@ga0 ArithR gp_new (gX r) (bR t) (bR d)) 2 = mix_cv RD (nn (fun i => bR (x (S i)))) (bR t).
Proof.
  transitivity (mix_cv RD (down (ac r)) (bR t)).
  - rewrite <- (ga_cv r (bR t) gT7). f_equal.
    destruct (@ga0_entries gp_new (gX r) (bR t) (bR d)) as (_ & _ & E). unfold ge2 in E. rewrite E.
    unfold ga0sum. rewrite (fold_trip (fun i st => @ga0_step ArithR gp_new (gX r) (bR t) (bR d) i st) (fun i => @ga0_inc gp_new (gX r) (bR t) (bR d) i)) by (intros; apply ga0_step_inc).
    rewrite (fold_trip (fun i st => @ga0_step ArithR GN (gX r) (bR t) 0 i st) (fun i => @ga0_inc gp_new (gX r) (bR t) 0 i)) by (intros; apply ga0_step_inc).
    rewrite !p3E. f_equal. apply rsum_ext. intros i _. unfold ga0_inc. destruct (Rltb _ _); reflexivity.
  - unfold mix_cv. f_equal. change (sum 21) with (tot 21). apply tot_ext. intros i Hi. f_equal. unfold down. rewrite (ac_r x Hx) by lia. symmetry. apply (nn_x _ Hg i Hi).
Qed.
Lemma gv_val : fin (fB PCv) /\ 5 / 2 * Rg <= bR (fB PCv) <= 47 / 10 * Rg.
Proof.
  destruct (ggot PCv I) as [F E]. split; [exact F|]. pose proof (aS 7) as H1. pose proof S7 as K1. pose proof (gsize2_le r Hg (bR t) (bR d) HT) as I2.
  set (v := bR (fB PCv)) in *. clearbody v. cbn [gvals field_size] in E. unfold gqcv in E. R1 E.
  pose proof gcv_zero as C. pose proof (cv_range _ Hg (bR t) HT) as V. rewrite <- C in V. clear C. cbn [gpar] in E.
  set (a1 := @arS ArithR lR 7) in *. set (s1 := gerg_sum 7 _ _ _) in *. set (i2 := ideal_sum 2 _ _ _) in *. assert (PRg : Rg = 8314472 / 1000000) by reflexivity.
  set (a0 := xf _ 2) in *. clearbody a0 a1 s1 i2. rewrite PRg in *. unfold RD in *. apply Rabs_le_inv in E. apply Rabs_le_inv in H1. lra.
Qed.
Lemma gm_val : fin (fB PMM) /\ 143 / 10 <= bR (fB PMM) <= 301 / 10.
Proof.
  destruct (mvalue m x t d Hx gHs gHT) as [F E]. split; [exact F|]. pose proof (g_mass New r (bR t) (bR d) gT7 (some x gHs)) as G.
  assert (M : 144 / 10 <= SpecDetail.sum 21 (fun i => bR (x (S i)) * tb G_MMI_GERG (S i)) <= 30) by exact (gmass_range r Hg). cbv beta in G. rewrite <- G in M. set (mm := gprop New PMM _ _ _) in *. clearbody mm. apply Rabs_le_inv in E. lra.
Qed.
End P.

Section Run.
Variable m : Libm.
Hypothesis A : accurate m.
Local Notation B := (ArithB64 m).
Variables (x : nat -> b64) (t P : b64) (i : Z).
Local Notation r := (fun j => bR (x j)).
Hypothesis Hi : (i <= 0)%Z.
Hypothesis Hx : forall j, (1 <= j < 22)%nat -> fin (x j) /\ (bR (x j) = 0 \/ bpow radix2 (-49) <= bR (x j)).
Hypothesis Hg : natural_gas (fun j => bR (x (S j))).
Hypothesis Ht : fin t /\ 270 <= bR t <= 350.
Hypothesis HP : fin P /\ 1 / 10 <= bR P <= 110.
Local Notation T := (bR t).
Local Notation d0 := (bR P / Rg / T).
Let l : list (@op B) := [SetX (A := B) x; Poke (A := B) PT t; Poke (A := B) PP P].
Let s1 : @Gerg B := set_g_p (P : @F B) (set_g_t (t : @F B) (@set_g_x B (map x (seq 0 22)) gerg_fresh)).
Lemma glsep : separated (A := B) 1 (gasked (A := B) ((l ++ [Density (A := B) i]) ++ [Properties (A := B)])).
Proof.
  destruct (gbsep1 m x t P i Hx (proj2 (proj2 Hg)) (gHT t (proj1 Ht) (proj2 Ht))) as [Q1 Q2]. cbn [l app gasked asked In] in *. split.
  - intros a b c e [[= <- <-]|[[= <- <-]|[]]] [[= <- <-]|[[= <- <-]|[]]]; split; now left.
  - intros a b H. apply Q2. destruct H as [H|[H|[]]]; now left.
Qed.
Lemma gas_state_gerg : exists s v, @gexec B New [SetX (A := B) x; Poke (A := B) PT t; Poke (A := B) PP P; Density (A := B) i; Properties (A := B)]
    = Some (s, [OUnit; OUnit; OUnit; ODens (A := B) ROk; OVal (A := B) v]) /\ fin v /\
  gas_state Rg T (bR P) (bR v) (fun k => gread (A := B) k s).
Proof.
  destruct Ht as [Ft RT]. destruct HP as [FP RP]. assert (PRg : Rg = 8314472 / 1000000) by reflexivity.
  pose proof (start_range Rg (bR P) T ltac:(lra) RP RT) as Q1. pose proof (start_top Rg (bR P) T ltac:(lra) ltac:(lra) (proj1 RT)) as Q2.
  pose proof (vr x Hg) as Vr. pose proof (ta x t Hg RT) as Tr.
  assert (Dl : 0 <= 4 * d0 * vred r <= 22776 / 1000000) by (set (q := d0) in *; clearbody q; split; [apply Rmult_le_pos; lra|]; apply Rle_trans with (196 / 1000 * (1162 / 10000)); [apply Rmult_le_compat; lra|lra]).
  destruct (glow_bstep m A x t P i Hi Hx (proj2 (proj2 Hg)) (gHT t Ft RT) FP Q1) with (p := gpres New r T) as (s & e & E1 & [Fx Ff] & Fd & Ep & Ed & Er & _).
  { apply Rle_trans with (1 := proj2 Dl). lra. }
  { exact (gspread_le (4 * d0 * vred r) (tred r / T) Dl Tr r Hg). }
  { reflexivity. }
  cbv zeta in *. set (d := gread (A := B) PD s) in *.
  assert (R1 : @gexec B New (l ++ [Density (A := B) i]) = Some (s, [OUnit; OUnit; OUnit] ++ [ODens (A := B) ROk])).
  { eapply (@gexec_app B); [exact (gbrun1 m x t P)|]. cbn [grun]. match goal with |- context [@gstep ?a ?b ?c] => assert (EL : @gstep a b c = Some (s, ODens (A := B) ROk)) by exact E1; rewrite EL end. reflexivity. }
  assert (X22 : g_x s = map x (seq 0 22)) by (rewrite Fx; reflexivity).
  assert (Et : gread (A := B) PT s = t) by (rewrite Ff by (cbn; intuition discriminate); reflexivity).
  assert (EpP : gread (A := B) PP s = P) by (rewrite Ff by (cbn; intuition discriminate); reflexivity).
  destruct (gprops_run m _ s _ x R1 glsep X22) as (s' & E' & Et' & Ed' & Hf). cbv zeta in Hf, E'. rewrite Et in *. fold d in Ed', Hf, E'.
  assert (Rd : / 262144 <= bR d <= 573 / 10000).
  { replace (bpow radix2 (-17)) with (/ 131072) in Q1 by (cbn; lra). apply Rabs_le_inv in Ed. set (dd0 := bR P / Rg / T) in *. clearbody dd0. clear - Q1 Q2 Ed Er. lra. }
  destruct (pvalue m A x t d Hx (gHs x Hg) (gHT t Ft RT) (gHd d Fd Rd) (gHD x d Hg Rd)) as [Fv Pv].
  set (v := gqp _ _ _) in *.
  assert (R2 : @gexec B New ((l ++ [Density (A := B) i]) ++ [Properties (A := B)]) = Some (s', ([OUnit; OUnit; OUnit] ++ [ODens (A := B) ROk]) ++ [OVal (A := B) v])).
  { eapply (@gexec_app B); [exact R1|]. cbn [grun]. match goal with |- context [@gstep ?a ?b ?c] => assert (EL : @gstep a b c = Some (s', OVal (A := B) v)) by exact E'; rewrite EL end. reflexivity. }
  exists s', v. split; [exact R2|]. split; [exact Fv|].
  assert (Hr : greach (A := B) s) by (exists New; eexists; eexists; exact R1).
  destruct (grel m A s s' _ Hr E') as (G & Gp).
  { rewrite Et'. exact (gHT t Ft RT). }
  { rewrite Ed'. split; [exact Fd|]. split; [exact (gd20 d Rd)|]. lra. }
  pose proof (gz_val m A x t d Hx Hg Ft RT Fd Rd) as V1. pose proof (gq_val m A x t d Hx Hg Ft RT Fd Rd) as V2. pose proof (gp_val m A x t d Hx Hg Ft RT Fd Rd) as V3.
  pose proof (gv_val m A x t d Hx Hg Ft RT Fd Rd) as V4. pose proof (gm_val m x t d Hx Hg Ft RT) as V5.
  pose proof (ggot m A x t d Hx Hg Ft RT Fd Rd) as V6.
  assert (V7 : forall f, plain_field f -> fin (gread (A := B) f s')) by (intros f Pf; rewrite Hf by (destruct f; try contradiction Pf; exact I); exact (proj1 (V6 f Pf))). clear V6.
  rewrite <- !Hf in V1, V2, V3, V4, V5 by exact I. clear Hf.
  destruct V1 as [F1 V1]. destruct V2 as [F2 V2]. destruct V3 as [F3 V3]. destruct V4 as [F4 V4]. destruct V5 as [F5 V5].
  assert (EpP' : gread (A := B) PP s' = P).
  { destruct (@GenericLemmas.gconfined B s s' (OVal (A := B) v) Hr) as [_ Q]. destruct (Q E') as (_ & Q0 & _). etransitivity; [exact Q0|exact EpP]. }
  set (f k := gread (A := B) k s') in *.
  assert (ET : bR (f PT) = T) by (unfold f; now rewrite Et'). assert (ED : bR (f PD) = bR d) by (unfold f; now rewrite Ed').
  assert (EP : Rabs (bR v - bR P) <= 2 / 10000000 * bR P).
  { pose proof (S1 x t d Hg RT Rd) as K1. unfold field_size in Pv. set (sz := gerg_sum 1 _ _ _) in *. set (pr := gpres _ _ _ _) in *. apply Rabs_le_inv in Ep.
    assert (PE : bR P = d0 * Rg * T) by (field; lra). set (dd0 := bR P / Rg / T) in *. clearbody dd0 sz pr. clearbody v.
    assert (Q : bR d * (Rg * T) * (1 + sz) <= 2 * bR P).
    { apply Rabs_le_inv in Ed. rewrite PE. assert (0 < Rg * T) by (apply Rmult_lt_0_compat; lra). apply Rle_trans with (bR d * (Rg * T) * (11 / 10)); [apply Rmult_le_compat_l; [apply Rmult_le_pos; lra|lra]|].
      replace (bR d * (Rg * T) * (11 / 10)) with (Rg * T * (bR d * (11 / 10))) by ring. replace (2 * (dd0 * Rg * T)) with (Rg * T * (2 * dd0)) by ring. apply Rmult_le_compat_l; lra. }
    apply Rabs_le_inv in Pv. apply Rabs_le. lra. }
  assert (Rd' : / 262144 <= bR (f PD) <= 6 / 100) by (rewrite ED; lra).
  assert (RT' : 270 <= bR (f PT) <= 350) by (rewrite ET; exact RT).
  assert (HG : 831 / 100 <= Rg <= 832 / 100) by lra.
  change (Rabs (bR (f PZ) - 1) <= 4 / 100) in V1. change (Rabs (bR (f PDpDd) - Rg * T) <= 75 / 1000 * (Rg * T)) in V2. change (Rabs (bR (f PDpDt) - bR d * Rg) <= 143 / 1000 * (bR d * Rg)) in V3.
  change (5 / 2 * Rg <= bR (f PCv) <= 47 / 10 * Rg) in V4. change (143 / 10 <= bR (f PMM) <= 301 / 10) in V5.
  pose proof V2 as V2'. pose proof V3 as V3'. rewrite <- ET in V2'. rewrite <- ED in V3'.
  assert (W6 : fin (f PCp) /\ 68 / 100 * Rg <= bR (f PCp) - bR (f PCv) <= 142 / 100 * Rg) by (eapply cp_val; eassumption). destruct W6 as [F6 V6].
  assert (F7 : fin (f PJt)) by (eapply (jt_val Rg); eassumption).
  assert (W8 : fin (f PW) /\ 280 <= bR (f PW) <= 590) by (edestruct (w_val Rg f) as (W1 & W2 & _); [eassumption..|]; now split). destruct W8 as [F8 V8].
  assert (W9 : fin (f PKappa) /\ 1 < bR (f PKappa) < 9 / 5) by (eapply (k_val Rg); eassumption). destruct W9 as [F9 V9].
  unfold gas_state. cbv beta zeta. split; [|split; [exact ET|split; [exact EP|split; [exact V1|split; [|split; [exact V2|split; [exact V3'|split; [exact V4|split; [exact V6|split; [exact V5|split; [exact V8|exact V9]]]]]]]]]]].
  - intros k. destruct k; try assumption; try (apply V7; exact I).
    + unfold f. rewrite Et'. exact Ft.
    + unfold f. rewrite EpP'. exact FP.
    + unfold f. rewrite Ed'. exact Fd.
  - destruct (Gp (proj1 (pz' f F1 V1))) as (p' & EV & [_ W]). rewrite Et', Ed' in W. injection EV as <-. change (gread (A := B) PZ s') with (f PZ) in W. rewrite ED.
    pose proof (rz f V1) as Z. assert (PE : bR P = d0 * Rg * T) by (field; lra). set (dd0 := bR P / Rg / T) in *. clearbody dd0. set (z := bR (f PZ)) in *. set (p := bR v) in *. clearbody z p.
    rewrite (Rabs_pos_eq z) in W by lra. assert (H0 : 0 < dd0) by lra.
    rewrite PE in EP. replace (dd0 * Rg * T) with (dd0 * (Rg * T)) in EP by ring. set (g := Rg * T) in *. assert (G0 : 0 < g) by (unfold g; apply Rmult_lt_0_compat; lra). set (dd := bR d) in *. assert (HD : 0 < dd) by lra. clearbody g dd.
    apply Rabs_le_inv in W. apply Rabs_le_inv in EP.
    assert (Y : (1 - 3 / 10000000) * dd0 <= dd * z <= (1 + 3 / 10000000) * dd0).
    { clear - W EP G0 H0 HD Z. assert (0 < dd * g) by (apply Rmult_lt_0_compat; lra). split; apply (Rmult_le_reg_r g); nra. }
    clear - Y Z H0. apply Rabs_le. split; nra.
Qed.
End Run.
