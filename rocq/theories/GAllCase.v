(* Methane at 300 K and 2^-10 mol/l, GERG in double precision: the reported fields are positive. *)
From Coq Require Import Reals ZArith List Bool Lra Lia.
From Coquelicot Require Import Coquelicot.
From Flocq Require Import Core BinarySingleNaN.
From Interval Require Import Tactic.
From Verif Require Import FArith Prelude Tab ArithB64 B64Lemmas ArithR RSum DetailPure SpecGerg SpecIdeal SpecDetail StdGerg SpecStd SpecAcc SpecAll SpecAllF SpecRel SpecHistory GergTables GergModel GergPure GergRefine GergEval HistoryGerg Api ApiSafe Drift SpecReal GergReal GergIdeal GergThermo IdealGas MassReal
  ConvCase AccProof AccDensProof B64Err AccEos AccLibm StdGergProof GergEos GAccEos GAccProof RelDouble GAllFin GAllMain.
Import ListNotations.
Local Open Scope R_scope.

Definition dd : b64 := @B754_finite 53 1024 false 4503599627370496 (-62) eq_refl.
Lemma dd_R : bR dd = 1 / 1024.
Proof. unfold dd. cbn. unfold F2R. cbn. lra. Qed.
Definition ch4d (i : nat) : b64 := match i with 1%nat => bofZ 1 | _ => B0 end.
Local Notation r := (fun i => bR (ch4d i)).
Lemma ch4d_R i : bR (ch4d i) = match i with 1%nat => 1 | _ => 0 end.
Proof. destruct i as [|[|i]]; [reflexivity|apply ofZ_R; lia|reflexivity]. Qed.
Lemma tot_nil n f : (forall i, (i < n)%nat -> f i = 0) -> tot n f = 0.
Proof. intros H. induction n as [|n IH]; [reflexivity|]. cbn [tot]. rewrite IH, (H n) by (intros; auto with arith). ring. Qed.
Lemma ch4_vol gv : red_volume r gv = gv 1%nat 1%nat.
Proof.
  unfold red_volume, pair_sum. rewrite (tot_nil 21 (fun j => tot j _)).
  - rewrite (tot_one 20); [rewrite ch4d_R; ring|]. intros i Hi. destruct i; [lia|]. rewrite ch4d_R. ring.
  - intros j Hj. apply tot_nil. intros i Hi. destruct j; [lia|]. rewrite (ch4d_R (S (S j))). unfold Rdiv. ring.
Qed.
Lemma ch4_temp gt bt : red_temp r gt bt = gt 1%nat 1%nat.
Proof.
  unfold red_temp, pair_sum. rewrite (tot_nil 21 (fun j => tot j _)).
  - rewrite (tot_one 20); [rewrite ch4d_R; ring|]. intros i Hi. destruct i; [lia|]. rewrite ch4d_R. ring.
  - intros j Hj. apply tot_nil. intros i Hi. destruct j; [lia|]. rewrite (ch4d_R (S (S j))). unfold Rdiv. ring.
Qed.
Definition two_of (q : nat * nat * lit * nat) : bool := let '(i, j, _, _) := q in negb (Nat.eqb i j).
Lemma departs_two : forallb two_of DEPARTS = true. Proof. reflexivity. Qed.
Lemma lsum_nil {T} (f : T -> R) l : (forall q, In q l -> f q = 0) -> lsum f l = 0.
Proof. intros H. induction l as [|q l IH]; [reflexivity|]. unfold lsum in *. cbn [fold_right]. rewrite IH, (H q); [ring|now left|intros; apply H; now right]. Qed.
Lemma ch4_sum e delta tau : gerg_sum e r delta tau = lsum (pure_w e delta tau) (nth 1 PURE []).
Proof.
  unfold gerg_sum. rewrite (tot_one 20), (lsum_nil _ DEPARTS); [rewrite ch4d_R; ring| |].
  - intros [[[i j] f] q] Hr. pose proof (proj1 (forallb_forall _ _) departs_two _ Hr) as E. cbn [two_of] in E.
    destruct (Nat.eqb_spec i j) as [|E']; [discriminate E|]. rewrite !ch4d_R. destruct i as [|[|i]], j as [|[|j]]; try ring. lia.
  - intros i Hi. destruct i; [lia|]. rewrite ch4d_R. ring.
Qed.
Lemma ch4_ideal e t d : ideal_sum e r t d = ideal_size e 0 1 t d.
Proof. unfold ideal_sum. rewrite (tot_one 20); [rewrite ch4d_R; ring|]. intros i Hi. destruct i; [lia|]. rewrite ch4d_R. ring. Qed.
Local Notation delta := (bR dd * vred r).
Local Notation tau := (tred r / bR (bofZ 300)).
Lemma T300 : bR (bofZ 300) = 300. Proof. apply ofZ_R; lia. Qed.
Lemma bounds : 962 / 10000000 <= delta <= 964 / 10000000 /\ 63521 / 100000 <= tau <= 63522 / 100000.
Proof.
  rewrite <- vred_std, <- tred_std, ch4_vol, ch4_temp, dd_R, T300.
  pose proof (v_std 1 1 ltac:(lia) ltac:(lia)) as Hv. pose proof (t_std 1 1 ltac:(lia) ltac:(lia)) as Hw.
  set (v := tb2 G_GVIJ 1 1) in *. set (w := tb2 G_GTIJ 1 1) in *. clearbody v w. revert Hv Hw.
  unfold near, v_red, t_red. rewrite Nat.eqb_refl. unfold rho_c, T_c. cbn [CRIT nth fst snd Rlit]. cbv [Z.pow Z.pow_pos Pos.iter Z.mul Pos.mul Pos.add Pos.succ Pos.add_carry].
  intros Hv Hw. split.
  { apply Rabs_le_inv in Hv. set (c := 1 / (10139342719 / 1000000000)) in *. assert (9862570 / 100000000 <= c <= 9862579 / 100000000) by (unfold c; split; interval). clearbody c. lra. }
  apply Rabs_le_inv in Hw. lra.
Qed.
Lemma sums e : e = 1%nat \/ e = 2%nat \/ e = 5%nat \/ e = 7%nat -> gerg_sum e r delta tau <= 1 / 100.
Proof.
  rewrite ch4_sum. destruct bounds as [Bd Bt]. set (de := delta) in *. set (ta := tau) in *. clearbody de ta. intros He.
  destruct He as [->|[->|[->| ->]]]; cbn [nth PURE lsum fold_right pure_w pure_factor Rlit]; cbv [Z.pow Z.pow_pos Pos.iter Z.mul Pos.mul Pos.add Pos.succ Pos.add_carry INR]; unfold Rpower; interval with (i_prec 15).
Qed.

Lemma Hx : forall i, (1 <= i < 22)%nat -> fin (ch4d i) /\ (bR (ch4d i) = 0 \/ bpow radix2 (-49) <= bR (ch4d i)).
Proof.
  intros i _. split; [destruct i as [|[|i]]; reflexivity|]. rewrite ch4d_R. destruct i as [|[|i]]; [now left|right|now left]. change 1 with (bpow radix2 0). apply bpow_le. lia.
Qed.
Lemma Hs : 99 / 100 <= tot 21 (fun i => bR (ch4d (S i))) <= 101 / 100.
Proof. cbn [tot]. rewrite !ch4d_R. lra. Qed.
Lemma HT : fin (bofZ 300) /\ 32 <= bR (bofZ 300) <= 2048. Proof. split; [reflexivity|rewrite T300; lra]. Qed.
Lemma Hd : fin dd /\ bpow radix2 (-20) <= bR dd. Proof. split; [reflexivity|]. rewrite dd_R. change (bpow radix2 (-20)) with (/ 1048576). lra. Qed.
Lemma HD : delta <= 5 / 2. Proof. pose proof bounds. lra. Qed.
Lemma pos v lo hi : fin v -> lo <= bR v <= hi -> bpow radix2 (-100) <= lo -> hi <= bpow radix2 100 -> positive v.
Proof. intros F R L H. pose proof (bpow_gt_0 radix2 (-100)). assert (0 < bR v) by lra. split; [|assumption]. split; [exact F|]. rewrite Rabs_pos_eq; lra. Qed.
Lemma lo20 : bpow radix2 (-100) <= bpow radix2 (-20). Proof. apply bpow_le; lia. Qed.
Lemma hi20 : bpow radix2 20 <= bpow radix2 100. Proof. apply bpow_le; lia. Qed.
Lemma pos' v lo hi : fin v -> lo <= bR v <= hi -> / 1048576 <= lo -> hi <= 1048576 -> positive v.
Proof. intros F R L H. apply (pos v lo hi F R); [pose proof lo20; change (bpow radix2 (-20)) with (/ 1048576) in *|pose proof hi20; change (bpow radix2 20) with 1048576 in *]; lra. Qed.
Section Case.
Variable m : Libm.
Hypothesis A : accurate m.
Local Notation B := (ArithB64 m).
Local Notation X := (@xf B (map ch4d (seq 0 22))).
Local Notation lB := (@can_terms B gp_new (map ch4d (seq 0 22)) (bofZ 300) dd).
Local Notation lR := (@can_terms ArithR gp_new (gxl r) (bR (bofZ 300)) (bR dd)).
Local Notation fB f := (@gfield B gp_new lB X (bofZ 300) dd f).
Lemma small e : e = 1%nat \/ e = 2%nat \/ e = 5%nat \/ e = 7%nat -> 0 <= gerg_sum e r delta tau /\ Rabs (@arS ArithR lR e) <= 1 / 100.
Proof.
  intros He. destruct (aSum m A ch4d (bofZ 300) dd Hx Hs HT Hd HD e) as (_ & _ & H & R). split; [exact (rng_ge0 _ _ _ R)|].
  eapply Rle_trans; [exact H|]. now apply sums.
Qed.
Lemma get f : plain_field f -> fin (fB f) /\ Rabs (bR (fB f) - gvals New r f (bR (bofZ 300)) (bR dd)) <= 1 / 10000000000 * field_size f r delta tau (bR (bofZ 300)) (bR dd).
Proof.
  intros Hf. pose proof (fields m A ch4d (bofZ 300) dd Hx Hs HT Hd HD f Hf) as Q. rewrite gprop_ok in Q; [exact Q|exact (some ch4d Hs)|rewrite T300; lra].
Qed.
Lemma RGe : @RGERG ArithR = Rg. Proof. reflexivity. Qed.
Lemma p_z : positive (fB PZ).
Proof.
  destruct (get PZ I) as [F E]. destruct (small 1%nat) as [S0 S1]; [tauto|]. pose proof (sums 1%nat) as S2. specialize (S2 ltac:(tauto)).
  cbn [gvals field_size] in E. unfold gqz in E. change (@fadd ArithR) with Rplus in E. change (@f1 ArithR) with 1 in E. change (gT New r (bR (bofZ 300)) (bR dd)) with lR in E.
  set (a1 := @arS ArithR lR 1) in *. apply Rabs_le_inv in E. apply Rabs_le_inv in S1. apply (pos' _ (9 / 10) (11 / 10) F); lra.
Qed.
Lemma q_fin : fin (fB PDpDd). Proof. apply (get PDpDd I). Qed.
Lemma q_val : 2000 <= bR (fB PDpDd) <= 3000.
Proof.
  destruct (get PDpDd I) as [F E]. destruct (small 1%nat) as [S0 S1]; [tauto|]. destruct (small 2%nat) as [U0 U1]; [tauto|].
  pose proof (sums 1%nat ltac:(tauto)) as S2. pose proof (sums 2%nat ltac:(tauto)) as U2.
  cbn [gvals field_size] in E. unfold gqdpdd, grt in E. change (@fadd ArithR) with Rplus in E. change (@fmul ArithR) with Rmult in E. change (@f1 ArithR) with 1 in E. change (@f2 ArithR) with 2 in E.
  change (gT New r (bR (bofZ 300)) (bR dd)) with lR in E.
  set (a1 := @arS ArithR lR 1) in *. set (a2 := @arS ArithR lR 2) in *. set (s1 := gerg_sum 1 _ _ _) in *. set (s2 := gerg_sum 2 _ _ _) in *.
  rewrite RGe, T300 in E. unfold Rg in E. apply Rabs_le_inv in E. apply Rabs_le_inv in S1. apply Rabs_le_inv in U1.
  lra.
Qed.
Lemma p_q : positive (fB PDpDd). Proof. apply (pos' _ _ _ q_fin q_val); lra. Qed.
Lemma pt_fin : fin (fB PDpDt). Proof. apply (get PDpDt I). Qed.
Lemma pt_val : 1 / 200 <= bR (fB PDpDt) <= 1 / 100.
Proof.
  destruct (get PDpDt I) as [F E]. destruct (small 1%nat) as [S0 S1]; [tauto|]. destruct (small 5%nat) as [U0 U1]; [tauto|].
  pose proof (sums 1%nat ltac:(tauto)) as S2. pose proof (sums 5%nat ltac:(tauto)) as U2.
  cbn [gvals field_size] in E. unfold gqdpdt in E. change (@fadd ArithR) with Rplus in E. change (@fsub ArithR) with Rminus in E. change (@fmul ArithR) with Rmult in E. change (@f1 ArithR) with 1 in E.
  change (gT New r (bR (bofZ 300)) (bR dd)) with lR in E.
  set (a1 := @arS ArithR lR 1) in *. set (a2 := @arS ArithR lR 5) in *. set (s1 := gerg_sum 1 _ _ _) in *. set (s2 := gerg_sum 5 _ _ _) in *. 
  rewrite RGe, dd_R in E. unfold Rg in E. apply Rabs_le_inv in E. apply Rabs_le_inv in S1. apply Rabs_le_inv in U1.
  lra.
Qed.
Lemma p_pt : positive (fB PDpDt). Proof. apply (pos' _ _ _ pt_fin pt_val); lra. Qed.
Lemma p_mm : positive (fB PMM).
Proof.
  destruct (mvalue m ch4d (bofZ 300) dd Hx Hs HT) as [F E].
  assert (H300 : 1 / 10000000 < bR (bofZ 300)) by (rewrite T300; lra).
  pose proof (g_mass New r (bR (bofZ 300)) (bR dd) H300 (some ch4d Hs)) as G.
  match type of G with _ = ?S => assert (EM : S = 1604246 / 100000) end.
  { cbn [SpecDetail.sum sum]. rewrite !ch4d_R. rewrite !Rmult_0_l, Rmult_1_l. unfold tb. cbn [nth G_MMI_GERG Rlit]. cbv [Z.pow Z.pow_pos Pos.iter Z.mul Pos.mul Pos.add Pos.succ Pos.add_carry]. lra. }
  pose proof (eq_trans G EM) as G'. rewrite G' in E. apply Rabs_le_inv in E. apply (pos' _ 10 20 F); lra.
Qed.
(* the ideal part *)
Lemma cv_ideal d : - Rg * xf (@ga0 ArithR gp_new (gX r) 300 d) 2 = mix_cv RD (down (ac r)) 300.
Proof.
  assert (H300 : 1 / 10000000 < 300) by lra. rewrite <- (ga_cv r 300 H300). f_equal.
  destruct (@ga0_entries gp_new (gX r) 300 d) as (_ & _ & E). unfold ge2 in E. rewrite E.
  unfold ga0sum. rewrite (fold_trip (fun i st => @ga0_step ArithR gp_new (gX r) 300 d i st) (fun i => @ga0_inc gp_new (gX r) 300 d i)) by (intros; apply ga0_step_inc).
  rewrite (fold_trip (fun i st => @ga0_step ArithR GN (gX r) 300 0 i st) (fun i => @ga0_inc gp_new (gX r) 300 0 i)) by (intros; apply ga0_step_inc).
  rewrite !p3E. f_equal. apply rsum_ext. intros i _. unfold ga0_inc. destruct (Rltb _ _); reflexivity.
Qed.
Lemma cv_value : 24 <= mix_cv RD (down (ac r)) 300 <= 30.
Proof.
  unfold mix_cv. assert (EA : forall i, down (ac r) i = match i with O => 1 | _ => 0 end).
  { intros i. unfold down, ac. rewrite ch4d_R. destruct i; destruct (Rlt_dec _ _); lra. }
  assert (E : sum 21 (fun i => down (ac r) i * (cp0 i 300 - 1)) = cp0 0 300 - 1) by (cbn [sum]; rewrite !EA; ring). rewrite E.
  unfold RD, cp0, sinh, cosh, ig. cbn [nth IG Rlit]. cbv [Z.pow Z.pow_pos Pos.iter Z.mul Pos.mul Pos.add Pos.succ Pos.add_carry]. split; interval.
Qed.
Lemma ideal2 : 0 <= ideal_sum 2 r (bR (bofZ 300)) (bR dd) <= 1000.
Proof.
  split. { destruct (aIdeal m A ch4d (bofZ 300) dd Hx Hs HT Hd HD 2 ltac:(lia)) as (_ & _ & _ & R). exact (rng_ge0 _ _ _ R). }
  rewrite ch4_ideal, T300. unfold ideal_size. cbn [tot]. unfold hyp_size, nsize, n3size, hyp. cbn [Nat.even Nat.add]. unfold RD, Rg, sinh, cosh, ig. cbn [nth IG Rlit]. cbv [Z.pow Z.pow_pos Pos.iter Z.mul Pos.mul Pos.add Pos.succ Pos.add_carry]. interval.
Qed.
Lemma p_cv : positive (fB PCv) /\ 20 <= bR (fB PCv) <= 40.
Proof.
  destruct (get PCv I) as [F E]. destruct (small 7%nat) as [S0 S1]; [tauto|]. pose proof (sums 7%nat ltac:(tauto)) as S2. pose proof ideal2 as I2.
  assert (20 <= bR (fB PCv) <= 40); [|split; [apply (pos' _ 20 40 F); lra|assumption]].
  set (v := bR (fB PCv)) in *. clearbody v.
  cbn [gvals field_size] in E. unfold gqcv in E. change (@fadd ArithR) with Rplus in E. change (@fmul ArithR) with Rmult in E. change (@fneg ArithR) with Ropp in E.
  change (gT New r (bR (bofZ 300)) (bR dd)) with lR in E.
  set (a1 := @arS ArithR lR 7) in *. set (s1 := gerg_sum 7 _ _ _) in *. set (i2 := ideal_sum 2 _ _ _) in *.
  pose proof (cv_ideal (bR dd)) as C. pose proof cv_value as V. rewrite <- C in V. clear C. cbn [gpar] in E. rewrite T300 in E.
  set (a0 := xf _ 2) in *. rewrite RGe in E. unfold Rg in *. apply Rabs_le_inv in E. apply Rabs_le_inv in S1. lra.
Qed.
Local Notation lrun := [SetX (A := B) ch4d; Poke (A := B) PT (bofZ 300); Poke (A := B) PD dd].
Lemma ch4_run : exists s, @gexec B New lrun = Some (s, [OUnit (A := B); OUnit (A := B); OUnit (A := B)]) /\ g_x s = map ch4d (seq 0 22) /\
  gread (A := B) PT s = bofZ 300 /\ gread (A := B) PD s = dd /\ separated (A := B) 1 (gasked (A := B) (lrun ++ [Properties (A := B)])).
Proof.
  eexists. split; [apply (@gexec_new B); reflexivity|]. split; [reflexivity|]. split; [reflexivity|]. split; [reflexivity|].
  cbn [app gasked asked]. split.
  - intros a b c e [[= <- <-]|[]] [[= <- <-]|[]]. split; now left.
  - intros a b [[= <- <-]|[]]. split.
    + exists 1%nat. split; [cbn; lia|]. rewrite nth_repeat. change (@differs B (bofZ 1) (@f0 B) = true). apply differs_0; [reflexivity|]. rewrite ofZ_R by lia. lra.
    + change (@differs B (bofZ 300) (@f0 B) = true). apply differs_0; [reflexivity|]. rewrite T300. lra.
Qed.
End Case.

Lemma p_cp (f : pfield -> b64) : relations Rg f -> bR (f PT) = 300 -> bR (f PD) = 1 / 1024 ->
  positive (f PCv) -> 20 <= bR (f PCv) <= 40 -> positive (f PDpDt) -> 1 / 200 <= bR (f PDpDt) <= 1 / 100 ->
  positive (f PDpDd) -> 2000 <= bR (f PDpDd) <= 3000 -> positive (f PCp).
Proof.
  intros [G1 _] Et Ed Pc Rc Pp Bp Pq Bq. specialize (G1 (proj1 Pc) (proj1 Pp) Pq). destruct G1 as [F1 G1]. rewrite Et, Ed in G1.
  set (q := bR (f PDpDd)) in *. set (pt := bR (f PDpDt)) in *. set (c := bR (f PCv)) in *. clearbody q pt c.
  assert (Y : 0 <= 300 * (pt / (1 / 1024)) ^ 2 / q <= 1000).
  { split. { apply Rle_mult_inv_pos; [apply Rmult_le_pos; [lra|apply pow2_ge_0]|lra]. } interval. }
  set (y := 300 * (pt / (1 / 1024)) ^ 2 / q) in *. clearbody y. rewrite (Rabs_pos_eq c) in G1 by lra. apply Rabs_le_inv in G1.
  apply (pos' _ 10 2000 F1); lra.
Qed.
Lemma ch4_fields : let B := ArithB64 best in exists s s' v,
  @gexec B New [SetX (A := B) ch4d; Poke (A := B) PT (bofZ 300); Poke (A := B) PD dd] = Some (s, [OUnit (A := B); OUnit (A := B); OUnit (A := B)]) /\
  gstep (A := B) Properties s = Some (s', OVal (A := B) v) /\
  let f k := gread (A := B) k s' in
  f PT = bofZ 300 /\ f PD = dd /\ positive (f PZ) /\ positive (f PMM) /\ positive (f PCv) /\ positive (f PCp) /\ tame (f PDpDt) /\ positive (f PDpDd).
Proof.
  cbv zeta. destruct (ch4_run best) as (s & E & X22 & Et & Ed & HV).
  destruct (gprops_run best _ s _ ch4d E HV X22) as (s' & E' & Et' & Ed' & Hf). cbv zeta in *. rewrite Et, Ed in *.
  pose proof best_accurate as A. exists s, s'. eexists. split; [exact E|]. split; [exact E'|].
  split; [exact Et'|]. split; [exact Ed'|].
  pose proof (p_z best A) as Q1. pose proof (p_mm best) as Q2. destruct (p_cv best A) as [Q3 R3]. pose proof (p_pt best A) as Q4. pose proof (pt_val best A) as R4. pose proof (p_q best A) as Q5. pose proof (q_val best A) as R5.
  rewrite <- Hf in Q1, Q2, Q3, R3, Q4, R4, Q5, R5 by exact I. clear Hf.
  split; [exact Q1|]. split; [exact Q2|]. split; [exact Q3|]. split; [|split; [exact (proj1 Q4)|exact Q5]].
  assert (Hr : greach (A := ArithB64 best) s) by (exists New; eexists; eexists; exact E).
  assert (HT' : fin (gread (A := ArithB64 best) PT s') /\ 32 <= bR (gread (A := ArithB64 best) PT s') <= 2048) by (rewrite Et'; exact HT).
  assert (Hd' : fin (gread (A := ArithB64 best) PD s') /\ bpow radix2 (-20) <= bR (gread (A := ArithB64 best) PD s') <= 1024) by (rewrite Ed'; split; [apply Hd|split; [apply Hd|rewrite dd_R; lra]]).
  destruct (grel best A s s' _ Hr E' HT' Hd') as [G _].
  apply (p_cp (fun k => gread (A := ArithB64 best) k s') G); [rewrite Et'; exact T300|rewrite Ed'; exact dd_R| | | | | |]; assumption.
Qed.
