(* Methane at 300 K and 2^-10 mol/l, DETAIL in double precision: the reported fields are positive. *)
From Coq Require Import Reals ZArith List Bool Lra Lia FunctionalExtensionality.
From Coquelicot Require Import Coquelicot.
From Flocq Require Import Core BinarySingleNaN.
From Interval Require Import Tactic.
From Verif Require Import FArith Prelude Tab ArithB64 B64Lemmas ArithR RSum DetailPure SpecIdeal SpecDetail StdDetail SpecStd SpecAcc SpecAll SpecAllF SpecAllD SpecRel SpecHistory DetailTables DetailModel DetailRefine DetailEval HistoryDetail Api ApiSafe Drift SpecReal DetailReal DetailThermo IdealGas MassReal
  ConvDetail ConvCase DriftCase AccProof AccDensProof B64Err AccEos AccLibm DetailEos StdDetailProof RelDouble GAllCase AccAllF AccAllM.
Import ListNotations.
Local Open Scope R_scope.

Definition me (i : nat) : b64 := match i with 0%nat => bofZ 1 | _ => B0 end.
Local Notation r := (fun i => bR (me i)).
Lemma me_R i : bR (me i) = match i with 0%nat => 1 | _ => 0 end.
Proof. destruct i as [|i]; [apply ofZ_R; lia|reflexivity]. Qed.
Lemma me_ch4 : r = nn ch4.
Proof. apply functional_extensionality. intros i. rewrite me_R. destruct i; [symmetry; exact y0|]. symmetry. apply yS. lia. Qed.
Lemma me_nn : nn r = nn ch4.
Proof. rewrite me_ch4. apply functional_extensionality. intros i. unfold nn. rewrite (Rmax_right 0 (Rmax 0 (ch4 i))); [reflexivity|apply Rmax_l]. Qed.
Definition dt1 (e : nat) (T d : R) (n : nat) : R :=
  let D := K1 ^ 3 * d in let C := Rabs (c1 n) * Rpower T (- u_ n) in
  (if (n <? 18)%nat then match e with
     | 0%nat | 1%nat => d * Rabs (v1 T n) + (if (n <? 12)%nat then 0 else C * D)
     | _ => 0 end else 0)
  + (if (n <? 12)%nat then 0 else C * D ^ b_ n * match k_ n with O => 1 | k => exp (- D ^ k) end * dfactor (b_ n) (k_ n) D e).
Lemma dsum_1 w e T d : dsum w e r T d = tot 58 (fun n => dweight w n * dt1 e T d n).
Proof.
  rewrite me_ch4. unfold dsum. apply tot_ext. intros n _. f_equal. unfold dterm, dt1. cbv zeta. rewrite D_1, C_1. unfold c1. now rewrite virial1.
Qed.
Ltac numd := unfold dt1, dfactor, dweight, c1, v1; cbv [Nat.ltb Nat.leb tot]; norm; unfold E1, K1, Rpower; change R0 with 0; change R1 with 1; interval with (i_prec 20).
Lemma s01 : dsum 0 1 r 300 (1 / 1024) <= 1 / 100. Proof. rewrite dsum_1. numd. Qed.
Lemma s02 : dsum 0 2 r 300 (1 / 1024) <= 1 / 100. Proof. rewrite dsum_1. numd. Qed.
Lemma s11 : dsum 1 1 r 300 (1 / 1024) <= 1 / 100. Proof. rewrite dsum_1. numd. Qed.
Lemma s20 : dsum 2 0 r 300 (1 / 1024) <= 1 / 100. Proof. rewrite dsum_1. numd. Qed.

Lemma Hx : forall i, (i < 21)%nat -> fin (me i) /\ (bR (me i) = 0 \/ bpow radix2 (-50) <= bR (me i)).
Proof.
  intros i _. split; [destruct i as [|i]; reflexivity|]. rewrite me_R. destruct i as [|i]; [right|now left]. change 1 with (bpow radix2 0). apply bpow_le. lia.
Qed.
Lemma Hs : 99 / 100 <= tot 21 r <= 101 / 100.
Proof. cbn [tot]. rewrite !me_R. lra. Qed.
Lemma HDm : detail_D r (bR dd) <= 3.
Proof. rewrite me_ch4, D_1, dd_R. unfold K1. lra. Qed.
Section Case.
Variable m : Libm.
Hypothesis A : accurate m.
Local Notation B := (ArithB64 m).
Local Notation X := (@xf B (map me (seq 0 21))).
Local Notation kB := (AccEos.kB m X (bofZ 300)).
Local Notation kR := (DetailThermo.dk New r (bR (bofZ 300))).
Local Notation fB f := (@dfield B dp_new kB X (bofZ 300) dd f).
Lemma get f : detail_field f -> fin (fB f) /\ Rabs (bR (fB f) - dvals New r f (bR (bofZ 300)) (bR dd)) <= 3 / 20000000000 * dfield_size f r (bR (bofZ 300)) (bR dd).
Proof.
  intros Hf. pose proof (fields m A me (bofZ 300) dd Hx Hs HT Hd HDm f Hf) as Q. rewrite dprop_ok in Q; [exact Q|rewrite T300; lra].
Qed.
Lemma k01 : Rabs (@ar01 ArithR kR (bR (bofZ 300)) (bR dd)) <= RD * 300 * (1 / 100) /\ 0 <= dsum 0 1 r (bR (bofZ 300)) (bR dd) <= 1 / 100.
Proof.
  destruct (K01 m A me (bofZ 300) dd Hx Hs HT Hd HDm) as (_ & _ & H & R). apply rng_ge0 in R. revert H R. rewrite T300, dd_R. pose proof s01 as S. intros H R.
  set (s := dsum _ _ _ _ _) in *. clearbody s. unfold RD in *. split; [|lra]. eapply Rle_trans; [exact H|]. lra.
Qed.
Lemma k02 : Rabs (@ar02 ArithR kR (bR (bofZ 300)) (bR dd)) <= RD * 300 * (1 / 100) /\ 0 <= dsum 0 2 r (bR (bofZ 300)) (bR dd) <= 1 / 100.
Proof.
  destruct (K02 m A me (bofZ 300) dd Hx Hs HT Hd HDm) as (_ & _ & H & R). apply rng_ge0 in R. revert H R. rewrite T300, dd_R. pose proof s02 as S. intros H R.
  set (s := dsum _ _ _ _ _) in *. clearbody s. unfold RD in *. split; [|lra]. eapply Rle_trans; [exact H|]. lra.
Qed.
Lemma k11 : Rabs (@ar11 ArithR kR (bR dd)) <= RD * (1 / 100) /\ 0 <= dsum 1 1 r (bR (bofZ 300)) (bR dd) <= 1 / 100.
Proof.
  destruct (K11 m A me (bofZ 300) dd Hx Hs HT Hd HDm) as (_ & _ & H & R). apply rng_ge0 in R. revert H R. rewrite T300, dd_R. pose proof s11 as S. intros H R.
  set (s := dsum _ _ _ _ _) in *. clearbody s. unfold RD in *. split; [|lra]. eapply Rle_trans; [exact H|]. lra.
Qed.
Lemma k20 : Rabs (@ar20 ArithR kR (bR dd)) <= RD * (1 / 100) /\ 0 <= dsum 2 0 r (bR (bofZ 300)) (bR dd) <= 1 / 100.
Proof.
  destruct (K20 m A me (bofZ 300) dd Hx Hs HT Hd HDm) as (_ & _ & H & R). apply rng_ge0 in R. revert H R. rewrite T300, dd_R. pose proof s20 as S. intros H R.
  set (s := dsum _ _ _ _ _) in *. clearbody s. unfold RD in *. split; [|lra]. eapply Rle_trans; [exact H|]. lra.
Qed.
Lemma RDe : @RDETAIL ArithR = RD. Proof. reflexivity. Qed.
Ltac R1 E := change (@fadd ArithR) with Rplus in E; change (@fsub ArithR) with Rminus in E; change (@fmul ArithR) with Rmult in E; change (@fdiv ArithR) with Rdiv in E; change (@fneg ArithR) with Ropp in E; change (@f1 ArithR) with 1 in E; change (@f2 ArithR) with 2 in E.
Lemma p_z : positive (fB PZ).
Proof.
  destruct (get PZ I) as [F E]. destruct k01 as [S1 S2]. set (v := bR (fB PZ)) in *.
  cbn [dvals dfield_size] in E. unfold qz, qrt in E. R1 E. rewrite RDe in E.
  set (a1 := @ar01 ArithR kR _ _) in *. set (s := dsum 0 1 _ _ _) in *. clearbody a1 s. rewrite T300 in E.
  assert (W : Rabs (a1 / (RD * 300)) <= 1 / 100).
  { unfold Rdiv at 1. rewrite Rabs_mult, (Rabs_pos_eq (/ (RD * 300))) by (apply Rlt_le, Rinv_0_lt_compat; unfold RD; lra).
    apply Rmult_le_reg_r with (RD * 300); [unfold RD; lra|]. rewrite Rmult_assoc, Rinv_l by (unfold RD; lra). lra. }
  set (w := a1 / (RD * 300)) in *. clearbody w. apply Rabs_le_inv in E. apply Rabs_le_inv in W. apply (pos' _ (9 / 10) (11 / 10) F); fold v; lra.
Qed.
Lemma q_val : fin (fB PDpDd) /\ 2000 <= bR (fB PDpDd) <= 3000.
Proof.
  destruct (get PDpDd I) as [F E]. split; [exact F|]. destruct k01 as [S1 S2]. destruct k02 as [U1 U2]. set (v := bR (fB PDpDd)) in *. clearbody v.
  cbn [dvals dfield_size] in E. unfold qdpdd, qrt in E. R1 E. rewrite RDe in E.
  set (a1 := @ar01 ArithR kR _ _) in *. set (a2 := @ar02 ArithR kR _ _) in *. set (s := dsum 0 1 _ _ _) in *. set (u := dsum 0 2 _ _ _) in *. clearbody a1 a2 s u.
  rewrite T300 in E. unfold RD in *. apply Rabs_le_inv in E. apply Rabs_le_inv in S1. apply Rabs_le_inv in U1. lra.
Qed.
Lemma pt_val : fin (fB PDpDt) /\ 1 / 200 <= bR (fB PDpDt) <= 1 / 100.
Proof.
  destruct (get PDpDt I) as [F E]. split; [exact F|]. destruct k11 as [S1 S2]. set (v := bR (fB PDpDt)) in *. clearbody v.
  cbn [dvals dfield_size] in E. unfold qdpdt in E. R1 E. rewrite RDe in E.
  set (a1 := @ar11 ArithR kR _) in *. set (s := dsum 1 1 _ _ _) in *. clearbody a1 s. rewrite dd_R in E. unfold RD in *. apply Rabs_le_inv in E. apply Rabs_le_inv in S1. lra.
Qed.
Lemma p_mm : positive (fB PMM).
Proof.
  destruct (mvalue m me (bofZ 300) dd Hx Hs HT) as [F E].
  assert (H300 : 1 / 10000000 < bR (bofZ 300)) by (rewrite T300; lra).
  pose proof (d_mass New r (bR (bofZ 300)) (bR dd) H300) as G.
  match type of G with _ = ?S => assert (EM : S = 16043 / 1000) end.
  { cbn [SpecDetail.sum sum]. rewrite !me_R. rewrite !Rmult_0_l, Rmult_1_l. unfold tb. cbn [nth D_MMI Rlit]. cbv [Z.pow Z.pow_pos Pos.iter Z.mul Pos.mul Pos.add Pos.succ Pos.add_carry]. lra. }
  pose proof (eq_trans G EM) as G'. rewrite G' in E. apply Rabs_le_inv in E. apply (pos' _ 10 20 F); lra.
Qed.
Lemma cv_ideal d : - xf (@pa0 ArithR dp_new (dX r) 300 d) 2 = mix_cv RD (nn r) 300.
Proof.
  assert (H300 : 1 / 10000000 < 300) by lra. unfold mix_cv. rewrite <- (pa_cv r 300 H300).
  destruct (@pa0_entries dp_new (dX r) 300 d) as (_ & _ & E). unfold e2 in E. rewrite E, RDe.
  unfold pa0sum. rewrite (fold_trip (fun i st => @a0_step ArithR dp_new (dX r) 300 d i st) (@a0_inc dp_new (dX r) 300 d)) by (intros; apply a0_step_inc).
  rewrite (fold_trip (fun i st => @a0_step ArithR DN (dX r) 300 0 i st) (@a0_inc dp_new (dX r) 300 0)) by (intros; apply a0_step_inc).
  rewrite !p3E.
  rewrite (rsum_ext (fun i => p3 (@a0_inc dp_new (dX r) 300 d i)) (fun i => p3 (@a0_inc dp_new (dX r) 300 0 i))); [ring|].
  intros i _. unfold a0_inc. destruct (Rltb _ _); reflexivity.
Qed.
Lemma cv_value : 24 <= mix_cv RD (nn r) 300 <= 30.
Proof.
  unfold mix_cv. rewrite me_nn.
  assert (E : sum 21 (fun i => nn ch4 i * (cp0 i 300 - 1)) = cp0 0 300 - 1) by exact (sum1 (fun i => cp0 i 300 - 1)). rewrite E.
  unfold RD, cp0, sinh, cosh, ig. cbn [nth IG Rlit]. cbv [Z.pow Z.pow_pos Pos.iter Z.mul Pos.mul Pos.add Pos.succ Pos.add_carry]. split; interval.
Qed.
Lemma ideal2 : 0 <= dideal_sum 2 r (bR (bofZ 300)) (bR dd) <= 1000.
Proof.
  split. { destruct (J m A me (bofZ 300) dd Hx Hs HT Hd HDm) as (_ & _ & (_ & _ & _ & R)). apply rng_ge0 in R. set (s := dideal_sum _ _ _ _) in *. unfold RD in R. lra. }
  rewrite me_ch4. unfold dideal_sum. rewrite (sum1 (fun i => dideal_size 2 i (nn ch4 i) _ _)), T300.
  unfold dideal_size. cbn [tot]. unfold dhyp_size, hyp. cbn [Nat.even Nat.add]. unfold sinh, cosh, ig. cbn [nth IG Rlit]. cbv [Z.pow Z.pow_pos Pos.iter Z.mul Pos.mul Pos.add Pos.succ Pos.add_carry]. interval.
Qed.
Lemma p_cv : fin (fB PCv) /\ 20 <= bR (fB PCv) <= 40.
Proof.
  destruct (get PCv I) as [F E]. split; [exact F|]. destruct k20 as [S1 S2]. pose proof ideal2 as I2.
  set (v := bR (fB PCv)) in *. clearbody v.
  cbn [dvals dfield_size] in E. unfold qcv in E. R1 E.
  set (a1 := @ar20 ArithR kR _) in *. set (s1 := dsum 2 0 _ _ _) in *. set (i2 := dideal_sum 2 _ _ _) in *.
  pose proof (cv_ideal (bR dd)) as C. pose proof cv_value as V. rewrite <- C in V. clear C. cbn [dpar] in E.  rewrite T300 in E.
  set (a0 := xf _ 2) in *. clearbody a0 a1 s1 i2. unfold RD in *. apply Rabs_le_inv in E. apply Rabs_le_inv in S1. lra.
Qed.
Local Notation lrun := [SetX (A := B) me; Poke (A := B) PT (bofZ 300); Poke (A := B) PD dd].
Lemma me_run : exists s, @dexec B New lrun = Some (s, [OUnit (A := B); OUnit (A := B); OUnit (A := B)]) /\ d_x s = map me (seq 0 21) /\
  dread (A := B) PT s = bofZ 300 /\ dread (A := B) PD s = dd /\ separated (A := B) 0 (dasked (A := B) (lrun ++ [Properties (A := B)])).
Proof.
  eexists. split; [apply (@dexec_new B); reflexivity|]. split; [reflexivity|]. split; [reflexivity|]. split; [reflexivity|].
  cbn [app dasked asked]. split.
  - intros a b c e [[= <- <-]|[]] [[= <- <-]|[]]. split; now left.
  - intros a b [[= <- <-]|[]]. split.
    + exists 0%nat. split; [cbn; lia|]. rewrite nth_repeat. change (@differs B (bofZ 1) (@f0 B) = true). apply differs_0; [reflexivity|]. rewrite ofZ_R by lia. lra.
    + change (@differs B (bofZ 300) (@f0 B) = true). apply differs_0; [reflexivity|]. rewrite T300. lra.
Qed.
End Case.
Lemma p_cp' (f : pfield -> b64) G : relations G f -> bR (f PT) = 300 -> bR (f PD) = 1 / 1024 ->
  positive (f PCv) -> 20 <= bR (f PCv) <= 40 -> positive (f PDpDt) -> 1 / 200 <= bR (f PDpDt) <= 1 / 100 ->
  positive (f PDpDd) -> 2000 <= bR (f PDpDd) <= 3000 -> positive (f PCp).
Proof.
  intros [G1 _] Et Ed Pc Rc Pp Bp Pq Bq. specialize (G1 (proj1 Pc) (proj1 Pp) Pq). destruct G1 as [F1 G1]. rewrite Et, Ed in G1.
  set (q := bR (f PDpDd)) in *. set (pt := bR (f PDpDt)) in *. set (c := bR (f PCv)) in *. clearbody q pt c.
  assert (Y : 0 <= 300 * (pt / (1 / 1024)) ^ 2 / q <= 1000).
  { split. { apply Rle_mult_inv_pos; [apply Rmult_le_pos; [lra|apply pow2_ge_0]|lra]. } interval. }
  set (y := 300 * (pt / (1 / 1024)) ^ 2 / q) in *. clearbody y. rewrite (Rabs_pos_eq c) in G1 by lra. apply Rabs_le_inv in G1.
  apply (pos' _ 10 2000 F1); lra.
Qed.
Lemma me_fields : let B := ArithB64 best in exists s s',
  @dexec B New [SetX (A := B) me; Poke (A := B) PT (bofZ 300); Poke (A := B) PD dd] = Some (s, [OUnit (A := B); OUnit (A := B); OUnit (A := B)]) /\
  dstep (A := B) Properties s = Some (s', OUnit (A := B)) /\
  let f k := dread (A := B) k s' in
  f PT = bofZ 300 /\ f PD = dd /\ positive (f PZ) /\ positive (f PMM) /\ positive (f PCv) /\ positive (f PCp) /\ tame (f PDpDt) /\ positive (f PDpDd).
Proof.
  cbv zeta. destruct (me_run best) as (s & E & X21 & Et & Ed & HV).
  destruct (dprops_run best _ s _ me E HV X21) as (s' & E' & Et' & Ed' & Hf). cbv zeta in *. rewrite Et, Ed in *.
  pose proof best_accurate as A. exists s, s'. split; [exact E|]. split; [exact E'|].
  split; [exact Et'|]. split; [exact Ed'|].
  pose proof (p_z best A) as Q1. pose proof (p_mm best) as Q2. destruct (p_cv best A) as [F3 R3]. destruct (pt_val best A) as [F4 R4]. destruct (q_val best A) as [F5 R5].
  rewrite <- Hf in Q1, Q2, F3, R3, F4, R4, F5, R5 by exact I. clear Hf.
  assert (Q3 : positive (dread (A := ArithB64 best) PCv s')) by (apply (pos' _ 20 40 F3 R3); lra).
  assert (Q4 : positive (dread (A := ArithB64 best) PDpDt s')) by (apply (pos' _ (1 / 200) (1 / 100) F4 R4); lra).
  assert (Q5 : positive (dread (A := ArithB64 best) PDpDd s')) by (apply (pos' _ 2000 3000 F5 R5); lra).
  split; [exact Q1|]. split; [exact Q2|]. split; [exact Q3|]. split; [|split; [exact (proj1 Q4)|exact Q5]].
  assert (Hr : dreach (A := ArithB64 best) s) by (exists New; eexists; eexists; exact E).
  assert (HT' : fin (dread (A := ArithB64 best) PT s') /\ 32 <= bR (dread (A := ArithB64 best) PT s') <= 2048) by (rewrite Et'; exact HT).
  assert (Hd' : fin (dread (A := ArithB64 best) PD s') /\ bpow radix2 (-20) <= bR (dread (A := ArithB64 best) PD s') <= 1024) by (rewrite Ed'; split; [apply Hd|split; [apply Hd|rewrite dd_R; lra]]).
  destruct (drel best A s s' _ Hr E' HT' Hd') as [G _].
  apply (p_cp' (fun k => dread (A := ArithB64 best) k s') _ G); [rewrite Et'; exact T300|rewrite Ed'; exact dd_R| | | | | |]; assumption.
Qed.
