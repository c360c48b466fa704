(* Error analysis of the GERG ideal-gas part in double precision. *)
From Coq Require Import Reals ZArith List Bool Lra Lia Psatz.
From Flocq Require Import Core BinarySingleNaN.
From Verif Require Import FArith Prelude Tab ArithB64 B64Lemmas ArithR RSum SpecDetail SpecGerg SpecIdeal SpecAcc DetailPure GergTables GergModel GergPure GergRefine GergEval Api ApiSafe BasicProofs HistoryGerg SpecReal Thermo DetailReal DetailThermo GergReal GergIdeal GergThermo
  DetailEos GergEos IdealGas StdGerg SpecStd SpecTables StdGergProof SpecAll B64Err AccFold AccMix AccEos GAccRed GAccTerms.
Import ListNotations.
Local Open Scope R_scope.
Local Existing Instance gp_new.

Lemma apA k1 c1 b1 v1 x1 M1 k2 c2 b2 v2 x2 M2 : ap k1 c1 b1 v1 x1 M1 -> ap k2 c2 b2 v2 x2 M2 ->
  (0 <= k1 <= KM)%Z -> (0 <= k2 <= KM)%Z -> inr (Z.min c1 c2) (Z.max b1 b2 + 1) ->
  ap (Z.max k1 k2 + 2) (Z.min c1 c2) (Z.max b1 b2 + 1) (badd v1 v2) (x1 + x2) (M1 + M2).
Proof. intros P Q H1 H2 Hi. eapply ap_add; try eassumption. apply rng_add; [apply P|apply Q]. Qed.
Lemma apS k1 c1 b1 v1 x1 M1 k2 c2 b2 v2 x2 M2 : ap k1 c1 b1 v1 x1 M1 -> ap k2 c2 b2 v2 x2 M2 ->
  (0 <= k1 <= KM)%Z -> (0 <= k2 <= KM)%Z -> inr (Z.min c1 c2) (Z.max b1 b2 + 1) ->
  ap (Z.max k1 k2 + 2) (Z.min c1 c2) (Z.max b1 b2 + 1) (bsub v1 v2) (x1 - x2) (M1 + M2).
Proof. intros P Q H1 H2 Hi. eapply ap_sub; try eassumption. apply rng_add; [apply P|apply Q]. Qed.
Lemma ap_abs k a b v x : ap k a b v x x -> 0 < x -> (0 <= k <= KM)%Z -> ap k a b (Babs v) x x.
Proof.
  intros P Hx Hk. destruct (rel_of k a b v x P Hx Hk) as (_ & _ & _ & _ & V). destruct P as (F & E & H & R).
  split; [unfold fin in *; now rewrite is_finite_Babs|]. split; [|split; assumption]. unfold bR in *. rewrite B2R_Babs, (Rabs_pos_eq (B2R v)) by exact (Rlt_le _ _ V). exact E.
Qed.
Section M.
Variable m : Libm.
Hypothesis A : accurate m.
Local Notation B := (ArithB64 m).
Lemma lit_gt l c b : lit_in c b l = true -> 0 < Rlit l -> (-40 <= c)%Z -> (b <= 900)%Z -> Bltb (blit (L 1 (-15))) (blit l) = true.
Proof.
  intros H H0 Hc Hb. destruct (lit_err l c b H ltac:(zc)) as [F E]. pose proof (lit_in_ok _ _ _ H) as R. rewrite (Rabs_pos_eq (Rlit l)) in E, R by lra.
  destruct R as [R|[R _]]; [lra|]. assert (p2 (-40) <= p2 c) as Q by (now apply bpow_le). change (p2 (-40)) with (/ 1099511627776) in Q.
  destruct (lit_err (L 1 (-15)) (-50) (-49) eq_refl ltac:(zc)) as [L1 L2].
  change (Rlit (L 1 (-15))) with (@GEPSILON ArithR) in L2; rewrite glit15 in L2. rewrite (Rabs_pos_eq (1 / 1000000000000000)) in L2 by lra. apply Rabs_le_inv in L2, E.
  pose proof u_small. pose proof u_pos. rewrite lt_fin by assumption. apply Rlt_bool_true. assert (u64 * Rlit l <= 1 / 2 * Rlit l) by (apply Rmult_le_compat_r; lra). lra.
Qed.
(* the logarithm *)
Lemma aln k a b v x n q : ap k a b v x x -> 0 < x -> (0 <= k <= KM)%Z -> (- n <= a)%Z -> (b <= n)%Z -> (0 <= n)%Z -> (n + 1 <= 2 ^ q)%Z -> (0 <= q)%Z ->
  ap (k + 9) 0 q (lm_ln m v) (ln x) (lsize x).
Proof.
  intros P Hx Hk Ha Hb Hn Hq Hq0. pose proof (ln_rng1 a b x n Hx ltac:(apply P) Ha Hb Hn) as N. unfold lsize. pose proof (Rabs_pos (ln x)).
  eapply ap_ln; [exact A|exact P|exact Hx|exact Hk|lra| |].
  - rewrite (plus_IZR k 9). assert (0 <= IZR k) by (apply IZR_le; lia). assert (0 <= IZR k * Rabs (ln x)) by now apply Rmult_le_pos. lra.
  - right. change (p2 0) with 1. split; [lra|]. rewrite <- (IZR_Zpower radix2 q Hq0). apply IZR_le in Hq. rewrite plus_IZR in Hq.
    change (Z.pow 2 q) with (Zaux.radix2 ^ q)%Z in Hq. lra.
Qed.
(* constants *)
Lemma aRSR : ap 5 (-1) 1 (@RSR B) (RD / Rg) (RD / Rg).
Proof.
  unfold RSR. cbn [fdiv flit ArithB64].
  assert (ap 1 3 4 (@RGERG B) Rg Rg) as Q by (eapply ap_eq; [apply (ap_inok (L 8314472 (-6)) 3 4); [reflexivity|zc]|reflexivity|reflexivity]).
  eapply ap_weak; [eapply ap_div; [eapply ap_eq; [apply (ap_inok (L 831451 (-5)) 3 4); [reflexivity|zc]|reflexivity|reflexivity]|exact Q|unfold Rg; lra|zc|zc|zc|zc]|zc|zc|zc].
Qed.
Lemma rsrR : @RSR ArithR = RD / Rg. Proof. reflexivity. Qed.
Lemma aT0 : ap 1 8 9 (@GT0 B) T0 T0.
Proof. eapply ap_eq; [apply (ap_inok (L 29815 (-2)) 8 9); [reflexivity|zc]|reflexivity|reflexivity]. Qed.
Lemma T0R : @GT0 ArithR = T0. Proof. reflexivity. Qed.
Lemma D0R : @GD0 ArithR = ref_density Rg.
Proof. unfold GD0, ref_density. rewrite T0R. change (@fdiv ArithR) with Rdiv. change (@flit ArithR) with Rlit. unfold Rg, T0, RGERG. change (@flit ArithR) with Rlit. cbn. field. Qed.
Lemma aD0 : ap 9 (-7) (-4) (@GD0 B) (ref_density Rg) (ref_density Rg).
Proof.
  unfold GD0. cbn [fdiv flit ArithB64].
  assert (ap 1 3 4 (@RGERG B) Rg Rg) as Q by (eapply ap_eq; [apply (ap_inok (L 8314472 (-6)) 3 4); [reflexivity|zc]|reflexivity|reflexivity]).
  assert (ap 1 6 7 (blit (L 101325 (-3))) (101325 / 1000) (101325 / 1000)) as Q1 by (eapply ap_eq; [apply (ap_inok (L 101325 (-3)) 6 7); [reflexivity|zc]|reflexivity|reflexivity]).
  eapply ap_eq; [eapply ap_weak; [eapply ap_div; [eapply ap_div; [exact Q1|exact Q|unfold Rg; lra|zc|zc|zc|zc]|exact aT0|unfold T0; lra|zc|zc|zc|zc]|zc|zc|zc]| |];
  unfold ref_density; field; unfold T0, Rg; lra.
Qed.
Lemma D0_pos : 0 < ref_density Rg. Proof. unfold ref_density, Rg, T0. lra. Qed.
Lemma alnD0 : ap 18 0 3 (lm_ln m (@GD0 B)) (ln (ref_density Rg)) (lsize (ref_density Rg)).
Proof. exact (aln 9 (-7) (-4) _ _ 7 3 aD0 D0_pos ltac:(zc) ltac:(lia) ltac:(lia) ltac:(lia) ltac:(lia) ltac:(lia)). Qed.
Lemma n0_chk : forallb (fun e => lit_in (-8) 17 (snd e)) G_setup_n0i = true. Proof. vm_compute. reflexivity. Qed.
Lemma aig i j : (i < 21)%nat -> (j < 7)%nat -> ap 1 (-8) 17 (@aval B G_setup_n0i (S i) (S j) (@f0 B)) (ig i j) (Rabs (ig i j)).
Proof.
  intros Hi Hj. destruct (aval_lit G_setup_n0i (lit_in (-8) 17) (S i) (S j) n0_chk eq_refl) as (v & Hv & E).
  pose proof (E ArithR) as ER. rewrite cell_aval, g_cell in ER by lia. rewrite (E B), ER. exact (ap_lit v (-8) 17 Hv ltac:(zc)).
Qed.
Local Notation qB := (@gq_n0i B gp_new).
Local Notation qR := (@gq_n0i ArithR gp_new).
Lemma rsr_pos : 0 < RD / Rg. Proof. unfold RD, Rg. lra. Qed.
Lemma an i j : (i < 21)%nat -> (3 <= j < 7)%nat -> ap 9 (-9) 18 (qB (S i) (S j)) (qR (S i) (S j)) (nsize i j).
Proof.
  intros Hi Hj. assert (E : qR (S i) (S j) = ig i j * (RD / Rg)) by exact (gq_hi i j Hi Hj). rewrite E. unfold nsize. change (qB (S i) (S j)) with (@Gn0i B (S i) (S j)). unfold Gn0i. cbn [Nat.eqb].
  destruct j as [|[|[|j]]]; [lia..|]. cbn [fmul ArithB64].
  eapply ap_weak; [eapply ap_mul; [apply (aig i (S (S (S j)))); lia|exact aRSR|zc|zc|zc|zc]|zc|zc|zc].
Qed.
Lemma an1 i : (i < 21)%nat -> ap 20 (-9) 19 (qB (S i) 1%nat) (qR (S i) 1%nat) (nsize i 0 + lsize (ref_density Rg)).
Proof.
  intros Hi. assert (E : qR (S i) 1%nat = ig i 0 * (RD / Rg) - ln (ref_density Rg)) by (rewrite <- D0R; exact (gq_1 i Hi)). rewrite E. unfold nsize. change (qB (S i) 1%nat) with (@Gn0i B (S i) 1). unfold Gn0i. cbn [Nat.eqb fmul fsub fln ArithB64].
  eapply ap_weak; [eapply apS; [eapply ap_mul; [apply (aig i 0); lia|exact aRSR|zc|zc|zc|zc]|exact alnD0|zc|zc|zc]|zc|zc|zc].
Qed.
Lemma an2 i : (i < 21)%nat -> ap 13 (-9) 20 (qB (S i) 2%nat) (qR (S i) 2%nat) (n2size i).
Proof.
  intros Hi. assert (E : qR (S i) 2%nat = (ig i 1 + T0) * (RD / Rg) - T0) by exact (gq_2 i Hi). rewrite E. unfold n2size. change (qB (S i) 2%nat) with (@Gn0i B (S i) 2). unfold Gn0i. cbn [Nat.eqb fmul fadd fsub fln ArithB64].
  eapply ap_weak; [eapply apS; [eapply ap_mul; [eapply apA; [apply (aig i 1); lia|exact aT0|zc|zc|zc]|exact aRSR|zc|zc|zc|zc]|exact aT0|zc|zc|zc]|zc|zc|zc].
Qed.
Lemma an3 i : (i < 21)%nat -> ap 11 (-9) 19 (qB (S i) 3%nat) (qR (S i) 3%nat) (n3size i).
Proof.
  intros Hi. assert (E : qR (S i) 3%nat = (ig i 2 - 1) * (RD / Rg)) by exact (gq_3 i Hi). rewrite E. unfold n3size. change (qB (S i) 3%nat) with (@Gn0i B (S i) 3). unfold Gn0i. cbn [Nat.eqb fmul fsub fln ArithB64].
  eapply ap_weak; [eapply ap_mul; [eapply apS; [apply (aig i 2); lia|exact (a1 m)|zc|zc|zc]|exact aRSR|zc|zc|zc|zc]|zc|zc|zc].
Qed.
(* hyperbolic terms *)
Variable T : b64.
Hypothesis HT : fin T /\ p2 5 <= bR T <= p2 11.
Local Notation t := (bR T).
Lemma t_gt : 0 < t. Proof. destruct HT as [_ [H _]]. change (p2 5) with 32 in H. lra. Qed.
Lemma at_ : ap 0 5 11 T t t.
Proof. pose proof t_gt. eapply ap_eq; [apply ap_exact; [apply HT|]|reflexivity|]; rewrite Rabs_pos_eq by lra; [right; apply HT|reflexivity]. Qed.
Section H.
Variables (th : lit).
Hypothesis Hth : lit_in 7 12 th = true.
Hypothesis Hp : 0 < Rlit th.
Local Notation y := (Rlit th / t).
Local Notation yB := (bdiv (blit th) T).
Lemma y_pos : 0 < y. Proof. pose proof t_gt. now apply Rdiv_lt_0_compat. Qed.
Lemma ay : ap 4 (-4) 7 yB y y.
Proof.
  eapply ap_weak; [eapply ap_div; [eapply ap_eq; [apply (ap_lit th 7 12 Hth); zc|reflexivity|apply Rabs_pos_eq; lra]|exact at_|exact t_gt|zc|zc|zc|zc]|zc|zc|zc].
Qed.
Lemma y_bd : 1 / 16 <= y <= 128.
Proof. pose proof ay as (_ & _ & _ & R). pose proof y_pos. destruct R as [R|[R1 R2]]; [lra|]. change (p2 (-4)) with (/16) in R1. change (p2 7) with 128 in R2. lra. Qed.
Lemma exp_bd : 9 / 8 <= exp y * exp y /\ 1 <= exp y <= p2 256.
Proof.
  pose proof y_bd. pose proof (exp_ineq1_le y). split; [rewrite <- exp_plus; pose proof (exp_ineq1_le (y + y)); lra|]. split; [lra|]. rewrite bpow_exp. apply exp_le.
  change (IZR (radix_val radix2)) with 2. assert (1 / 2 <= ln 2); [|lra].
  replace (ln 2) with (- ln (1 / 2)) by (unfold Rdiv; rewrite Rmult_1_l, ln_Rinv by lra; ring). pose proof (ln_le1 (1/2)). lra.
Qed.
Local Notation eB := (lm_exp m yB).
Local Notation iB := (bdiv (@f1 B) eB).
Lemma aex : ap 522 0 256 eB (exp y) (exp y).
Proof.
  pose proof y_bd as Hy. pose proof ay as (F & E & _). change 522%Z with (512 + 10)%Z. apply (ap_exp m A); [exact F| |zc|rewrite Rabs_pos_eq; lra|].
  - eapply Rle_trans; [exact E|]. pose proof u_pos. nra.
  - right. apply exp_bd.
Qed.
Lemma aei : ap 526 (-256) 0 iB (/ exp y) (/ exp y).
Proof.
  eapply ap_eq; [eapply ap_weak; [eapply ap_div; [exact (a1 m)|exact aex|apply exp_pos|zc|zc|zc|zc]|zc|zc|zc]| |]; unfold Rdiv; ring.
Qed.
Lemma shc : sinh y = (exp y - / exp y) / 2. Proof. unfold sinh. now rewrite exp_Ropp. Qed.
Lemma chc : cosh y = (exp y + / exp y) / 2. Proof. unfold cosh. now rewrite exp_Ropp. Qed.
Lemma ach : ap 532 (-1) 256 (bdiv (badd eB iB) (@f2 B)) (cosh y) (cosh y).
Proof.
  pose proof exp_bd as (_ & H1 & H2). pose proof (Rinv_le_contravar 1 (exp y) ltac:(lra) H1) as H3. rewrite Rinv_1 in H3. assert (0 < / exp y) by (apply Rinv_0_lt_compat; lra).
  rewrite chc. eapply ap_rng; [eapply ap_weak; [eapply ap_div; [eapply apA; [exact aex|exact aei|zc|zc|zc]|exact (a2 m)|lra|zc|zc|zc|zc]|zc|apply Z.le_refl|apply Z.le_refl]|].
  right. change (p2 (-1)) with (/ 2). assert (1 <= p2 256) by (change 1 with (p2 0); apply bpow_le; lia). lra.
Qed.
Lemma sh_ge : cosh y <= 17 * sinh y /\ / 34 <= sinh y /\ 0 < sinh y /\ 0 < cosh y /\ sinh y <= cosh y.
Proof.
  rewrite shc, chc. pose proof exp_bd as (H0 & H1 & H2). set (e := exp y) in *. assert (0 < / e) by (apply Rinv_0_lt_compat; lra).
  assert (/ e <= 8 / 9 * e). { apply Rmult_le_reg_l with e; [lra|]. rewrite Rinv_r by lra. lra. }
  repeat split; lra.
Qed.
Lemma ash : ap 9044 (-6) 256 (bdiv (bsub eB iB) (@f2 B)) (sinh y) (sinh y).
Proof.
  pose proof ach as (_ & _ & _ & Rc). pose proof sh_ge as (S1 & S2 & S3 & S4 & S5).
  change 9044%Z with (532 * 17)%Z. eapply (ap_scale 17 532 (-260) 300 (-6) 256 _ _ (cosh y)).
  - rewrite shc, chc. eapply ap_weak; [eapply ap_div; [eapply apS; [exact aex|exact aei|zc|zc|zc]|exact (a2 m)|lra|zc|zc|zc|zc]|zc|zc|zc].
  - exact S1.
  - rewrite Rabs_pos_eq; lra.
  - zc.
  - right. split; [change (p2 (-6)) with (/ 64); lra|]. pose proof (rng_le _ _ _ Rc). lra.
Qed.
Variables (nB : b64) (nR Mn : R).
Hypothesis Hn : ap 9 (-9) 18 nB nR Mn.
Section Gen.
(* numerator g and denominator h *)
Variables (gB hB : b64) (g h : R).
Hypothesis Hg : ap 9044 (-6) 256 gB g g.
Hypothesis Hh : ap 9044 (-6) 256 hB h h.
Hypothesis h0 : 0 < h.
Lemma hln : ap 9065 (-9) 27 (bmul nB (lm_ln m (Babs hB))) (nR * ln h) (Mn * lsize h).
Proof.
  eapply ap_weak; [eapply ap_mul; [exact Hn|exact (aln 9044 (-6) 256 _ _ 256 9 (ap_abs _ _ _ _ _ Hh h0 ltac:(zc)) h0 ltac:(zc) ltac:(lia) ltac:(lia) ltac:(lia) ltac:(lia) ltac:(lia))|zc|zc|zc|zc]|zc|zc|zc].
Qed.
Lemma hfr : ap 18120 (-290) 300 (bdiv (bmul (bmul nB yB) gB) hB) (nR * y * g / h) (Mn * (y * g / h)).
Proof.
  eapply ap_eq; [eapply ap_weak; [eapply ap_div; [eapply ap_mul; [eapply ap_mul; [exact Hn|exact ay|zc|zc|zc|zc]|exact Hg|zc|zc|zc|zc]|exact Hh|exact h0|zc|zc|zc|zc]|zc|zc|zc]|reflexivity|unfold Rdiv; ring].
Qed.
Lemma hsq : ap 18120 (-550) 50 (bmul (bmul nB (bdiv yB hB)) (bdiv yB hB)) (nR * (y / h) * (y / h)) (Mn * (y / h) ^ 2).
Proof.
  assert (ap 9051 (-260) 13 (bdiv yB hB) (y / h) (y / h)) as Q.
  { eapply ap_weak; [eapply ap_div; [exact ay|exact Hh|exact h0|zc|zc|zc|zc]|zc|zc|zc]. }
  eapply ap_eq; [eapply ap_weak; [eapply ap_mul; [eapply ap_mul; [exact Hn|exact Q|zc|zc|zc|zc]|exact Q|zc|zc|zc|zc]|zc|zc|zc]|reflexivity|ring].
Qed.
End Gen.
End H.
(* triples *)
Definition ap3 (K a b : Z) (v : b64 * b64 * b64) (x : R * R * R) (M : nat -> R) : Prop :=
  ap K a b (fst (fst v)) (fst (fst x)) (M 0%nat) /\ ap K a b (snd (fst v)) (snd (fst x)) (M 1%nat) /\ ap K a b (snd v) (snd x) (M 2%nat).
Lemma ap3_ext K a b v x M N : (forall e, (e < 3)%nat -> M e = N e) -> ap3 K a b v x M -> ap3 K a b v x N.
Proof. intros H (P0 & P1 & P2). split; [|split]; rewrite <- H by lia; assumption. Qed.
Lemma th_chk : forallb (forallb (fun l => lit_in 7 12 l && lnneg l)) G_TH0I = true. Proof. vm_compute. reflexivity. Qed.
Lemma hstep i j K b v x M : (i < 21)%nat -> (j < 4)%nat -> ap3 K (-550) b v x M -> (18200 <= K <= 100000)%Z -> (300 <= b <= 500)%Z ->
  ap3 (K + 2) (-550) (b + 1) (@ghyp_step B gp_new T (S i) (4 + j) v) (@ghyp_step ArithR gp_new t (S i) (4 + j) x) (fun e => M e + hyp_size e i j t).
Proof.
  intros Hi Hj P HK Hb. destruct v as [[v0 v1] v2], x as [[x0 x1] x2]. destruct P as (P0 & P1 & P2). cbn [fst snd] in P0, P1, P2.
  pose proof (an i (3 + j) Hi ltac:(lia)) as Hn. change (S (3 + j)) with (4 + j)%nat in Hn.
  assert (Et : @lv2 ArithR G_TH0I (S i) (4 + j) = ig i (7 + j)) by (apply g_th; lia).
  unfold ghyp_step. set (n := qB (S i) (4 + j)) in *. set (nR := qR (S i) (4 + j)) in *.
  set (th := nth (4 + j) (nth (S i) G_TH0I []) (L 0 0)).
  change (@lv2 B G_TH0I (S i) (4 + j)) with (blit th). change (@lv2 ArithR G_TH0I (S i) (4 + j)) with (Rlit th) in Et |- *.
  assert (Hq : (lit_in 7 12 th && lnneg th)%bool = true). { unfold th. pose proof th_chk as G. rewrite forallb_forall in G. destruct (Nat.lt_ge_cases (S i) (length G_TH0I)) as [H1|H1]; [|rewrite (nth_overflow G_TH0I) by exact H1; destruct (4 + j)%nat; reflexivity].
    specialize (G _ (nth_In _ [] H1)). rewrite forallb_forall in G. destruct (Nat.lt_ge_cases (4 + j) (length (nth (S i) G_TH0I []))) as [H2|H2]; [exact (G _ (nth_In _ _ H2))|].
    rewrite nth_overflow by exact H2. reflexivity. }
  apply andb_true_iff in Hq. destruct Hq as [Hq1 Hq2]. apply lnneg_ok in Hq2.
  change (@GEPSILON B) with (blit (L 1 (-15))). change (@flt B) with (@Bltb 53 1024). change (@flt ArithR) with Rltb.
  destruct (Rle_lt_or_eq_dec _ _ Hq2) as [Hp|H0].
  - rewrite (lit_gt th 7 12 Hq1 Hp) by lia.
    assert (Rltb (@GEPSILON ArithR) (Rlit th) = true) as ->.
    { apply Rltb_true. rewrite glit15. pose proof (lit_in_ok _ _ _ Hq1) as R. rewrite Rabs_pos_eq in R by lra. destruct R as [R|[R _]]; [lra|]. change (p2 7) with 128 in R. lra. }
    cbv zeta. cbn [fadd fsub fmul fdiv fexp fln fabs ArithB64].
    change (@fadd ArithR) with Rplus. change (@fsub ArithR) with Rminus. change (@fmul ArithR) with Rmult. change (@fdiv ArithR) with Rdiv. change (@fexp ArithR) with exp. change (@fln ArithR) with ln. change (@fabs ArithR) with Rabs.
    change (@f1 ArithR) with 1. change (@f2 ArithR) with 2.
    pose proof (sh_ge th Hq1 Hp) as (S1 & S2 & S3 & S4 & S5).
    replace (1 / exp (Rlit th / t)) with (/ exp (Rlit th / t)) by (unfold Rdiv; ring). rewrite <- shc, <- chc. rewrite (Rabs_pos_eq (sinh _)), (Rabs_pos_eq (cosh _)) by lra.
    pose proof (ash th Hq1 Hp) as Hs. pose proof (ap_weak _ _ _ 9044 (-6) 256 _ _ _ (ach th Hq1 Hp) ltac:(lia) ltac:(lia) ltac:(lia)) as Hc.
    assert (forall e, hyp_size e i j t = nsize i (3 + j) * (if Nat.even j then match e with 0%nat => lsize (sinh (Rlit th / t)) | 1%nat => Rlit th / t * cosh (Rlit th / t) / sinh (Rlit th / t) | _ => (Rlit th / t / sinh (Rlit th / t)) ^ 2 end
       else match e with 0%nat => lsize (cosh (Rlit th / t)) | 1%nat => Rlit th / t * sinh (Rlit th / t) / cosh (Rlit th / t) | _ => (Rlit th / t / cosh (Rlit th / t)) ^ 2 end)) as HE.
    { intros e. unfold hyp_size. rewrite <- Et. cbv zeta. unfold hyp. rewrite Nat.even_succ, <- Nat.negb_even. destruct (Nat.even j); reflexivity. }
    replace (Nat.eqb (4 + j) 4 || Nat.eqb (4 + j) 6)%bool with (Nat.even j) by (do 4 (destruct j as [|j]; [reflexivity|]); lia).
    destruct (Nat.even j); (split; [|split]); rewrite HE; cbn [fst snd].
    + eapply ap_weak; [eapply apA; [exact P0|exact (hln n nR _ Hn _ _ Hs S3)|zc|zc|zc]|lia|lia|lia].
    + eapply ap_weak; [eapply apA; [exact P1|exact (hfr th Hq1 Hp n nR _ Hn _ _ _ _ Hc Hs S3)|zc|zc|zc]|lia|lia|lia].
    + eapply ap_weak; [eapply apA; [exact P2|exact (hsq th Hq1 Hp n nR _ Hn _ _ Hs S3)|zc|zc|zc]|lia|lia|lia].
    + eapply ap_weak; [eapply apS; [exact P0|exact (hln n nR _ Hn _ _ Hc S4)|zc|zc|zc]|lia|lia|lia].
    + eapply ap_weak; [eapply apS; [exact P1|exact (hfr th Hq1 Hp n nR _ Hn _ _ _ _ Hs Hc S4)|zc|zc|zc]|lia|lia|lia].
    + eapply ap_weak; [eapply apA; [exact P2|exact (hsq th Hq1 Hp n nR _ Hn _ _ Hc S4)|zc|zc|zc]|lia|lia|lia].
  - assert (Hz : forall e, hyp_size e i j t = 0).
    { intros e. destruct (th_cases i j Hi Hj) as [G|[_ G]]; [lra|]. unfold hyp_size, nsize. rewrite G, Rabs_R0. ring. }
    assert (Rltb (@GEPSILON ArithR) (Rlit th) = false) as -> by (apply Rltb_false; rewrite glit15; lra).
    assert (Bltb (blit (L 1 (-15))) (blit th) = false) as ->.
    { destruct (lit_err th 7 12 Hq1 ltac:(zc)) as [F E]. rewrite <- H0, Rabs_R0, Rmult_0_r in E. rewrite lt_fin by (reflexivity || exact F). apply Rlt_bool_false.
      pose proof (Rabs_pos (bR (blit th) - 0)). assert (Rabs (bR (blit th) - 0) = 0) as E0 by lra. destruct (Req_dec (bR (blit th) - 0) 0) as [E1|E1]; [|apply Rabs_no_R0 in E1; lra].
      destruct (lit_err (L 1 (-15)) (-50) (-49) eq_refl ltac:(zc)) as [L1 L2].
      change (Rlit (L 1 (-15))) with (@GEPSILON ArithR) in L2; rewrite glit15 in L2. rewrite (Rabs_pos_eq (1 / 1000000000000000)) in L2 by lra. apply Rabs_le_inv in L2.
      pose proof u_small. lra. }
    apply (ap3_ext _ _ _ _ _ M); [intros e _; rewrite Hz; ring|].
    split; [|split]; cbn [fst snd]; (eapply ap_weak; [eassumption|lia|lia|lia]).
Qed.
End M.
