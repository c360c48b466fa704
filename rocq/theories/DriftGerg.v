(* Drift over the reals: GERG-2008 with a single component heated in steps below 1e-7 K. *)
From Coq Require Import Reals ZArith List Bool Lra Lia.
From Coquelicot Require Import Coquelicot.
From Interval Require Import Tactic.
From Verif Require Import FArith Prelude Tab Composition DetailModel DetailPure GergTables GergModel GergPure
  GergRefine GergEval Api ApiSafe SpecGeneric SpecHistory BasicProofs GenericLemmas HistoryGerg ArithR RSum SpecReal
  CompReal DetailReal DetailThermo GergReal GergIdeal GergThermo SpecDetail SpecGerg DetailEos GergEos GergLimit
  NewtonReal Drift DriftReal.
Import ListNotations.
Local Open Scope R_scope.
Local Existing Instance ArithR.

(* one active component: no departure terms, so the logarithm of tau is not used *)
Lemma gterms_one {A : Arith} {P : GParams} X del l l' TP TM i :
  (forall j, (1 <= j < 22)%nat -> act (X j) = true -> j = i) ->
  gterms X del l TP TM = gterms X del l' TP TM.
Proof.
  intros H. unfold gterms. f_equal. apply flat_map_ext_in. intros a Ha. apply in_seq in Ha.
  unfold mixrow. destruct (act (X a)) eqn:Ea; [|reflexivity].
  apply flat_map_ext_in. intros b Hb. apply in_seq in Hb. unfold mix_terms.
  destruct (act (X b)) eqn:Eb; [|reflexivity].
  pose proof (H a ltac:(lia) Ea). pose proof (H b ltac:(lia) Eb). lia.
Qed.
Lemma gx_diff_same_R x : @gx_diff ArithR x x = false.
Proof.
  apply not_true_iff_false. intros H. unfold gx_diff in H. apply existsb_exists in H. destruct H as (i & _ & H).
  rewrite differs_same in H. discriminate H.
Qed.
Lemma gx_diff_0 x i : (1 <= i < 22)%nat -> 1 / 10000000 < nth i x 0 -> @gx_diff ArithR x (repeat (@f0 ArithR) 22) = true.
Proof.
  intros Hi Hx. unfold gx_diff. apply existsb_exists. exists i. split; [apply in_seq; lia|].
  unfold xf. rewrite nth_repeat. exact (differs_0 _ Hx).
Qed.

Section Heat.
Variables (c : @Composition ArithR) (t0 t1 d : R) (n : nat) (i : nat).
Hypothesis Hc : comp_check c = ROk.
Let x : list R := 0 :: fractions c.
Local Notation xs := (fun j => nth j (0 :: fractions c) 0).
Hypothesis Hi : (1 <= i < 22)%nat.
Hypothesis Hx : 1 / 10000000 < nth i x 0.
Hypothesis Ho : forall j, (1 <= j < 22)%nat -> j <> i -> nth j x 0 <= 1 / 1000000000000000.
Hypothesis H0 : 1 / 10000000 < t0.
Hypothesis H1 : 1 / 10000000 < t1.
Hypothesis Hn : line t0 t1 n 0 = t0 /\ line t0 t1 n n = t1 /\
  forall i, Rabs (line t0 t1 n (S i) - line t0 t1 n i) <= 1 / 10000000.
Local Existing Instance gp_new.

Lemma gheat_first : exists s r k, gexec New (base_ops c t0 d) = Some (s, r) /\
  gcan (P := gp_new) x (t0 : @F ArithR) k /\ gheld (P := gp_new) k x (t0 : @F ArithR) (d : @F ArithR) s.
Proof.
  enough (G : exists s r k, grun (base_ops c t0 d) gerg_fresh = Some (s, r) /\
    gcan (P := gp_new) x (t0 : @F ArithR) k /\ gheld (P := gp_new) k x (t0 : @F ArithR) (d : @F ArithR) s).
  { destruct G as (s & r & k & G & Hh). exists s, r, k. split; [now apply gexec_new|exact Hh]. }
  unfold base_ops. cbn [grun gstep gpoke]. rewrite gset_comp by exact (gw_x _ _ gwf_fresh). rewrite Hc. cbn [bind].
  set (s0 := set_g_t (t0 : @F ArithR) (set_g_d (d : @F ArithR) (set_g_x (@f0 ArithR :: fractions c) gerg_fresh))).
  assert (Ex : g_x s0 = x). { reflexivity. }
  assert (W : gwf (P := gp_new) gc_zero s0).
  { apply (@gwf_poke ArithR gp_new PT), (@gwf_poke ArithR gp_new PD), gwf_set_x; [reflexivity|exact gwf_fresh]. }
  destruct (gpress_new (P := gp_new) gc_zero s0 W) as (s1 & k & E1 & Hk & Hh & _).
  - rewrite Ex. change (@gx_diff ArithR x (repeat (@f0 ArithR) 22) = true). now apply (gx_diff_0 x i).
  - exact (differs_0 t0 H0).
  - rewrite E1. cbn [bind]. rewrite Ex in Hk, Hh. do 3 eexists. split; [reflexivity|]. split; [exact Hk|exact Hh].
Qed.
Lemma gheat_end : exists s r k, gexec New (heating c t0 t1 d n) = Some (s, r) /\
  gcan (P := gp_new) x (t0 : @F ArithR) k /\ gheld (P := gp_new) k x (t1 : @F ArithR) (d : @F ArithR) s.
Proof.
  destruct gheat_first as (s & r & k & E & Hk & Hh). destruct Hn as (L0 & L1 & LS).
  destruct (@g_ramp_t ArithR gp_new (line t0 t1 n) k x d s) with (n := n) as (s' & r' & E' & Hh').
  - rewrite L0. exact Hh.
  - apply gx_diff_same_R.
  - apply differs_same.
  - intros j Hj. apply differs_R, LS.
  - do 3 eexists. split; [exact (gexec_app _ _ _ _ _ _ _ E E')|]. split; [exact Hk|]. rewrite L1 in Hh'. exact Hh'.
Qed.
Lemma heat_some : some_present xs.
Proof. exists i. split; [exact Hi|exact Hx]. Qed.
Lemma gheat_stale : exists s r, gexec New (heating c t0 t1 d n) = Some (s, r) /\
  g_x s = x /\ g_t s = t1 /\ g_d s = d /\
  exists s', gstep Pressure s =
    Some (s', OVal (A := ArithR) (d * Rg * t1 * gprop New PZ xs t0 d)).
Proof.
  destruct gheat_end as (s & r & k & E & Hk & Hh). exists s, r. split; [exact E|].
  destruct Hh as [W X T D XO]. split; [exact X|]. split; [exact T|]. split; [exact D|].
  destruct (gpress_held (P := gp_new) k x (t1 : @F ArithR) s W XO) as (s' & E' & _).
  - rewrite X. apply gx_diff_same_R.
  - rewrite T. apply differs_same.
  - apply differs_same.
  - exists s'. cbn [gstep]. rewrite E'. cbn [bind]. rewrite X, T, D. unfold gpp.
    assert (G : cterms x (t1 : @F ArithR) d k = @can_terms ArithR gp_new x t0 d).
    { rewrite <- (can_cterms (P := gp_new) _ _ _ _ Hk). unfold cterms. apply gterms_one with (i := i).
      intros j Hj Ha. destruct (Nat.eq_dec j i) as [|Hji]; [assumption|]. exfalso.
      pose proof (Ho j Hj Hji) as Hle. unfold act in Ha. apply Rltb_true in Ha. rewrite glit15 in Ha. unfold xf in Ha.
      change (1 / 1000000000000000 < nth j x 0) in Ha. lra. }
    rewrite G. rewrite (gprop_ok New xs heat_some PZ t0 d H0). cbn [gvals]. unfold gqz, gT.
    rewrite gxl_nth by reflexivity. reflexivity.
Qed.
End Heat.

(* the second virial coefficient of methane *)
Lemma term_derive c u m k : (1 <= m)%nat -> (1 <= k)%nat ->
  is_derive (fun D => c * D ^ m * u * exp (- D ^ k)) 0 (if Nat.eqb m 1 then c * u else 0).
Proof.
  intros Hm Hk. auto_derive; [trivial|]. destruct k as [|k]; [lia|]. destruct m as [|[|m]]; [lia| |].
  - cbn [Nat.eqb pred pow]. rewrite !Rmult_0_l, Ropp_0, exp_0. cbn [INR]. ring.
  - cbn [Nat.eqb pred pow]. rewrite !Rmult_0_l, Ropp_0, exp_0. ring.
Qed.
Lemma term_derive' c u m : (1 <= m)%nat ->
  is_derive (fun D => c * D ^ m * u) 0 (if Nat.eqb m 1 then c * u else 0).
Proof.
  intros Hm. auto_derive; [trivial|]. destruct m as [|[|m]]; [lia| |].
  - cbn [Nat.eqb pred pow INR]. ring.
  - cbn [Nat.eqb pred pow]. ring.
Qed.
Lemma sum_derive n (f : nat -> R -> R) (g : nat -> R) z : (forall k, (k < n)%nat -> is_derive (f k) z (g k)) ->
  is_derive (fun D => sum n (fun k => f k D)) z (sum n g).
Proof.
  intros H. induction n as [|n IH]; cbn [sum].
  - apply (@is_derive_const R_AbsRing R_NormedModule).
  - apply (is_derive_plus (fun D => sum n (fun k => f k D)) (f n)); [apply IH; intros; apply H; lia|apply H; lia].
Qed.
(* derivative of alpha_o at zero density *)
Definition slope_o (i : nat) (tau : R) : R :=
  sumf 0 (nth i G_KPOL 0%nat + nth i G_KEXP 0%nat) (fun k => if Nat.eqb (dexp i k) 1 then tb2 G_NOIK i k * Rpower tau (texp i k) else 0).
Lemma sum_app n m f : sum (n + m) f = sum n f + sum m (fun k => f (n + k)%nat).
Proof.
  induction m as [|m IH]; cbn [sum]; [rewrite Nat.add_0_r; ring|]. rewrite Nat.add_succ_r. cbn [sum]. rewrite IH. ring.
Qed.
Lemma slope_ok i tau : (1 <= i < 22)%nat -> is_derive (fun D => alpha_o D tau i) 0 (slope_o i tau).
Proof.
  intros Hi. unfold alpha_o, slope_o, sumf. cbv zeta. rewrite sum_app.
  apply (is_derive_plus (fun D => sum _ _) (fun D => sum _ _)).
  - apply (sum_derive _ (fun k D => tb2 G_NOIK i (0 + S k) * D ^ dexp i (0 + S k) * Rpower tau (texp i (0 + S k)))).
    intros k Hk. apply term_derive'. apply (table_exps i (0 + S k) Hi). unfold kpol, kexp. lia.
  - apply (sum_derive _ (fun k D => tb2 G_NOIK i (nth i G_KPOL 0%nat + S k) * D ^ dexp i (nth i G_KPOL 0%nat + S k)
      * Rpower tau (texp i (nth i G_KPOL 0%nat + S k)) * exp (- D ^ cexp i (nth i G_KPOL 0%nat + S k)))).
    intros k Hk. replace (0 + S (nth i G_KPOL 0%nat + k))%nat with (nth i G_KPOL 0%nat + S k)%nat by lia.
    destruct (table_exps i (nth i G_KPOL 0%nat + S k) Hi) as (A & B & C & _); [unfold kpol, kexp; lia|].
    apply term_derive; [lia|]. apply C. unfold kpol. lia.
Qed.
Lemma alphar_pure i D T : (1 <= i < 22)%nat -> alphar (pure i) D T = alpha_o D T i.
Proof.
  intros Hi. unfold alphar. rewrite (pure_pairs i Hi).
  - unfold sumf. rewrite (sum_single 21 _ (i - 1)); [|lia|].
    + replace (0 + S (i - 1))%nat with i by lia. unfold pure. rewrite Nat.eqb_refl. ring.
    + intros j Hj Hn. unfold pure. destruct (Nat.eqb_spec (0 + S j) i); [lia|ring].
  - intros a b E. unfold departure. destruct (nth b _ _); [reflexivity|]. rewrite E. ring.
Qed.
Definition dexps1 : list nat := map (dexp 1) (seq 1 24).
Lemma dexps1_eq : dexps1 = [1; 1; 2; 2; 4; 4; 1; 1; 1; 2; 3; 6; 2; 3; 3; 4; 4; 2; 3; 4; 5; 6; 6; 7]%nat.
Proof. vm_compute. reflexivity. Qed.
Lemma slope_1 tau : slope_o 1 tau =
  57335704239162 / 100000000000000 * Rpower tau (125 / 1000)
  + -1676068752373 / 1000000000000 * Rpower tau (1125 / 1000)
  + 98990489492918 / 1000000000000000 * Rpower tau (625 / 1000)
  + 58382770929055 / 100000000000000 * Rpower tau (2625 / 1000)
  + -7478686756039 / 10000000000000 * Rpower tau (275 / 100).
Proof.
  unfold slope_o, sumf. change (nth 1 G_KPOL 0 + nth 1 G_KEXP 0)%nat with 24%nat.
  assert (E : forall k, (k < 24)%nat -> dexp 1 (0 + S k) = nth k dexps1 0%nat).
  { intros k Hk. unfold dexps1. rewrite (nth_indep _ _ (dexp 1 0)) by (rewrite map_length, seq_length; exact Hk).
    rewrite map_nth, seq_nth by exact Hk. reflexivity. }
  rewrite (sum_ext 24 _ (fun k => if Nat.eqb (nth k dexps1 0%nat) 1 then tb2 G_NOIK 1 (0 + S k) * Rpower tau (texp 1 (0 + S k)) else 0))
    by (intros k Hk; now rewrite E).
  rewrite dexps1_eq. cbn [sum nth Nat.eqb Nat.add].
  assert (T : forall k v, expo G_setup_toik_all G_setup_toik_long G_setup_toik 1 k = Some v -> texp 1 k = Rlit v)
    by (intros k v G; unfold texp; now rewrite G).
  rewrite (T 1%nat (L 125 (-3))), (T 2%nat (L 1125 (-3))), (T 7%nat (L 625 (-3))), (T 8%nat (L 2625 (-3))), (T 9%nat (L 275 (-2)))
    by (vm_compute; reflexivity).
  unfold tb2. cbn [nth G_NOIK Rlit].
  change (IZR (10 ^ 3)) with 1000. change (IZR (10 ^ 2)) with 100. 
  change (IZR (10 ^ 14)) with 100000000000000. change (IZR (10 ^ 12)) with 1000000000000.
  change (IZR (10 ^ 15)) with 1000000000000000. change (IZR (10 ^ 13)) with 10000000000000. ring.
Qed.
Lemma slope_moves : slope_o 1 1 < slope_o 1 (1 / 4).
Proof. rewrite !slope_1. unfold Rpower. rewrite ln_1. interval. Qed.
Definition xg (i : nat) : R := nth i (0 :: @fractions ArithR cmethane) 0.
Lemma xg_pure i : (1 <= i < 22)%nat -> ac xg i = pure 1 i.
Proof.
  intros Hi. unfold ac, xg, pure.
  do 22 (destruct i as [|i]; [cbn; destruct (Rlt_dec _ _); try lra; try lia|]). lia.
Qed.
Lemma xg_some : exists i, (1 <= i < 22)%nat /\ 1 / 1000000 < xg i.
Proof. exists 1%nat. split; [lia|]. cbn. lra. Qed.
Lemma xg_some' : some_present xg.
Proof. exists 1%nat. split; [lia|]. cbn. lra. Qed.
Definition TC : R := 190564 / 1000.
Lemma tred_xg : tred (ac xg) = TC.
Proof.
  rewrite (tred_ext (ac xg) (pure 1)) by exact xg_pure. rewrite tred_pure by lia. unfold tb2. cbn [nth G_GTIJ Rlit]. cbn.
  unfold TC. lra.
Qed.
Lemma gvirial_xg tau : 1 / 10000000 < TC / tau -> tau <> 0 ->
  is_lim (fun d => (gprop New PZ xg (TC / tau) d - 1) / d) 0 (slope_o 1 tau * vred (ac xg)).
Proof.
  intros H Hn. destruct (g_virial xg xg_some (TC / tau) H) as (b & Hb & L).
  replace (slope_o 1 tau) with b; [exact L|].
  rewrite tred_xg in Hb. replace (TC / (TC / tau)) with tau in Hb by (unfold TC; field; exact Hn).
  apply is_derive_unique in Hb. rewrite <- Hb. apply is_derive_unique.
  apply (is_derive_ext (fun D => alpha_o D tau 1)); [|apply slope_ok; lia].
  intros D. rewrite (alphar_ext (ac xg) (pure 1)) by exact xg_pure. now rewrite alphar_pure by lia.
Qed.
Lemma gZ_moves : exists d, 0 < d /\ gprop New PZ xg TC d < gprop New PZ xg (4 * TC) d.
Proof.
  assert (V : 0 < vred (ac xg)).
  { pose proof (vred_big xg xg_some). lra. }
  destruct (lim_gap (fun d => (gprop New PZ xg (TC / 1) d - 1) / d) (fun d => (gprop New PZ xg (TC / (1/4)) d - 1) / d)
    (slope_o 1 1 * vred (ac xg)) (slope_o 1 (1/4) * vred (ac xg))) as (d & Hd & H).
  - apply Rmult_lt_compat_r; [exact V|exact slope_moves].
  - apply gvirial_xg; unfold TC; lra.
  - apply gvirial_xg; unfold TC; lra.
  - exists d. split; [exact Hd|]. apply (Rmult_lt_compat_r d) in H; [|exact Hd].
    unfold Rdiv in H. rewrite !Rmult_assoc, Rinv_l in H by lra.
    replace (TC * / 1) with TC in H by lra. replace (TC * / (1 * / 4)) with (4 * TC) in H by lra. lra.
Qed.

Lemma gcopy_press (s : @Gerg ArithR) : greach s ->
  some_present (fun i => nth i (g_x s) 0) -> 1 / 10000000 < g_t s ->
  exists s1 r1, gexec New (gcopy s) = Some (s1, r1) /\ gsame s s1 /\
  exists s2, gstep Pressure s1 = Some (s2, OVal (gpres New (fun i => nth i (g_x s) 0) (g_t s) (g_d s))).
Proof.
  intros Hr Hsp Ht. pose proof Hsp as (i & Hi & Hx). set (V := [(g_x s, g_t s)]).
  assert (L : length (g_x s) = 22%nat) by exact (greach_x s Hr).
  assert (HV : separated 1 V).
  { split.
    - intros x t x' t' [E|[]] [E'|[]]. injection E as <- <-. injection E' as <- <-. now split; left.
    - intros x t [E|[]]. injection E as <- <-. split.
      + exists i. split; [lia|]. rewrite nth_repeat. exact (differs_0 _ Hx).
      + exact (differs_0 _ Ht). }
  assert (HL : forall x t, In (x, t) V -> length x = 22%nat).
  { intros x t [E|[]]. injection E as <- _. exact L. }
  assert (H0 : @HistoryGerg.hinv ArithR gp_new V gerg_fresh).
  { exists gc_zero. split; [exact gwf_fresh|]. left. split; reflexivity. }
  destruct (HistoryGerg.copy_run V s gerg_fresh H0 L) as (s1 & r1 & E1 & K1 & Hs).
  exists s1, r1. split; [exact (gexec_new _ _ _ E1)|]. split; [exact Hs|].
  assert (Ex : g_x s1 = g_x s) by (symmetry; apply Hs).
  assert (Et : g_t s1 = g_t s) by (symmetry; apply (proj2 Hs PT)).
  assert (Ed : g_d s1 = g_d s) by (symmetry; apply (proj2 Hs PD)).
  destruct (@HistoryGerg.press_hist ArithR gp_new V HV HL s1 K1) as (s2 & E2 & _).
  { left. now rewrite Ex, Et. }
  exists s2. cbn [gstep]. rewrite E2. cbn [bind]. rewrite Ex, Et, Ed.
  exact (f_equal (fun v : @F ArithR => Some (s2, OVal v)) (gpres_some New (g_x s) (g_t s) L Hsp Ht (g_d s))).
Qed.

Lemma g_drift_witness : exists d n s r s1 r1 s2 s3 (p q : R),
  gexec New (heating cmethane TC (4 * TC) d n) = Some (s, r) /\
  (forall i, Rabs (line TC (4 * TC) n (S i) - line TC (4 * TC) n i) <= 1 / 10000000) /\
  0 < d /\ gexec New (gcopy s) = Some (s1, r1) /\ gsame s s1 /\
  gstep Pressure s = Some (s2, OVal (A := ArithR) p) /\ gstep Pressure s1 = Some (s3, OVal (A := ArithR) q) /\ p < q.
Proof.
  destruct gZ_moves as (d & Hd & HZ). destruct (line_exists TC (4 * TC)) as (n & _ & Hn).
  destruct (gheat_stale cmethane TC (4 * TC) d n 1 cm_check) as (s & r & E & X & T & D & s2 & E2).
  - lia.
  - cbn. lra.
  - intros j Hj Hj1. do 22 (destruct j as [|j]; [cbn; try lia; try lra|]). lia.
  - unfold TC; lra.
  - exact Hn.
  - destruct (gcopy_press s) as (s1 & r1 & E1 & Hs & s3 & E3).
    + exists New, (heating cmethane TC (4 * TC) d n), r. exact E.
    + rewrite X. exact xg_some'.
    + rewrite T. unfold TC. lra.
    + rewrite X, T, D in E3. exists d, n, s, r, s1, r1, s2, s3. do 2 eexists. split; [exact E|]. split; [apply Hn|].
      split; [exact Hd|]. split; [exact E1|]. split; [exact Hs|]. split; [exact E2|]. split; [exact E3|].
      change (fun j => nth j (0 :: fractions cmethane) 0) with xg.
      replace (gpres New xg (4 * TC) d) with (d * Rg * (4 * TC) * gprop New PZ xg (4 * TC) d).
      * apply Rmult_lt_compat_l; [|exact HZ]. unfold TC, Rg. repeat apply Rmult_lt_0_compat; lra.
      * assert (HT : 1 / 10000000 < 4 * TC) by (unfold TC; lra).
        rewrite (gprop_ok New xg xg_some' PZ _ d HT), (gpres_ok New xg xg_some' _ d HT). reflexivity.
Qed.
Lemma g_history_false : ~ (forall k l l2 (s : @Gerg ArithR) r, gexec k l = Some (s, r) ->
  exists s1 r1, gexec k (gcopy s) = Some (s1, r1) /\
  exists s2 s3 r2, grun l2 s = Some (s2, r2) /\ grun l2 s1 = Some (s3, r2) /\ gsame s2 s3).
Proof.
  intros H. destruct g_drift_witness as (d & n & s & r & s1 & r1 & s2 & s3 & p & q & E & _ & _ & E1 & _ & E2 & E3 & L).
  destruct (H New _ [Pressure] s r E) as (s1' & r1' & E1' & t2 & t3 & r2 & F2 & F3 & _).
  rewrite E1 in E1'. injection E1' as <- _. cbn [grun] in F2, F3. rewrite E2 in F2. rewrite E3 in F3. cbn [bind] in F2, F3.
  injection F2 as _ <-. injection F3 as _ E4. change (q = p) in E4. lra.
Qed.
Lemma g_drift : forall (c : @Composition ArithR) t0 t1 d i, comp_check c = ROk -> (1 <= i < 22)%nat ->
  1 / 10000000 < nth i (0 :: fractions c) 0 ->
  (forall j, (1 <= j < 22)%nat -> j <> i -> nth j (0 :: fractions c) 0 <= 1 / 1000000000000000) ->
  1 / 10000000 < t0 ->
  exists n s r, gexec New (heating c t0 t1 d n) = Some (s, r) /\
    g_x s = 0 :: fractions c /\ g_t s = t1 /\ g_d s = d /\
    exists s', gstep Pressure s = Some (s', OVal (A := ArithR)
      (d * Rg * t1 * gprop New PZ (fun j => nth j (0 :: fractions c) 0) t0 d)).
Proof.
  intros c t0 t1 d i Hc Hi Hx Ho H0. destruct (line_exists t0 t1) as (n & _ & Hn). exists n. now apply (gheat_stale c t0 t1 d n i).
Qed.
