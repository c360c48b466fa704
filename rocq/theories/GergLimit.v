(* GERG-2008: reducing functions of all compositions, and the low-density limit, over the reals. *)
From Coq Require Import Reals ZArith List Bool Lra Lia.
From Coquelicot Require Import Coquelicot.
From Verif Require Import FArith Prelude Tab Composition DetailModel DetailPure GergTables GergModel GergPure
  GergRefine GergEval Api ApiSafe BasicProofs HistoryGerg ArithR RSum SpecReal Thermo DetailReal DetailThermo
  GergReal GergIdeal GergThermo SpecDetail SpecGerg DetailEos GergEos.
Import ListNotations.
Local Open Scope R_scope.
Local Existing Instance ArithR.
Local Existing Instance PN.

Lemma derive_0 (f g : R -> R) (h : R) :
  (forall d : R, exists v : R, is_derive f d v /\ d * v = g d) -> is_derive g 0 h -> is_derive f 0 h.
Proof.
  intros Hf Hg. destruct (Hf 0) as (v0 & H0 & E0). rewrite Rmult_0_l in E0.
  replace h with v0; [exact H0|]. apply Rminus_diag_uniq, Rabs_eq_0. apply Rle_antisym; [|apply Rabs_pos].
  apply le_epsilon. intros eps He. rewrite Rplus_0_l.
  apply is_derive_Reals in Hg. apply is_derive_Reals in H0.
  destruct (Hg (eps / 2) ltac:(lra)) as [a Ha]. destruct (H0 (eps / 2) ltac:(lra)) as [b Hb].
  pose (e := Rmin a b / 2). assert (0 < e < a /\ e < b) as [[He0 Hea] Heb].
  { unfold e. pose proof (cond_pos a). pose proof (cond_pos b). pose proof (Rmin_l a b). pose proof (Rmin_r a b).
    assert (0 < Rmin a b) by now apply Rmin_pos. lra. }
  clearbody e. assert (forall d, is_derive f d (Derive f d)) as HD.
  { intros d. destruct (Hf d) as (v & Hv & _). rewrite (is_derive_unique _ _ _ Hv). exact Hv. }
  destruct (MVT_cor2 f (Derive f) 0 e He0) as (c & Ec & Hc).
  { intros c _. apply is_derive_Reals, HD. }
  specialize (Ha c ltac:(lra) ltac:(rewrite Rabs_right; lra)).
  specialize (Hb e ltac:(lra) ltac:(rewrite Rabs_right; lra)).
  rewrite Rplus_0_l, <- E0, Rminus_0_r in Ha. rewrite Rplus_0_l in Hb.
  destruct (Hf c) as (v & Hv & Ev). rewrite <- Ev in Ha. rewrite (is_derive_unique _ _ _ Hv) in Ec.
  replace (c * v / c) with v in Ha by (field; lra).
  replace ((f e - f 0) / e) with v in Hb by (rewrite Ec; field; lra).
  replace (v0 - h) with ((v - h) - (v - v0)) by ring.
  eapply Rle_trans; [apply Rabs_triang|]. rewrite Rabs_Ropp. lra.
Qed.
Lemma lim_quot (g : R -> R) (h : R) : g 0 = 0 -> is_derive g 0 h -> is_lim (fun d => g d / d) 0 h.
Proof.
  intros E H. apply is_derive_Reals in H. apply is_lim_spec. intros eps.
  destruct (H eps (cond_pos eps)) as [a Ha]. exists a. intros y Hy Hn.
  specialize (Ha y Hn). rewrite Rplus_0_l, E, Rminus_0_r in Ha. apply Ha.
  unfold ball in Hy. cbn in Hy. unfold AbsRing_ball, abs, minus, plus, opp in Hy. cbn in Hy.
  now rewrite Ropp_0, Rplus_0_r in Hy.
Qed.

Section Api.
Variable x : nat -> R.
Hypothesis Hs : exists i, (1 <= i < 22)%nat /\ 1 / 1000000 < x i.
Variable t : R.
Hypothesis Ht : 1 / 10000000 < t.
Local Notation A e d := (@AR PN (gxl x) e t d).
Let Ht0 : 0 < t. Proof. lra. Qed.
Let Hs' : some_present x := Hsome x Hs.
Lemma A1_0 : A 1%nat 0 = 0.
Proof. destruct (@A_good New x Hs' t 0 Ht0) as ((h1 & h2 & _ & E2 & _) & _). cbv beta in E2. rewrite Rmult_0_l in E2. now symmetry. Qed.
Lemma A2_0 : A 2%nat 0 = 0.
Proof.
  destruct (@A_good New x Hs' t 0 Ht0) as (_ & (h1 & h2 & _ & E2 & _) & _). cbv beta in E2.
  change (gpar New) with PN in E2. rewrite A1_0, Rmult_0_l, Rplus_0_l in E2. now symmetry.
Qed.
Lemma A0_derive (d : R) : exists v : R, is_derive (fun d => A 0%nat d) d v /\ d * v = A 1%nat d.
Proof.
  destruct (@A_good New x Hs' t d Ht0) as ((h1 & h2 & _ & E2 & G) & _). cbv beta in *.
  exists h2. split; [|exact E2]. replace h2 with (h1 * 0 + h2 * 1) by ring.
  apply (G (fun _ => t) (fun d => d)); [reflexivity|reflexivity|apply (@is_derive_const R_AbsRing R_NormedModule)|
    apply (@is_derive_id R_AbsRing)].
Qed.
Lemma A1_derive : exists h : R, is_derive (fun d => A 1%nat d) 0 h.
Proof.
  destruct (@A_good New x Hs' t 0 Ht0) as (_ & (h1 & h2 & _ & E2 & G) & _). cbv beta in *.
  exists (h1 * 0 + h2 * 1).
  apply (G (fun _ => t) (fun d => d)); [reflexivity|reflexivity|apply (@is_derive_const R_AbsRing R_NormedModule)|
    apply (@is_derive_id R_AbsRing)].
Qed.
Lemma gz d : gprop New PZ x t d = 1 + A 1%nat d.
Proof. rewrite gprop_ok by (exact Hs' || exact Ht). reflexivity. Qed.
Lemma g_z_zero : gprop New PZ x t 0 = 1.
Proof. rewrite gz, A1_0. ring. Qed.
Lemma g_p_zero : gpres New x t 0 = 0.
Proof. destruct (gpres_alphar x Hs t Ht 0) as (a & _ & -> & _). ring. Qed.
Lemma g_dpdd_zero : gprop New PDpDd x t 0 = Rg * t.
Proof.
  rewrite gprop_ok by (exact Hs' || exact Ht). rewrite w_dpdd. change (gpar New) with PN. cbv beta.
  rewrite A1_0, A2_0. replace (@RGERG ArithR) with Rg by reflexivity. ring.
Qed.
Lemma g_virial : exists b : R, is_derive (fun delta => alphar (ac x) delta (tred (ac x) / t)) 0 b /\
  is_lim (fun d => (gprop New PZ x t d - 1) / d) 0 (b * vred (ac x)).
Proof.
  pose proof (vred_big x Hs) as Hv. destruct A1_derive as [h Hh].
  assert (is_derive (fun d => A 0%nat d) 0 h) as H0 by (apply (derive_0 _ (fun d => A 1%nat d)); [exact A0_derive|exact Hh]).
  exists (h / vred (ac x)). split.
  - apply (is_derive_ext (fun q => A 0%nat (q * / vred (ac x)))).
    { intros q. rewrite AR0_alphar. change (@xf ArithR (gxl x)) with (gX x). rewrite gdr_eq, gtr_eq by exact Hs.
      rewrite (alphar_ext (ac (gX x)) (ac x)) by (intros; now apply ac_gX). f_equal. field. lra. }
    replace (h / vred (ac x)) with (scal (/ vred (ac x)) h) by (unfold scal; cbn; unfold mult; cbn; field; lra).
    apply (is_derive_comp (fun d => A 0%nat d) (fun q => q * / vred (ac x))); [|auto_derive; [trivial|ring]].
    now rewrite Rmult_0_l.
  - replace (h / vred (ac x) * vred (ac x)) with h by (field; lra).
    apply (is_lim_ext (fun d => A 1%nat d / d)).
    { intros d. rewrite gz. f_equal. ring. }
    apply lim_quot; [exact A1_0|exact Hh].
Qed.
End Api.

Section Low.
Variables (k : start) (x : nat -> R) (t d : R).
Hypothesis Hs : some_present x.
Hypotheses (Ht : 1 / 10000000 < t) (Hd : d <= 1 / 1000000000000000).
Lemma g_low_cp : gprop k PCp x t d = gprop k PCv x t d + Rg.
Proof.
  rewrite !gprop_ok by assumption. cbn [gvals]. unfold gqcp, gqdense.
  replace (@flt ArithR GEPSILON d) with false; [reflexivity|]. symmetry. apply Rltb_false. rewrite glit15. exact Hd.
Qed.
Lemma g_low_h : gprop k PH x t d = gprop k PU x t d + Rg * t * gprop k PZ x t d.
Proof.
  rewrite !gprop_ok by assumption. rewrite w_h, w_u. change (gvals k x PZ t d) with (1 + @AR (gpar k) (gxl x) 1 t d).
  replace (@RGERG ArithR) with Rg by reflexivity. ring.
Qed.
End Low.

(* the reducing functions of every composition are positive *)
Section Red.
Variable x : nat -> R.
Hypothesis Hx : forall i, (1 <= i < 22)%nat -> 0 <= x i.
Lemma tpair_ge0 i j : (1 <= i < j)%nat -> (j <= 21)%nat ->
  0 <= 2 * x i * x j * tb2 G_GTIJ i j * (x i + x j) / (tb2 G_BTIJ i j * x i + x j).
Proof.
  intros Hi Hj. pose proof (Hx i ltac:(lia)). pose proof (Hx j ltac:(lia)).
  pose proof (upper_pos_ok _ i j gtij_pos ltac:(lia) ltac:(lia) ltac:(lia)) as G. change (0 < tb2 G_GTIJ i j) in G.
  pose proof (upper_pos_ok _ i j btij_pos ltac:(lia) ltac:(lia) ltac:(lia)) as B. change (0 < tb2 G_BTIJ i j) in B.
  assert (0 <= tb2 G_BTIJ i j * x i + x j) as D.
  { apply Rplus_le_le_0_compat; [apply Rmult_le_pos; lra|assumption]. }
  destruct (Req_dec (tb2 G_BTIJ i j * x i + x j) 0) as [E|E].
  - rewrite E. unfold Rdiv. rewrite Rinv_0. lra.
  - apply Rmult_le_pos; [|apply Rlt_le, Rinv_0_lt_compat; lra].
    repeat (apply Rmult_le_pos; try lra).
Qed.
Hypothesis Hp : exists i, (1 <= i < 22)%nat /\ 0 < x i.
Lemma vred_pos : 0 < vred x.
Proof.
  destruct Hp as (i & Hi & H). pose proof (vred_ge x Hx i Hi) as G.
  assert (0 < x i ^ 2) by (apply pow_lt; exact H). lra.
Qed.
Lemma tred_pos : 0 < tred x.
Proof.
  destruct Hp as (i & Hi & H). unfold tred. apply Rplus_lt_le_0_compat.
  - rewrite sumf_rsum. apply (rsum_gt0 _ _ i).
    + intros n Hn. apply in_seq in Hn. apply Rmult_le_pos; [apply pow2_ge_0|].
      pose proof (upper_pos_ok _ n n gtij_pos ltac:(lia) ltac:(lia) ltac:(lia)) as G. now apply Rlt_le.
    + apply in_seq. lia.
    + apply Rmult_lt_0_compat; [now apply pow_lt|].
      exact (upper_pos_ok _ i i gtij_pos ltac:(lia) ltac:(lia) ltac:(lia)).
  - apply pairs_ge0. intros a b Hab. apply tpair_ge0; lia.
Qed.
End Red.
(* a pure fluid reduces to its diagonal table entries *)
Lemma sum_zero n f : (forall j, (j < n)%nat -> f j = 0) -> sum n f = 0.
Proof. intros H. induction n as [|n IH]; [reflexivity|]. cbn [sum]. rewrite IH, H; auto. ring. Qed.
Lemma sum_single n f i : (i < n)%nat -> (forall j, (j < n)%nat -> j <> i -> f j = 0) -> sum n f = f i.
Proof.
  induction n as [|n IH]; intros Hi H; [lia|]. cbn [sum]. destruct (Nat.eq_dec i n) as [->|Hn].
  - rewrite sum_zero; [ring|]. intros j Hj. apply H; lia.
  - rewrite IH, (H n); [ring|lia|lia|lia|]. intros; apply H; lia.
Qed.
Definition pure (i j : nat) : R := if Nat.eqb j i then 1 else 0.
Section Pure.
Variable i : nat.
Hypothesis Hi : (1 <= i < 22)%nat.
Lemma pure_sum f : sumf 0 21 (fun j => pure i j ^ 2 * f j) = f i.
Proof.
  unfold sumf. rewrite (sum_single 21 _ (i - 1)); [|lia|].
  - replace (0 + S (i - 1))%nat with i by lia. unfold pure. rewrite Nat.eqb_refl. ring.
  - intros j Hj Hn. unfold pure. destruct (Nat.eqb_spec (0 + S j) i); [lia|ring].
Qed.
Lemma pure_pairs f : (forall a b, pure i a * pure i b = 0 -> f a b = 0) -> pairs1 21 f = 0.
Proof.
  intros H. unfold pairs1, pairs. apply sum_zero. intros b Hb. apply sum_zero. intros a Ha. apply H.
  unfold pure. destruct (Nat.eqb_spec (S a) i), (Nat.eqb_spec (S b) i); try ring. lia.
Qed.
Lemma vred_pure : vred (pure i) = tb2 G_GVIJ i i.
Proof.
  unfold vred. rewrite pure_sum, pure_pairs; [ring|]. intros a b E.
  replace (2 * pure i a * pure i b) with (2 * (pure i a * pure i b)) by ring. rewrite E. unfold Rdiv. ring.
Qed.
Lemma tred_pure : tred (pure i) = tb2 G_GTIJ i i.
Proof.
  unfold tred. rewrite pure_sum, pure_pairs; [ring|]. intros a b E.
  replace (2 * pure i a * pure i b) with (2 * (pure i a * pure i b)) by ring. rewrite E. unfold Rdiv. ring.
Qed.
End Pure.

(* exponents *)
Lemma table_exps i k : (1 <= i < 22)%nat -> (1 <= k <= kpol i + kexp i)%nat ->
  (1 <= dexp i k < 8)%nat /\ (cexp i k < 8)%nat /\ ((kpol i < k)%nat -> (1 <= cexp i k)%nat) /\
  (short_form i = true -> texp i k = texp 5 k).
Proof.
  intros Hi Hk. destruct (exps_at i k Hi Hk) as (E1 & E2 & E3 & E4 & E5 & E6).
  pose proof (@q_doik_lt ArithR PN i k) as D. pose proof (@q_coik_lt ArithR PN i k) as C. cbn [q_doik q_coik PN gp_new] in D, C.
  split; [lia|]. split; [lia|]. split; [exact E4|]. intros S.
  pose proof (short_len i (proj2 Hi) S). rewrite S in E6. rewrite <- E6.
  assert (kpol 5 + kexp 5 = 12)%nat as K5 by reflexivity.
  destruct (exps_at 5 k ltac:(lia) ltac:(lia)) as (_ & _ & _ & _ & E & _). exact E.
Qed.
