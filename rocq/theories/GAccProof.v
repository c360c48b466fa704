(* The GERG pressure in double precision is close to the printed equation of state. *)
From Coq Require Import Reals ZArith List Bool Lra Lia Psatz FunctionalExtensionality.
From Coquelicot Require Import Coquelicot.
From Flocq Require Import Core BinarySingleNaN.
From Verif Require Import FArith Prelude Tab ArithB64 B64Lemmas ArithR RSum SpecDetail SpecGerg SpecTables StdGerg SpecStd SpecAcc SpecAccG DetailPure GergTables GergModel GergPure GergRefine GergEval Api ApiSafe BasicProofs HistoryGerg SpecReal Thermo DetailReal DetailThermo GergReal GergIdeal GergThermo
  DetailEos GergEos Drift StdDetailProof StdGergProof B64Err AccFold AccMix AccEos AccProof GAccRed GAccTerms GAccEos GAccSize.
Import ListNotations.
Local Open Scope R_scope.

(* a first pressure evaluation *)
Section New.
Context {A : Arith}.
Local Opaque gterms arT arS tab2 gc_red ga0 gmm gx_diff tab gerg_pressure gerg_properties differs.
Lemma gpress_new_z {P : GParams} c0 s : gwf c0 s -> gx_diff (g_x s) (g_xold s) = true -> differs (g_t s) f0 = true ->
  exists s', gerg_pressure s = Some (s', gpp (can_terms (g_x s) (g_t s) (g_d s)) (g_t s) (g_d s)) /\
    g_z s' = gpz (can_terms (g_x s) (g_t s) (g_d s)).
Proof.
  intros W Hx Ht. set (c := gc_next (g_x s) (g_xold s) (g_t s) c0).
  assert (Hc : gcan (g_x s) (g_t s) c).
  { Local Transparent gc_red. unfold c, gc_next. apply tau_fresh; unfold gc_red; rewrite Hx; try reflexivity.
    unfold gc_fresh. cbn [gc_told]. now rewrite Ht. Local Opaque gc_red. }
  pose proof (gpressure_ok _ _ W) as E.
  rewrite gpress_flat in E. unfold gal_terms in E.
  change (gal_cache c0 s) with c in E. rewrite (can_cterms _ _ _ _ Hc) in E.
  eexists. split; [exact E|]. reflexivity.
Qed.
Lemma first_gpressure (x : nat -> F) (t d : F) : gx_diff (map x (seq 0 22)) (repeat f0 22) = true -> differs t f0 = true ->
  exists s, gexec New [SetX x; Poke PT t; Poke PD d; Pressure]
    = Some (s, [OUnit; OUnit; OUnit; OVal (gpp (@can_terms A gp_new (map x (seq 0 22)) t d) t d)]) /\
    gread PZ s = gpz (@can_terms A gp_new (map x (seq 0 22)) t d).
Proof.
  intros Hx Ht. set (s0 := set_g_d d (set_g_t t (set_g_x (map x (seq 0 22)) gerg_fresh))).
  assert (W : @gwf A gp_new gc_zero s0).
  { apply (@gwf_poke A gp_new PD), (@gwf_poke A gp_new PT), gwf_set_x; [now rewrite map_length, seq_length|exact gwf_fresh]. }
  destruct (@gpress_new_z gp_new gc_zero s0 W Hx Ht) as (s & E & Z).
  exists s. split; [|exact Z]. apply gexec_new. cbn [grun gstep gpoke bind]. fold s0. rewrite E. reflexivity.
Qed.
End New.

Section Final.
Variable m : Libm.
Hypothesis A : accurate m.
Local Notation B := (ArithB64 m).
Variables (x : nat -> b64) (t d : b64).
Local Notation r := (fun i => bR (x i)).
Hypothesis Hx : forall i, (1 <= i < 22)%nat -> fin (x i) /\ (bR (x i) = 0 \/ p2 (-49) <= bR (x i)).
Hypothesis Hs : 99 / 100 <= tot 21 (fun i => bR (x (S i))) <= 101 / 100.
Hypothesis HT : fin t /\ 32 <= bR t <= 2048.
Hypothesis Hd : fin d /\ (bR d = 0 \/ p2 (-20) <= bR d).
Local Notation X := (@xf B (map x (seq 0 22))).
Local Notation Y := (fun i => bR (X i)).
Lemma Xg i : (i < 22)%nat -> X i = x i.
Proof. intros H. unfold xf. rewrite (nth_indep _ _ (x 0%nat)) by (now rewrite map_length, seq_length). rewrite map_nth, seq_nth by exact H. reflexivity. Qed.
Lemma rg_ge0 i : (1 <= i < 22)%nat -> 0 <= r i.
Proof. intros H. destruct (Hx i H) as [_ [E|E]]; [lra|]. eapply Rle_trans; [apply Rlt_le, (bpow_gt_0 radix2)|exact E]. Qed.
Lemma rg_le i : (1 <= i < 22)%nat -> r i <= 101 / 100.
Proof.
  intros H. eapply Rle_trans; [|apply Hs]. assert (forall n, (i <= n <= 21)%nat -> r i <= tot n (fun i => bR (x (S i)))) as G.
  { induction n as [|n IH]; intros Hn; [lia|]. cbn [tot]. destruct (Nat.eq_dec i (S n)) as [->|].
    - assert (0 <= tot n (fun i => bR (x (S i)))); [|lra]. change (0 <= sum n (fun i => bR (x (S i)))). apply sum_ge0. intros. apply rg_ge0. lia.
    - pose proof (IH ltac:(lia)). pose proof (rg_ge0 (S n) ltac:(lia)). lra. }
  apply G. lia.
Qed.
Lemma HXg : forall i, (1 <= i < 22)%nat -> fin (X i) /\ rng (-49) 1 (bR (X i)).
Proof.
  intros i H. rewrite Xg by lia. destruct (Hx i H) as [F [E|E]]; split; trivial; [now left|right]. split; [exact E|].
  change (p2 1) with 2. pose proof (rg_le i H). cbv beta in *. lra.
Qed.
Lemma sumY : sumf 0 21 Y = tot 21 (fun i => bR (x (S i))).
Proof. change (sum 21 (fun i => bR (X (S i))) = sum 21 (fun i => bR (x (S i)))). apply sum_ext. intros i Hi. now rewrite Xg by lia. Qed.
Lemma Hsg : 99 / 100 <= sumf 0 21 Y <= 101 / 100.
Proof. rewrite sumY. exact Hs. Qed.
Lemma big_xg : exists i, (1 <= i < 22)%nat /\ 1 / 100 <= r i.
Proof.
  assert (forall n, (n <= 21)%nat -> INR n * (1 / 100) < tot n (fun i => bR (x (S i))) -> exists i, (1 <= i <= n)%nat /\ 1 / 100 <= r i) as G.
  { induction n as [|n IH]; intros Hn H; [cbn in H; lra|]. cbn [tot] in H. rewrite S_INR in H.
    destruct (Rle_lt_dec (1 / 100) (r (S n))) as [L|L]; [exists (S n); split; [lia|exact L]|].
    destruct IH as (i & Hi & Hp); [lia|lra|]. exists i. split; [lia|exact Hp]. }
  destruct (G 21%nat) as (i & Hi & H); [lia| |exists i; split; [lia|exact H]]. rewrite INR_IZR_INZ. cbn [Z.of_nat Pos.of_succ_nat Pos.succ]. lra.
Qed.
Lemma diff_xg : @gx_diff B (map x (seq 0 22)) (repeat (@f0 B) 22) = true.
Proof.
  destruct big_xg as (i & Hi & H). unfold gx_diff. apply existsb_exists. exists i. split; [apply in_seq; lia|].
  unfold xf at 2. rewrite nth_repeat. rewrite Xg by lia.
  apply (AccProof.differs_0 m); [apply Hx, Hi|]. pose proof (rg_le i Hi). cbv beta in *. lra.
Qed.
Lemma diff_tg : @differs B t (@f0 B) = true.
Proof. apply (AccProof.differs_0 m); [apply HT|]. lra. Qed.

(* the exact side *)
Lemma gX_Y : gX r = Y.
Proof.
  apply functional_extensionality. intros i. unfold gX. destruct (Nat.lt_ge_cases i 22) as [H|H].
  - rewrite gxl_i by exact H. now rewrite Xg.
  - unfold xf, gxl. rewrite !nth_overflow by (rewrite map_length, seq_length; exact H). reflexivity.
Qed.
Lemma ac_r i : (1 <= i < 22)%nat -> ac r i = r i.
Proof.
  intros H. unfold ac. destruct (Rlt_dec _ _) as [L|L]; [reflexivity|]. destruct (Hx i H) as [_ [E|E]]; [now rewrite E|exfalso; apply L].
  eapply Rlt_le_trans; [|exact E]. change (p2 (-49)) with (/ 562949953421312). lra.
Qed.
Lemma somer : exists i, (1 <= i < 22)%nat /\ 1 / 1000000 < r i.
Proof. destruct big_xg as (i & Hi & H). exists i. split; [exact Hi|lra]. Qed.
Lemma gdrY : @gdr ArithR gp_new Y = 1 / vred r.
Proof. rewrite <- gX_Y. pose proof (gdr_eq r somer) as E. rewrite (vred_ext (ac r) r) in E by exact ac_r. exact E. Qed.
Lemma gtrY : @gtr ArithR gp_new Y = tred r.
Proof. rewrite <- gX_Y. pose proof (gtr_eq r) as E. rewrite (tred_ext (ac r) r) in E by exact ac_r. exact E. Qed.
Lemma vr_pos : 0 < vred r.
Proof. pose proof (vred_big r somer) as H. rewrite (vred_ext (ac r) r) in H by exact ac_r. lra. Qed.
Lemma del_eq : bR d / @gdr ArithR gp_new Y = bR d * vred r.
Proof. rewrite gdrY. pose proof vr_pos. field. lra. Qed.
Lemma exact_side : exists a' : R, is_derive (fun delta => alphar r delta (tred r / bR t)) (bR d * vred r) a' /\
  @eq R (@arS ArithR (@gterms ArithR gp_new Y (bR d / @gdr ArithR gp_new Y)%R (ln (@gtr ArithR gp_new Y / bR t)%R) (@tpow ArithR gp_new (ln (@gtr ArithR gp_new Y / bR t)%R)) (@tmow ArithR gp_new (ln (@gtr ArithR gp_new Y / bR t)%R))) 1)
    (bR d * vred r * a').
Proof.
  assert (1 / 10000000 < bR t) as H0 by lra. destruct (gpres_alphar r somer (bR t) H0 (bR d)) as (a' & Ha & _ & Hz).
  assert (Hp : some_present r). { destruct somer as (i & Hi & H). exists i. split; [exact Hi|lra]. }
  exists a'. rewrite (vred_ext (ac r) r), (tred_ext (ac r) r) in * by exact ac_r. split.
  - eapply is_derive_ext; [|exact Ha]. intros e. apply alphar_ext. exact ac_r.
  - rewrite (gprop_ok New r Hp PZ (bR t) (bR d) H0) in Hz. cbn [gvals] in Hz. unfold gT in Hz. rewrite <- gX_Y.
    change (@eq R (1 + @arS ArithR (@can_terms ArithR gp_new (gxl r) (bR t) (bR d)) 1) (1 + bR d * vred r * a')) in Hz.
    apply Rplus_eq_reg_l in Hz. exact Hz.
Qed.
Hypothesis HD : bR d * vred r <= 5 / 2.
Lemma epsG : IZR 775610 * u64 <= 1 / 10000000000.
Proof. rewrite u64_val. lra. Qed.
Lemma inact i : (1 <= i < 22)%nat -> @act ArithR (bR (X i)) = false -> bR (X i) = 0.
Proof.
  intros Hi E. pose proof (nact_ac r i) as N. cbv beta in N. rewrite Xg in * by lia. specialize (N E). rewrite ac_r in N by exact Hi. exact N.
Qed.
Lemma sizeY : gerg_size Y (bR d / @gdr ArithR gp_new Y) (@gtr ArithR gp_new Y / bR t) = gerg_size r (bR d * vred r) (tred r / bR t).
Proof.
  rewrite del_eq, gtrY. unfold gerg_size. apply f_equal2; [apply f_equal2; [reflexivity|]|].
  - change (tot 21) with (sum 21). apply sum_ext. intros i Hi. now rewrite Xg by lia.
  - rewrite departs_rows, !lsum_map. apply lsum_ext. intros p Hp. apply filter_In in Hp. destruct Hp as [Hp _]. unfold allp in Hp.
    apply in_flat_map in Hp. destruct Hp as (j & Hj & Hp). apply in_seq in Hj. apply in_map_iff in Hp. destruct Hp as (i & <- & Hi). apply in_seq in Hi.
    unfold dlit. cbn [fst snd]. now rewrite !Xg by lia.
Qed.
Lemma gpressure_accurate : exists a' s v, is_derive (fun delta => alphar r delta (tred r / bR t)) (bR d * vred r) a' /\
  @gexec B New [SetX (A := B) x; Poke (A := B) PT t; Poke (A := B) PD d; Pressure] = Some (s, [OUnit; OUnit; OUnit; OVal (A := B) v]) /\
  fin v /\ Rabs (bR v - bR d * Rg * bR t * (1 + bR d * vred r * a')) <= 1 / 10000000000 * (bR d * Rg * bR t * gerg_size r (bR d * vred r) (tred r / bR t)) /\
  fin (gread (A := B) PZ s) /\ Rabs (bR (gread (A := B) PZ s) - (1 + bR d * vred r * a')) <= 1 / 10000000000 * gerg_size r (bR d * vred r) (tred r / bR t).
Proof.
  destruct exact_side as (a' & Ha & Hz). destruct (@first_gpressure B x t d diff_xg diff_tg) as (s & E & Z).
  assert (HD' : bR d / @gdr ArithR gp_new Y <= 5 / 2) by (rewrite del_eq; exact HD).
  pose proof (appG m A X HXg Hsg t t d HT HT Hd HD') as Q1. pose proof (apzG m A X HXg Hsg t t d HT HT Hd HD') as Q2.
  rewrite (size_eq X t d inact), sizeY in Q1, Q2.
  rewrite Hz in Q1, Q2.
  exists a'. do 2 eexists. split; [exact Ha|]. split; [exact E|]. rewrite Z. destruct Q1 as (F1 & E1 & _ & R1). destruct Q2 as (F2 & E2 & _ & R2).
  pose proof epsG as EP. pose proof (rng_ge0 _ _ _ R1) as G1. pose proof (rng_ge0 _ _ _ R2) as G2.
  split; [exact F1|]. split; [|split; [exact F2|]].
  - eapply Rle_trans; [exact E1|]. apply Rmult_le_compat_r; [exact G1|exact EP].
  - eapply Rle_trans; [exact E2|]. apply Rmult_le_compat_r; [exact G2|]. eapply Rle_trans; [|exact EP].
    apply Rmult_le_compat_r; [apply Rlt_le, u_pos|]. apply IZR_le. lia.
Qed.
(* powers of tau for t, evaluation at T2 *)
Lemma gpp_held T2 : fin T2 /\ 32 <= bR T2 <= 2048 -> exists a', is_derive (fun delta => alphar r delta (tred r / bR t)) (bR d * vred r) a' /\
  let v := @gpp B (@can_terms B gp_new (map x (seq 0 22)) t d) T2 d in
  fin v /\ Rabs (bR v - bR d * Rg * bR T2 * (1 + bR d * vred r * a')) <= 1 / 10000000000 * (bR d * Rg * bR T2 * gerg_size r (bR d * vred r) (tred r / bR t)).
Proof.
  intros H2. destruct exact_side as (a' & Ha & Hz). exists a'. split; [exact Ha|].
  assert (HD' : bR d / @gdr ArithR gp_new Y <= 5 / 2) by (rewrite del_eq; exact HD).
  pose proof (apzG m A X HXg Hsg t t d HT HT Hd HD') as Q2. rewrite (size_eq X t d inact), sizeY, Hz in Q2.
  assert (ap 775610 (-20) 500 (@gpp B (@can_terms B gp_new (map x (seq 0 22)) t d) T2 d) (bR d * Rg * bR T2 * (1 + bR d * vred r * a')) (bR d * Rg * bR T2 * gerg_size r (bR d * vred r) (tred r / bR t))) as Q1.
  { unfold gpp. cbn [fmul ArithB64].
    eapply ap_weak; [eapply ap_mul; [eapply ap_mul; [eapply ap_mul; [exact (ad_ m A X HXg Hsg d Hd HD')|exact (aRG m)|zc|zc|zc|zc]|exact (aTT T2 H2)|zc|zc|zc|zc]|exact Q2|zc|zc|zc|zc]|zc|zc|zc]. }
  destruct Q1 as (F1 & E1 & _ & R1). cbv zeta. split; [exact F1|]. eapply Rle_trans; [exact E1|]. apply Rmult_le_compat_r; [exact (rng_ge0 _ _ _ R1)|exact epsG].
Qed.
End Final.

(* reducing volumes of nearly equal constants *)
Lemma coef_ge0 b u v : 0 <= b -> 0 <= u -> 0 <= v -> 0 <= 2 * u * v * (u + v) / (b ^ 2 * u + v).
Proof.
  intros Hb Hu Hv. destruct (Req_dec v 0) as [->|Hv']; [right; unfold Rdiv; ring|].
  apply Rmult_le_pos; [apply Rmult_le_pos; [apply Rmult_le_pos|]; lra|]. apply Rlt_le, Rinv_0_lt_compat.
  assert (0 <= b ^ 2 * u) by (apply Rmult_le_pos; [apply pow_le|]; assumption). lra.
Qed.
Lemma red_nneg i j : 0 <= red 0 i j.
Proof.
  assert (G : forallb (fun r => lnneg (nth 0 (snd r) (L 0 0))) REDUCING = true) by (vm_compute; reflexivity).
  unfold red. destruct (find _ _) as [r|] eqn:E; [|lra]. apply find_some in E. apply lnneg_ok. exact (proj1 (forallb_forall _ _) G r (proj1 E)).
Qed.
Lemma vol_near (x : nat -> R) gv gw e : (forall i, (1 <= i < 22)%nat -> 0 <= x i) ->
  (forall i j, (1 <= i <= j)%nat -> (j < 22)%nat -> gv i j <= e * gw i j) -> red_volume x gv <= e * red_volume x gw.
Proof.
  intros Hx H. unfold red_volume, pair_sum. rewrite Rmult_plus_distr_l. apply Rplus_le_compat.
  - change (sum 21 (fun m => x (S m) ^ 2 * gv (S m) (S m)) <= e * sum 21 (fun m => x (S m) ^ 2 * gw (S m) (S m))).
    rewrite <- sum_scal. apply AccMix2.sum_le. intros i Hi. pose proof (pow2_ge_0 (x (S i))) as P. pose proof (H (S i) (S i) ltac:(lia) ltac:(lia)) as G.
    apply Rmult_le_compat_l with (r := x (S i) ^ 2) in G; [|exact P]. lra.
  - change (sum 21 (fun j => sum j (fun i => 2 * x (S i) * x (S j) * gv (S i) (S j) * (x (S i) + x (S j)) / (red 0 (S i) (S j) ^ 2 * x (S i) + x (S j))))
      <= e * sum 21 (fun j => sum j (fun i => 2 * x (S i) * x (S j) * gw (S i) (S j) * (x (S i) + x (S j)) / (red 0 (S i) (S j) ^ 2 * x (S i) + x (S j))))).
    rewrite <- sum_scal. apply AccMix2.sum_le. intros j Hj. rewrite <- sum_scal. apply AccMix2.sum_le. intros i Hi.
    pose proof (coef_ge0 (red 0 (S i) (S j)) (x (S i)) (x (S j)) (red_nneg _ _) (Hx (S i) ltac:(lia)) (Hx (S j) ltac:(lia))) as P.
    pose proof (H (S i) (S j) ltac:(lia) ltac:(lia)) as G. apply Rmult_le_compat_l with (2 := G) in P. unfold Rdiv in *. lra.
Qed.
Lemma vred_le (x : nat -> R) : (forall i, (1 <= i < 22)%nat -> 0 <= x i) -> vred x <= (1 + 1 / 100000000000000) * red_volume x v_red.
Proof.
  intros H. rewrite <- vred_std. apply vol_near; [exact H|]. intros i j Hi Hj. pose proof (v_std i j Hi Hj) as N. unfold near in N. apply Rabs_le_inv in N. lra.
Qed.
Lemma gerg_accurate : exists gv gt bt : nat -> nat -> R,
  (forall i j, (1 <= i <= j)%nat -> (j < 22)%nat ->
    near (gv i j) (v_red i j) /\ near (gt i j) (t_red i j) /\ near (bt i j) (b_red i j)) /\
  forall m, accurate m -> forall (x : nat -> b64) (t d : b64), let r i := bR (x i) in
  (forall i, (1 <= i < 22)%nat -> fin (x i) /\ (r i = 0 \/ bpow radix2 (-49) <= r i)) ->
  99 / 100 <= tot 21 (fun i => r (S i)) <= 101 / 100 -> fin t /\ 32 <= bR t <= 2048 ->
  fin d /\ (bR d = 0 \/ bpow radix2 (-20) <= bR d) -> bR d * red_volume r v_red <= 249 / 100 ->
  let delta := bR d * red_volume r gv in let tau := red_temp r gt bt / bR t in
  exists a' s v, is_derive (fun delta => residual r delta tau) delta a' /\
    @gexec (ArithB64 m) New [SetX (A := ArithB64 m) x; Poke (A := ArithB64 m) PT t; Poke (A := ArithB64 m) PD d; Pressure]
      = Some (s, [OUnit; OUnit; OUnit; OVal (A := ArithB64 m) v]) /\
    fin v /\ Rabs (bR v - bR d * Rg * bR t * (1 + delta * a')) <= 1 / 10000000000 * (bR d * Rg * bR t * gerg_size r delta tau) /\
    fin (gread (A := ArithB64 m) PZ s) /\
    Rabs (bR (gread (A := ArithB64 m) PZ s) - (1 + delta * a')) <= 1 / 10000000000 * gerg_size r delta tau.
Proof.
  exists (tb2 G_GVIJ), (tb2 G_GTIJ), (tb2 G_BTIJ). split.
  - intros i j Hi Hj. split; [now apply v_std|]. split; [now apply t_std|now apply b_std].
  - intros m A x t d r Hx Hs HT Hd HD. cbv zeta. rewrite vred_std, tred_std.
    assert (bR d * vred r <= 5 / 2) as HD'.
    { assert (0 <= bR d) as D0. { destruct Hd as [_ [E|E]]; [lra|]. eapply Rle_trans; [apply Rlt_le, bpow_gt_0|exact E]. }
      pose proof (vred_le r (rg_ge0 x Hx)) as G. apply Rmult_le_compat_l with (1 := D0) in G. lra. }
    destruct (gpressure_accurate m A x t d Hx Hs HT Hd HD') as (a' & s & v & Ha & H). exists a', s, v. split; [|exact H].
    eapply is_derive_ext; [|exact Ha]. intros e. symmetry. apply residual_std.
Qed.
