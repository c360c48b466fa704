(* Composition drift of a GERG-2008 object, over the reals. *)
From Coq Require Import Reals ZArith List Bool Lra Lia.
From Coquelicot Require Import Coquelicot.
From Verif Require Import FArith Prelude Tab Composition DetailModel DetailPure GergTables GergModel GergPure
  GergRefine GergEval Api ApiSafe SpecGeneric SpecHistory BasicProofs GenericLemmas HistoryGerg ArithR RSum SpecReal
  CompReal DetailReal DetailThermo GergReal GergIdeal GergThermo SpecDetail SpecGerg DetailEos GergEos GergLimit
  NewtonReal Drift DriftReal DriftGerg Stale StaleMix.
Import ListNotations.
Local Open Scope R_scope.
Local Existing Instance ArithR.
Local Existing Instance gp_new.

Lemma gx_diff_false (x y : list R) : (forall i, (1 <= i < 22)%nat -> Rabs (nth i x 0 - nth i y 0) <= 1 / 10000000) ->
  @gx_diff ArithR x y = false.
Proof.
  intros H. apply not_true_iff_false. intros K. unfold gx_diff in K. apply existsb_exists in K. destruct K as (i & Hi & K).
  apply in_seq in Hi. assert (D : @differs ArithR (nth i x 0) (nth i y 0) = false) by (apply differs_R, H; lia).
  change (differs (nth i x 0) (nth i y 0) = true) in K. rewrite D in K. discriminate K.
Qed.

Section Blend.
Variables (a b : @Composition ArithR) (t d : R).
Let xa : list (@F ArithR) := @f0 ArithR :: fractions a.
Let xb : list (@F ArithR) := @f0 ArithR :: fractions b.
Hypothesis Ha : comp_check a = ROk.
Hypothesis Hb : comp_check b = ROk.
Hypothesis Hx : exists i, (1 <= i < 22)%nat /\ 1 / 10000000 < nth i xa 0.
Hypothesis Ht : 1 / 10000000 < t.
Definition kfirst : @gcache ArithR := gc_next (P := gp_new) xa (repeat (@f0 ArithR) 22) (t : @F ArithR) gc_zero.
Lemma gfirst : exists s r, gexec New (base_ops a t d) = Some (s, r) /\
  gheld (P := gp_new) kfirst xa (t : @F ArithR) (d : @F ArithR) s.
Proof.
  enough (G : exists s r, grun (base_ops a t d) gerg_fresh = Some (s, r) /\
    gheld (P := gp_new) kfirst xa (t : @F ArithR) (d : @F ArithR) s).
  { destruct G as (s & r & G & Hh). exists s, r. split; [now apply gexec_new|exact Hh]. }
  unfold base_ops. cbn [grun gstep gpoke]. rewrite gset_comp by exact (gw_x _ _ gwf_fresh). rewrite Ha. cbn [bind].
  set (s0 := set_g_t (t : @F ArithR) (set_g_d (d : @F ArithR) (set_g_x (@f0 ArithR :: fractions a) gerg_fresh))).
  assert (Ex : g_x s0 = xa). { reflexivity. }
  assert (Eo : g_xold s0 = repeat (@f0 ArithR) 22). { reflexivity. }
  assert (W : gwf (P := gp_new) gc_zero s0).
  { apply (@gwf_poke ArithR gp_new PT), (@gwf_poke ArithR gp_new PD), gwf_set_x; [reflexivity|exact gwf_fresh]. }
  destruct (gpress_new (P := gp_new) gc_zero s0 W) as (s1 & k & E1 & _ & Hh & Hk).
  - rewrite Ex, Eo. destruct Hx as (i & Hi & Hxi). exact (gx_diff_0 xa i Hi Hxi).
  - exact (differs_0 t Ht).
  - rewrite E1. cbn [bind]. rewrite Ex, Eo in Hk. rewrite Ex, Hk in Hh. do 2 eexists. split; [reflexivity|]. exact Hh.
Qed.
Lemma gblend_end : exists n s r, gexec New (blending a b t d n) = Some (s, r) /\
  (forall i j, (j < 21)%nat -> Rabs (nth j (fractions (blend a b n (S i))) 0 - nth j (fractions (blend a b n i)) 0) <= 1 / 10000000) /\
  gheld (P := gp_new) kfirst xb (t : @F ArithR) (d : @F ArithR) s.
Proof.
  destruct (blend_exists a b) as (n & N & B0 & B1 & W & S). rewrite mix_0 in B0. rewrite mix_1 in B1.
  destruct gfirst as (s & r & E & Hh).
  destruct (@g_ramp_x ArithR gp_new (blend a b n) kfirst t d s) with (n := n) as (s' & r' & E' & Hh').
  - rewrite B0. exact Hh.
  - apply differs_same.
  - apply differs_same.
  - intros i. apply mix_check; [apply W|exact Ha|exact Hb].
  - intros i Hi. apply gx_diff_false. intros j Hj. destruct j as [|j]; [lia|]. apply S. lia.
  - exists n. do 2 eexists. split; [exact (gexec_app _ _ _ _ _ _ _ E E')|]. split; [exact S|]. rewrite B1 in Hh'. exact Hh'.
Qed.

(* b holds a single component, which a does not hold: the powers of tau of that component were never
   computed, so every residual term is zero and the object returns the ideal-gas pressure *)
Section One.
Variable j : nat.
Hypothesis Hj : (1 <= j < 22)%nat.
Hypothesis Hja : nth j xa 0 <= 1 / 1000000000000000.
Hypothesis Hbo : forall i, (1 <= i < 22)%nat -> i <> j -> nth i xb 0 <= 1 / 1000000000000000.
Lemma act_le (v : R) : v <= 1 / 1000000000000000 -> @act ArithR v = false.
Proof.
  intros H. apply not_true_iff_false. intros K. unfold act in K. apply Rltb_true in K. rewrite glit15 in K. lra.
Qed.
Lemma kfirst_row k : gc_tp kfirst j k = 0.
Proof.
  assert (R : gc_red (P := gp_new) xa (repeat (@f0 ArithR) 22) gc_zero
    = mkGC (gdr (xf xa)) (gtr (xf xa)) f0 f0 (fun _ _ => f0) (fun _ _ => f0)).
  { unfold gc_red. destruct Hx as (i & Hi & Hxi). now rewrite (gx_diff_0 xa i Hi Hxi). }
  unfold kfirst, gc_next. rewrite R. unfold gc_tau. destruct (gc_fresh _ _); cbn [gc_tp]; [|reflexivity].
  unfold ntaup. change (xf xa j) with (nth j xa 0). rewrite act_le by exact Hja. rewrite andb_false_r. reflexivity.
Qed.
Lemma arS_0 (l : list (nat -> @F ArithR)) e : (forall c, In c l -> c e = 0) -> arS l e = 0.
Proof.
  intros H. unfold arS. change (@f0 ArithR) with (0 : R). induction l as [|c l IH]; [reflexivity|].
  cbn [fold_left]. rewrite (H c) by (now left). rar. rewrite Rplus_0_l. apply IH. intros c' Hc'. apply H. now right.
Qed.
Lemma zero_terms : arS (@cterms ArithR gp_new xb (t : @F ArithR) (d : @F ArithR) kfirst) 1 = 0.
Proof.
  apply arS_0. unfold cterms, gterms. intros c Hc. apply in_app_iff in Hc. destruct Hc as [Hc|Hc].
  - apply in_flat_map in Hc. destruct Hc as (i & Hi & Hc). apply in_seq in Hi. unfold pure_terms in Hc.
    destruct (Nat.eq_dec i j) as [->|Hn].
    + destruct (act _); [|destruct Hc]. apply in_app_iff in Hc. destruct Hc as [Hc|Hc]; apply in_map_iff in Hc;
      destruct Hc as (k & <- & _); [unfold pterm, pol_c|unfold eterm, exp_c]; rewrite kfirst_row; rar; ring.
    + change (xf xb i) with (nth i xb 0) in Hc. rewrite act_le in Hc by (apply Hbo; [lia|exact Hn]). destruct Hc.
  - apply in_flat_map in Hc. destruct Hc as (i & Hi & Hc). apply in_seq in Hi. unfold mixrow in Hc.
    change (xf xb i) with (nth i xb 0) in Hc.
    destruct (Nat.eq_dec i j) as [->|Hn]; [|rewrite act_le in Hc by (apply Hbo; [lia|exact Hn]); destruct Hc].
    destruct (act _); [|destruct Hc]. apply in_flat_map in Hc. destruct Hc as (i & Hi' & Hc). apply in_seq in Hi'.
    unfold mix_terms in Hc. change (xf xb i) with (nth i xb 0) in Hc.
    rewrite act_le in Hc by (apply Hbo; lia). destruct Hc.
Qed.
Lemma gblend_ideal : exists n s r, gexec New (blending a b t d n) = Some (s, r) /\
  (forall i j, (j < 21)%nat -> Rabs (nth j (fractions (blend a b n (S i))) 0 - nth j (fractions (blend a b n i)) 0) <= 1 / 10000000) /\
  g_x s = xb /\ g_t s = t /\ g_d s = d /\
  exists s', gstep Pressure s = Some (s', OVal (A := ArithR) (d * Rg * t)).
Proof.
  destruct gblend_end as (n & s & r & E & S & [W X T D XO]). exists n, s, r. split; [exact E|]. split; [exact S|].
  split; [exact X|]. split; [exact T|]. split; [exact D|].
  destruct (gpress_held (P := gp_new) kfirst xb (t : @F ArithR) s W XO) as (s' & E' & _).
  - rewrite X. apply gx_diff_same_R.
  - rewrite T. apply differs_same.
  - apply differs_same.
  - exists s'. cbn [gstep]. rewrite E'. cbn [bind]. rewrite X, T, D. unfold gpp, gpz. rewrite zero_terms.
    apply (f_equal (fun v : R => Some (s', OVal (A := ArithR) v))). replace (@RGERG ArithR) with Rg by reflexivity. unfold f1. rar. cbn [Rlit]. ring.
Qed.
End One.
End Blend.

(* reducing temperatures of nitrogen-like mixtures *)
Definition GT_le : bool := forallb (forallb (lle 2000)) G_GTIJ.
Definition lge14 (l : lit) : bool :=
  let '(L m e) := l in match e with Z0 => (1 <=? m)%Z | Zpos p => (1 <=? m)%Z | Zneg p => (10 ^ Zpos p <=? 4 * m)%Z end.
Lemma lge14_ok l : lge14 l = true -> 1 / 4 <= Rlit l.
Proof.
  destruct l as [m e]. unfold lge14, Rlit. destruct e as [|p|p]; intros H; apply Z.leb_le in H.
  - apply IZR_le in H. lra.
  - assert (1 <= m * 10 ^ Z.pos p)%Z by (assert (0 < 10 ^ Z.pos p)%Z by lia; nia). apply IZR_le in H0. lra.
  - apply IZR_le in H. rewrite mult_IZR in H. assert (0 < IZR (10 ^ Z.pos p)) by (apply (IZR_lt 0); lia).
    apply (Rmult_le_reg_r (IZR (10 ^ Z.pos p))); [assumption|]. unfold Rdiv at 2. rewrite Rmult_assoc, Rinv_l by lra. lra.
Qed.
Definition BT_ge : bool := forallb (fun i => forallb (fun j => lge14 (nth j (nth i G_BTIJ []) (L 0 0))) (seq (i + 1) (21 - i))) (seq 1 21).
Lemma GT_small i j : tb2 G_GTIJ i j <= 2000.
Proof.
  assert (H : GT_le = true) by (vm_compute; reflexivity). unfold GT_le in H. rewrite forallb_forall in H.
  unfold tb2. apply (lle_ok 2000). destruct (nth_in_or_default i G_GTIJ []) as [I|E].
  - specialize (H _ I). rewrite forallb_forall in H. destruct (nth_in_or_default j (nth i G_GTIJ []) (L 0 0)) as [I'|E'].
    + now apply H.
    + rewrite E'. reflexivity.
  - rewrite E. now destruct j.
Qed.
Lemma BT_big i j : (1 <= i < j)%nat -> (j < 22)%nat -> 1 / 4 <= tb2 G_BTIJ i j.
Proof.
  intros Hi Hj. assert (H : BT_ge = true) by (vm_compute; reflexivity). unfold BT_ge in H. rewrite forallb_forall in H.
  specialize (H i ltac:(apply in_seq; lia)). rewrite forallb_forall in H. apply lge14_ok, H, in_seq. lia.
Qed.
Definition GT_pos : bool := forallb (forallb lnneg) G_GTIJ.
Lemma GT_nneg i j : 0 <= tb2 G_GTIJ i j.
Proof.
  assert (H : GT_pos = true) by (vm_compute; reflexivity). unfold GT_pos in H. rewrite forallb_forall in H.
  unfold tb2. apply lnneg_ok. destruct (nth_in_or_default i G_GTIJ []) as [I|E].
  - specialize (H _ I). rewrite forallb_forall in H. destruct (nth_in_or_default j (nth i G_GTIJ []) (L 0 0)) as [I'|E'].
    + now apply H.
    + rewrite E'. reflexivity.
  - rewrite E. now destruct j.
Qed.
Lemma pair_bound x y g w : 0 <= x -> 0 <= y -> 0 <= g <= 2000 -> 1 / 4 <= w ->
  2 * x * y * g * (x + y) / (w * x + y) <= 16000 * (x * y).
Proof.
  intros Hx Hy Hg Hw. destruct (Req_dec (x + y) 0) as [Z|N].
  - assert (x = 0) by lra. subst x. unfold Rdiv. rewrite !Rmult_0_r, !Rmult_0_l, Rmult_0_r. lra.
  - assert (D : 0 < 1 / 4 * x + y) by lra.
    assert (D' : 1 / 4 * x + y <= w * x + y) by (pose proof (Rmult_le_compat_r x _ _ Hx Hw); lra).
    assert (Q : (x + y) / (w * x + y) <= 4).
    { apply (Rmult_le_reg_r (w * x + y)); [lra|]. unfold Rdiv. rewrite Rmult_assoc, Rinv_l by lra. lra. }
    assert (Q0 : 0 <= (x + y) / (w * x + y)) by (apply Rmult_le_pos; [lra|left; apply Rinv_0_lt_compat; lra]).
    replace (2 * x * y * g * (x + y) / (w * x + y)) with (x * y * (2 * (g * ((x + y) / (w * x + y))))) by (field; lra).
    rewrite (Rmult_comm 16000). apply Rmult_le_compat_l; [now apply Rmult_le_pos|].
    pose proof (Rmult_le_compat g 2000 _ 4 (proj1 Hg) Q0 (proj2 Hg) Q). lra.
Qed.
(* fractions at most 1e-7 except component 2, nitrogen *)
Lemma tred_near x : (forall i, (1 <= i < 22)%nat -> 0 <= x i <= un (i - 1)) -> tred x <= 127.
Proof.
  intros Hx. unfold tred.
  set (c := fun i => if Nat.eqb i 1 then 126192 / 1000 else 2000).
  assert (S1 : sumf 0 21 (fun i => x i ^ 2 * tb2 G_GTIJ i i) <= sum 21 (fun i => un i ^ 2 * c i)).
  { apply sum_le. intros i Hi. pose proof (Hx (0 + S i)%nat ltac:(lia)) as X.
    replace (0 + S i - 1)%nat with i in X by lia. apply Rmult_le_compat.
    - apply pow_le. lra.
    - apply GT_nneg.
    - apply pow_incr. lra.
    - unfold c. destruct (Nat.eqb i 1) eqn:E; [|apply GT_small]. apply Nat.eqb_eq in E. subst i.
      unfold tb2. cbn. lra. }
  assert (S2 : pairs1 21 (fun i j => 2 * x i * x j * tb2 G_GTIJ i j * (x i + x j) / (tb2 G_BTIJ i j * x i + x j))
    <= pairs 21 (fun i j => 16000 * (un i * un j))).
  { apply pairs_le. intros i j Hij. pose proof (Hx (S i) ltac:(lia)) as Xi. pose proof (Hx (S j) ltac:(lia)) as Xj.
    replace (S i - 1)%nat with i in Xi by lia. replace (S j - 1)%nat with j in Xj by lia.
    eapply Rle_trans; [apply pair_bound; [lra|lra|split; [apply GT_nneg|apply GT_small]|apply BT_big; lia]|].
    apply Rmult_le_compat_l; [lra|]. apply Rmult_le_compat; lra. }
  rewrite pairs_scal in S2. pose proof (sum_sq 21 un) as Q.
  assert (U1 : sum 21 un = 10000021 / 10000000) by (unfold un; cbn [sum Nat.eqb]; lra).
  assert (U2 : sum 21 (fun i => un i ^ 2) = 100000020000021 / 100000000000000) by (unfold un; cbn [sum Nat.eqb]; lra).
  assert (U3 : sum 21 (fun i => un i ^ 2 * c i) = (10000001 / 10000000) ^ 2 * (126192 / 1000) + 40000 / 100000000000000)
    by (unfold un, c; cbn [sum Nat.eqb]; lra).
  rewrite U1, U2 in Q. lra.
Qed.

Lemma gtr_list (v : list (@F ArithR)) : @gtr ArithR gp_new (xf v) = tred (ac (fun i => nth i v 0)).
Proof. exact (f_equal snd (gred_eq (fun i => nth i v 0))). Qed.
Lemma tr_after s s1 o : @gwf ArithR gp_new gc_zero s -> g_xold s = repeat (@f0 ArithR) 22 ->
  (exists i, (1 <= i < 22)%nat /\ 1 / 10000000 < nth i (g_x s) 0) -> gstep Pressure s = Some (s1, o) ->
  g_trold s1 = tred (ac (fun i => nth i (g_x s) 0)).
Proof.
  intros W O Hy E. cbn [gstep] in E. rewrite (gpressure_ok _ s W) in E. cbn [bind] in E. injection E as <- _.
  refine (eq_trans (gw_tr _ _ (gwf_press _ s W)) _).
  destruct Hy as (i & Hi & Hy). unfold gal_cache, gc_next, gc_red. rewrite O, (gx_diff_0 (g_x s) i Hi Hy).
  unfold gc_tau. destruct (gc_fresh _ _); cbn [gc_tr]; apply gtr_list.
Qed.
Lemma gtwo_steps {A : Arith} l1 l2 (s s1 : Gerg) r : grun [l1; l2] s = Some (s1, r) ->
  exists s0 o o', gstep l1 s = Some (s0, o) /\ gstep l2 s0 = Some (s1, o').
Proof.
  cbn [grun]. destruct (gstep l1 s) as [[s0 o]|]; [|discriminate]. cbn [bind].
  destruct (gstep l2 s0) as [[s2 o']|] eqn:E; [|discriminate]. cbn [bind]. intros H. injection H as <- _.
  exists s0, o, o'. now split.
Qed.
Lemma gsetx_step {A : Arith} y (s s1 : Gerg) o : gstep (SetX y) s = Some (s1, o) -> s1 = set_g_x (map y (seq 0 22)) s.
Proof. cbn [gstep]. intros H. now injection H as <- _. Qed.
Lemma gsetx_x {A : Arith} v (s : Gerg) : g_x (set_g_x v s) = v. Proof. reflexivity. Qed.
Lemma gsetx_xold {A : Arith} v (s : Gerg) : g_xold (set_g_x v s) = g_xold s. Proof. reflexivity. Qed.
Lemma gfresh_xold : @g_xold ArithR gerg_fresh = repeat (@f0 ArithR) 22. Proof. reflexivity. Qed.
Lemma fresh_tr (y : nat -> R) s1 r1 : gexec New [SetX (A := ArithR) y; Pressure] = Some (s1, r1) ->
  (exists i, (1 <= i < 22)%nat /\ 1 / 10000000 < y i) -> g_trold s1 = tred (ac y).
Proof.
  intros E Hy. apply gexec_new_inv in E. destruct (gtwo_steps _ _ _ _ _ E) as (s & o & o' & E1 & E2). clear E.
  set (v := (map y (seq 0 22) : list (@F ArithR))). assert (L : length v = 22%nat) by reflexivity.
  assert (N : forall i, (i < 22)%nat -> nth i v 0 = y i).
  { intros i Hi. do 22 (destruct i as [|i]; [reflexivity|]). lia. }
  pose proof (gwf_set_x v gc_zero gerg_fresh L (@gwf_fresh ArithR)) as W.
  apply gsetx_step in E1. change (map y (seq 0 22)) with v in E1. rewrite <- E1 in W.
  assert (X : g_x s = v) by (rewrite E1; apply gsetx_x).
  assert (O : g_xold s = repeat (@f0 ArithR) 22) by (rewrite E1, gsetx_xold; exact gfresh_xold).
  destruct Hy as (i & Hi & Hy). rewrite (tr_after s s1 o' W O); [|rewrite X; exists i; rewrite N by lia; now split|exact E2].
  apply tred_ext. intros j Hj. unfold ac. now rewrite X, N by lia.
Qed.
Lemma cn_gnth i : (1 <= i < 22)%nat -> nth i (@f0 ArithR :: fractions cnitrogen) 0 = if Nat.eqb (i - 1) 1 then 1 else 0.
Proof. intros Hi. destruct i as [|i]; [lia|]. cbn [nth]. rewrite Nat.sub_succ, Nat.sub_0_r. apply cn_nth. lia. Qed.
Lemma g_bound_witness : exists n s r s' o, gexec New (blending cmethane cnitrogen 300 1 n) = Some (s, r) /\
  (forall i j, (j < 21)%nat -> Rabs (nth j (fractions (blend cmethane cnitrogen n (S i))) 0
    - nth j (fractions (blend cmethane cnitrogen n i)) 0) <= 1 / 10000000) /\
  gstep Pressure s = Some (s', o) /\ g_x s' = 0 :: fractions cnitrogen /\
  forall (y : nat -> R) s1 r1, (forall i, (1 <= i < 22)%nat -> Rabs (y i - nth i (0 :: fractions cnitrogen) 0) <= 1 / 10000000) ->
    gexec New [SetX (A := ArithR) y; Pressure] = Some (s1, r1) -> g_trold s1 < g_trold s'.
Proof.
  assert (Hm : exists i, (1 <= i < 22)%nat /\ 1 / 10000000 < nth i (@f0 ArithR :: fractions cmethane) 0)
    by (exists 1%nat; split; [lia|]; cbn; lra).
  destruct (gblend_end cmethane cnitrogen 300 1 cm_check cn_check Hm ltac:(lra)) as (n & s & r & E & St & [W X T D XO]).
  destruct (gpress_held (P := gp_new) (kfirst cmethane 300) (@f0 ArithR :: fractions cnitrogen) (300 : @F ArithR) s W XO)
    as (s' & E' & [W' X' _ _ _]).
  - rewrite X. apply gx_diff_same_R.
  - rewrite T. apply differs_same.
  - apply differs_same.
  - exists n, s, r, s'. eexists. split; [exact E|]. split; [exact St|].
    split; [cbn [gstep]; rewrite E'; reflexivity|]. split; [rewrite X', X; reflexivity|]. intros y s1 r1 Hy E1.
    assert (Y1 : 1 / 10000000 < y 2%nat).
    { specialize (Hy 2%nat ltac:(lia)). cbn in Hy. apply Rabs_le_between in Hy. lra. }
    rewrite (fresh_tr y s1 r1 E1) by (exists 2%nat; split; [lia|exact Y1]).
    assert (TR : g_trold s' = TC).
    { rewrite (gw_tr _ _ W'). destruct Hm as (i & Hi & Hmi). unfold at_t, kfirst, gc_next, gc_red. rewrite (gx_diff_0 _ i Hi Hmi).
      cbn [gc_tr]. unfold gc_tau. rewrite <- tred_xg. destruct (gc_fresh _ _); cbn [gc_tr]; apply gtr_list. }
    rewrite TR. apply Rle_lt_trans with 127; [|unfold TC; lra]. apply tred_near. intros i Hi.
    specialize (Hy i Hi). change (0 :: fractions cnitrogen) with (@f0 ArithR :: fractions cnitrogen) in Hy.
    rewrite cn_gnth in Hy by exact Hi. apply Rabs_le_between in Hy.
    unfold ac, un. destruct (Rlt_dec _ _); destruct (Nat.eqb (i - 1) 1); lra.
Qed.
Lemma g_bound_false : ~ (forall l (s s' : @Gerg ArithR) r o, gexec New l = Some (s, r) ->
  gstep Pressure s = Some (s', o) ->
  exists (y : nat -> R) s1 r1, (forall i, (1 <= i < 22)%nat -> Rabs (y i - nth i (g_x s') 0) <= 1 / 10000000) /\
    gexec New [SetX (A := ArithR) y; Pressure] = Some (s1, r1) /\ g_trold s' = g_trold s1).
Proof.
  intros H. destruct g_bound_witness as (n & s & r & s' & o & E & _ & E' & X & K).
  destruct (H _ _ _ _ _ E E') as (y & s1 & r1 & Hy & E1 & Q). rewrite X in Hy. specialize (K y s1 r1 Hy E1).
  rewrite Q in K. exact (Rlt_irrefl _ K).
Qed.
