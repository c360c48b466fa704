(* C19 in double precision: the witness.  Methane at 10 mol/l, warmed from 256 K to 512 K in steps of 2^-24 K. *)
From Coq Require Import Reals ZArith List Bool Lra Lia Psatz FunctionalExtensionality.
From Coquelicot Require Import Coquelicot.
From Flocq Require Import Core BinarySingleNaN.
From Interval Require Import Tactic.
From Verif Require Import FArith Prelude ArithB64 B64Lemmas ArithR RSum SpecGerg StdGerg SpecStd SpecAcc SpecAccG SpecGeneric SpecHistory GergTables GergModel Api SpecReal GergEos StdGergProof Drift B64Err DriftDouble ConvDetail ConvCase ConvGerg ConvCaseG GAccProof GDriftDouble.
From Verif Require DriftWit.
Import ListNotations.
Local Open Scope R_scope.

(* derivative of the residual energy of methane *)
Definition pure_slope (delta tau : R) (r : lit * nat * lit * nat) : R := let '(n, d, t, c) := r in Rlit n * Rpower tau (Rlit t) * hb d c delta.
Lemma pow_d d c v : 0 < v -> is_derive (fun v => v ^ d * ek c v) v (hb d c v / v).
Proof.
  intros Hv. evar_last; [apply (@is_derive_mult R_AbsRing); [apply ConvDetail.is_pow|apply is_ek|intros; apply Rmult_comm]|].
  unfold plus, mult; cbn -[INR pow]. unfold hb. apply (Rmult_eq_reg_l v); [|lra].
  replace (v * ((INR d - INR c * v ^ c) * v ^ d * ek c v / v)) with ((INR d - INR c * v ^ c) * v ^ d * ek c v) by (field; lra).
  transitivity (v * (INR d * v ^ Nat.pred d) * ek c v - v ^ d * (v * (INR c * v ^ Nat.pred c)) * ek c v); [ring|]. rewrite !ConvDetail.pow_step. ring.
Qed.
Lemma pure_d tau r v : 0 < v -> is_derive (fun v => pure_term v tau r) v (pure_slope v tau r / v).
Proof.
  destruct r as [[[n d] t] c]. intros Hv. cbn [pure_term pure_slope].
  apply (is_derive_ext (fun v => Rlit n * Rpower tau (Rlit t) * (v ^ d * ek c v))).
  - intros w. unfold ek. destruct c; match goal with |- ?a = ?b => change (@eq R a b) end; ring.
  - replace (Rlit n * Rpower tau (Rlit t) * hb d c v / v) with (Rlit n * Rpower tau (Rlit t) * (hb d c v / v)) by (field; lra).
    apply is_derive_scal. now apply pow_d.
Qed.
Lemma lsum_d {T} (f g : R -> T -> R) l v : 0 < v -> (forall r, is_derive (fun v => f v r) v (g v r / v)) -> is_derive (fun v => lsum (f v) l) v (lsum (g v) l / v).
Proof.
  intros Hv H. induction l as [|r l IH].
  - unfold lsum. cbn [fold_right]. unfold Rdiv. rewrite Rmult_0_l. apply (@is_derive_const R_AbsRing R_NormedModule).
  - unfold lsum in *. cbn [fold_right]. replace ((g v r + fold_right (fun r s => g v r + s) 0 l) / v) with (g v r / v + fold_right (fun r s => g v r + s) 0 l / v) by (field; lra).
    apply (is_derive_plus (fun v => f v r) (fun v => fold_right (fun r s => f v r + s) 0 l)); [apply H|exact IH].
Qed.
Lemma residual1 delta tau : residual (ac ch4g) delta tau = lsum (pure_term delta tau) (nth 1 PURE []).
Proof.
  unfold residual. rewrite (tot_one 20), ac1, (lsum_zero _ DEPARTS); [ring| |].
  - intros [[[i j] f] m] Hr. pose proof (proj1 (forallb_forall _ _) departs_two _ Hr) as E. cbn [two_of] in E.
    destruct (Nat.eqb_spec i j) as [|E']; [discriminate E|]. destruct (Nat.eq_dec i 1) as [-> |Hi]; [rewrite (ac0 j) by lia|rewrite (ac0 i) by exact Hi]; ring.
  - intros i Hi. rewrite ac0 by lia. ring.
Qed.
Lemma size1 delta tau : gerg_size (ac ch4g) delta tau = 1 + lsum (pure_weight delta tau) (nth 1 PURE []).
Proof.
  unfold gerg_size. rewrite (tot_one 20), ac1, (lsum_zero _ DEPARTS); [ring| |].
  - intros [[[i j] f] m] Hr. pose proof (proj1 (forallb_forall _ _) departs_two _ Hr) as E. cbn [two_of] in E.
    destruct (Nat.eqb_spec i j) as [|E']; [discriminate E|]. destruct (Nat.eq_dec i 1) as [-> |Hi]; [rewrite (ac0 j) by lia|rewrite (ac0 i) by exact Hi]; ring.
  - intros i Hi. rewrite ac0 by lia. ring.
Qed.
Lemma slope1 delta tau a : 0 < delta -> is_derive (fun delta => alphar (ac ch4g) delta tau) delta a -> delta * a = lsum (pure_slope delta tau) (nth 1 PURE []).
Proof.
  intros Hd Ha. assert (E : is_derive (fun delta => alphar (ac ch4g) delta tau) delta (lsum (pure_slope delta tau) (nth 1 PURE []) / delta)).
  { apply (is_derive_ext (fun delta => lsum (pure_term delta tau) (nth 1 PURE []))).
    - intros e. now rewrite <- residual_std, residual1.
    - apply (lsum_d (fun v => pure_term v tau) (fun v => pure_slope v tau)); [exact Hd|]. intros r. now apply pure_d. }
  apply is_derive_unique in Ha. apply is_derive_unique in E. rewrite <- Ha, E. field. lra.
Qed.
Lemma vred1 : vred (ac ch4g) = tb2 G_GVIJ 1 1. Proof. now rewrite <- vred_std, vol1. Qed.
Lemma tred1 : tred (ac ch4g) = tb2 G_GTIJ 1 1. Proof. now rewrite <- tred_std, temp1. Qed.
Lemma v_box : 986256 / 10000000 <= vred (ac ch4g) <= 986259 / 10000000.
Proof.
  rewrite vred1. pose proof (v_std 1 1 ltac:(lia) ltac:(lia)) as Hv. revert Hv. unfold near, v_red. rewrite Nat.eqb_refl. unfold rho_c. cbn [CRIT nth fst snd Rlit]. cbv [Z.pow Z.pow_pos Pos.iter Z.mul Pos.mul Pos.add Pos.succ Pos.add_carry].
  intros Hv. apply Rabs_le_inv in Hv. set (v := tb2 _ _ _) in *. clearbody v. set (c := 1 / (10139342719 / 1000000000)) in *. assert (9862570 / 100000000 <= c <= 9862579 / 100000000) by (unfold c; split; interval). clearbody c. lra.
Qed.
Lemma t_box : 190563 / 1000 <= tred (ac ch4g) <= 190565 / 1000.
Proof.
  rewrite tred1. pose proof (t_std 1 1 ltac:(lia) ltac:(lia)) as Hv. revert Hv. unfold near, t_red. rewrite Nat.eqb_refl. unfold T_c. cbn [CRIT nth fst snd Rlit]. cbv [Z.pow Z.pow_pos Pos.iter Z.mul Pos.mul Pos.add Pos.succ Pos.add_carry].
  intros Hv. apply Rabs_le_inv in Hv. set (v := tb2 _ _ _) in *. clearbody v. lra.
Qed.
Lemma cold delta tau : 986256 / 1000000 <= delta <= 986259 / 1000000 -> 190563 / 256000 <= tau <= 190565 / 256000 ->
  1 / 2 <= 1 + lsum (pure_slope delta tau) (nth 1 PURE []) <= 7 / 10 /\ 1 + lsum (pure_weight delta tau) (nth 1 PURE []) <= 100.
Proof.
  intros Hd Ht. cbn [nth PURE lsum fold_right pure_slope pure_weight Rlit]. unfold hb, ek.
  cbv [Z.pow Z.pow_pos Pos.iter Z.mul Pos.mul Pos.add Pos.succ Pos.add_carry INR Rpower]. change R0 with 0. change R1 with 1. repeat split; interval with (i_prec 50).
Qed.
Lemma hot delta tau : 986256 / 1000000 <= delta <= 986259 / 1000000 -> 190563 / 512000 <= tau <= 190565 / 512000 ->
  1 <= 1 + lsum (pure_slope delta tau) (nth 1 PURE []) /\ 1 + lsum (pure_weight delta tau) (nth 1 PURE []) <= 100.
Proof.
  intros Hd Ht. cbn [nth PURE lsum fold_right pure_slope pure_weight Rlit]. unfold hb, ek.
  cbv [Z.pow Z.pow_pos Pos.iter Z.mul Pos.mul Pos.add Pos.succ Pos.add_carry INR Rpower]. change R0 with 0. change R1 with 1. split; interval with (i_prec 50).
Qed.
Import DriftWit.
Definition ch4g (i : nat) : b64 := match i with 1%nat => bdy 1 0 | _ => B0 end.
Lemma ch4g_R i : fin (ch4g i) /\ bR (ch4g i) = ac ConvCaseG.ch4g i.
Proof.
  destruct i as [|[|i]]; [rewrite ac0 by lia; now split| |rewrite ac0 by lia; now split].
  destruct (bdy_R 1 0 ltac:(lia) ltac:(lia)) as [F E]. split; [exact F|]. rewrite ac1. cbn [ch4g]. rewrite E. change (p2 0) with 1. ring.
Qed.
Lemma ch4g_fun : (fun i => bR (ch4g i)) = ac ConvCaseG.ch4g.
Proof. apply functional_extensionality. intros i. apply ch4g_R. Qed.
Lemma ch4g_hyp : let r i := bR (ch4g i) in
  (forall i, (1 <= i < 22)%nat -> fin (ch4g i) /\ (r i = 0 \/ p2 (-49) <= r i)) /\ 99 / 100 <= tot 21 (fun i => r (S i)) <= 101 / 100 /\
  (forall j, (1 <= j < 22)%nat -> j <> 1%nat -> r j = 0) /\
  (fin d10 /\ (bR d10 = 0 \/ p2 (-20) <= bR d10)) /\ bR d10 * vred r <= 5 / 2.
Proof.
  cbv zeta. split.
  { intros i _. split; [apply ch4g_R|]. rewrite (proj2 (ch4g_R i)). destruct (Nat.eq_dec i 1) as [->|N]; [right; rewrite ac1|left; now apply ac0].
    change 1 with (p2 0). apply bpow_le. lia. }
  split. { rewrite (tot_one 20), (proj2 (ch4g_R 1)), ac1; [lra|]. intros i Hi. rewrite (proj2 (ch4g_R _)). apply ac0. lia. }
  split. { intros j _ N. rewrite (proj2 (ch4g_R j)). now apply ac0. }
  split. { split; [apply d10_R|right]. rewrite (proj2 d10_R). apply Rle_trans with (p2 0); [apply bpow_le; lia|change (p2 0) with 1; lra]. }
  rewrite ch4g_fun, (proj2 d10_R). pose proof v_box. lra.
Qed.
Section W.
Variable m : Libm.
Hypothesis A : accurate m.
Local Notation B := (ArithB64 m).
Lemma gwitness : exists n s rr s' v s1 r1 s2 w,
  @gexec B New ([SetX (A := B) ch4g; Poke (A := B) PT (warm 0); Poke (A := B) PD d10; Pressure] ++ @ramp B (fun i => Poke (A := B) PT (warm i)) n) = Some (s, rr) /\
  (forall i, (i < n)%nat -> fin (warm i) /\ fin (warm (S i)) /\ bR (warm (S i)) - bR (warm i) = p2 (-24)) /\ bR (warm 0) = 256 /\ bR (warm n) = 512 /\
  @gexec B New (@gcopy B s) = Some (s1, r1) /\ @gsame B s s1 /\
  @gstep B Pressure s = Some (s', OVal (A := B) v) /\ @gstep B Pressure s1 = Some (s2, OVal (A := B) w) /\ fin v /\ fin w /\ 0 < bR v < 3 / 4 * bR w.
Proof.
  destruct (Z_of_nat_complete 4294967296 ltac:(lia)) as [n Hn]. 
  assert (HW : forall i, (i <= n)%nat -> fin (warm i) /\ bR (warm i) = 256 + INR i / 16777216) by (intros i Hi; apply warm_R; lia).
  assert (Hi : forall i, (i <= n)%nat -> 0 <= INR i <= 4294967296).
  { intros i H. split; [apply pos_INR|]. rewrite INR_IZR_INZ. apply IZR_le. lia. }
  assert (HS : forall i, (i < n)%nat -> bR (warm (S i)) - bR (warm i) = p2 (-24)).
  { intros i H. rewrite (proj2 (HW i ltac:(lia))), (proj2 (HW (S i) ltac:(lia))), S_INR. change (p2 (-24)) with (/ 16777216). field. }
  assert (E0 : bR (warm 0) = 256). { rewrite (proj2 (HW 0%nat ltac:(lia))). cbn. field. }
  assert (E1 : bR (warm n) = 512). { rewrite (proj2 (HW n ltac:(lia))), INR_IZR_INZ, <- Hn. field. }
  destruct ch4g_hyp as (Hx & Hs & Ho & Hd & HD).
  destruct (gdrift_double m A ch4g d10 warm n 1 Hx Hs Ho) as (a0 & a1 & s & rr & s' & v & s1 & r1 & s2 & w & D0 & D1 & P1 & P2 & P3 & P4 & P5 & P6 & P7 & P8 & P9); trivial.
  - intros i H. destruct (HW i H) as [F E]. split; [exact F|]. rewrite E. pose proof (Hi i H). lra.
  - intros i H. rewrite HS by exact H. rewrite Rabs_pos_eq by apply bpow_ge_0. change (p2 (-24)) with (/ 16777216). lra.
  - exists n, s, rr, s', v, s1, r1, s2, w. split; [exact P1|]. split.
    { intros i H. exact (conj (proj1 (HW i ltac:(lia))) (conj (proj1 (HW (S i) ltac:(lia))) (HS i H))). }
    repeat (split; [assumption|]).
    rewrite ch4g_fun in P4, P9, D0, D1. rewrite E0 in D0, P4. rewrite E1 in D1, P4, P9. rewrite (proj2 d10_R) in D0, D1, P4, P9.
    pose proof v_box as BV. pose proof t_box as BT. set (vr := vred (ac ConvCaseG.ch4g)) in *. set (tr := tred (ac ConvCaseG.ch4g)) in *. clearbody vr tr.
    rewrite size1 in P4, P9. assert (VP : 0 < 10 * vr) by lra. apply (slope1 _ _ _ VP) in D0. apply (slope1 _ _ _ VP) in D1. rewrite D0 in P4. rewrite D1 in P9.
    destruct (cold (10 * vr) (tr / 256)) as (C1 & C2); [lra|lra|]. destruct (hot (10 * vr) (tr / 512)) as (C3 & C4); [lra|lra|].
    apply Rabs_le_inv in P4, P9. unfold Rg in P4, P9.
    set (z0 := lsum (pure_slope (10 * vr) (tr / 256)) _) in *. set (z1 := lsum (pure_slope (10 * vr) (tr / 512)) _) in *.
    set (e0 := lsum (pure_weight (10 * vr) (tr / 256)) _) in *. set (e1 := lsum (pure_weight (10 * vr) (tr / 512)) _) in *.
    clearbody z0 z1 e0 e1. lra.
Qed.
Lemma ghistory_double_false : ~ (forall k l l2 (s : @Gerg B) r, @gexec B k l = Some (s, r) ->
  exists s1 r1, @gexec B k (@gcopy B s) = Some (s1, r1) /\
  exists s2 s3 r2, @grun B l2 s = Some (s2, r2) /\ @grun B l2 s1 = Some (s3, r2) /\ @gsame B s2 s3).
Proof.
  intros H. destruct gwitness as (n & s & rr & s' & v & s1 & r1 & s2 & w & P1 & _ & _ & _ & P5 & _ & P7 & P8 & _ & _ & P11).
  destruct (H New _ [Pressure] s rr P1) as (t1 & q1 & Q1 & t2 & t3 & q2 & Q2 & Q3 & _).
  rewrite P5 in Q1. injection Q1 as <- <-. cbn [grun] in Q2, Q3. rewrite P7 in Q2. rewrite P8 in Q3. cbn [bind] in Q2, Q3.
  injection Q2 as <- <-. injection Q3 as _ E. subst w.
  lra.
Qed.
End W.
(* in terms of the printed equation *)
Lemma gdrift_std : exists gv gt bt : nat -> nat -> R,
  (forall i j, (1 <= i <= j)%nat -> (j < 22)%nat ->
    near (gv i j) (v_red i j) /\ near (gt i j) (t_red i j) /\ near (bt i j) (b_red i j)) /\
  forall m, accurate m -> let B := ArithB64 m in forall (x : nat -> b64) (d : b64) (f : nat -> b64) n i, let r i := bR (x i) in
  (forall i, (1 <= i < 22)%nat -> fin (x i) /\ (r i = 0 \/ bpow radix2 (-49) <= r i)) -> 99 / 100 <= tot 21 (fun i => r (S i)) <= 101 / 100 ->
  (forall j, (1 <= j < 22)%nat -> j <> i -> r j = 0) ->
  (forall i, (i <= n)%nat -> fin (f i) /\ 32 <= bR (f i) <= 2048) ->
  (forall i, (i < n)%nat -> Rabs (bR (f (S i)) - bR (f i)) <= 1 / 10000000) ->
  fin d /\ (bR d = 0 \/ bpow radix2 (-20) <= bR d) -> bR d * red_volume r v_red <= 249 / 100 ->
  let delta := bR d * red_volume r gv in let tau i := red_temp r gt bt / bR (f i) in
  exists a0 a1 s rr s' v s1 r1 s2 w,
  is_derive (fun delta => residual r delta (tau 0%nat)) delta a0 /\ is_derive (fun delta => residual r delta (tau n)) delta a1 /\
  @gexec B New ([SetX (A := B) x; Poke (A := B) PT (f 0%nat); Poke (A := B) PD d; Pressure] ++ @ramp B (fun i => Poke (A := B) PT (f i)) n) = Some (s, rr) /\
  @gstep B Pressure s = Some (s', OVal (A := B) v) /\ fin v /\
  Rabs (bR v - bR d * Rg * bR (f n) * (1 + delta * a0)) <= 1 / 10000000000 * (bR d * Rg * bR (f n) * gerg_size r delta (tau 0%nat)) /\
  @gexec B New (@gcopy B s) = Some (s1, r1) /\ @gsame B s s1 /\ @gstep B Pressure s1 = Some (s2, OVal (A := B) w) /\ fin w /\
  Rabs (bR w - bR d * Rg * bR (f n) * (1 + delta * a1)) <= 1 / 10000000000 * (bR d * Rg * bR (f n) * gerg_size r delta (tau n)).
Proof.
  exists (tb2 G_GVIJ), (tb2 G_GTIJ), (tb2 G_BTIJ). split.
  - intros i j Hi Hj. split; [now apply v_std|]. split; [now apply t_std|now apply b_std].
  - intros m A B x d f n i r Hx Hs Ho Hf Hst Hd HD. cbv zeta. rewrite vred_std, tred_std.
    assert (bR d * vred r <= 5 / 2) as HD'.
    { assert (0 <= bR d) as D0. { destruct Hd as [_ [E|E]]; [lra|]. eapply Rle_trans; [apply Rlt_le, bpow_gt_0|exact E]. }
      pose proof (vred_le r (rg_ge0 x Hx)) as G. apply Rmult_le_compat_l with (1 := D0) in G. lra. }
    destruct (gdrift_double m A x d f n i Hx Hs Ho Hf Hst Hd HD') as (a0 & a1 & s & rr & s' & v & s1 & r1 & s2 & w & D0 & D1 & H).
    exists a0, a1, s, rr, s', v, s1, r1, s2, w.
    split; [|split; [|exact H]]; (eapply is_derive_ext; [|eassumption]); intros e; symmetry; apply residual_std.
Qed.
Lemma ch4g_hyp' : let r i := bR (ch4g i) in
  (forall i, (1 <= i < 22)%nat -> fin (ch4g i) /\ (r i = 0 \/ p2 (-49) <= r i)) /\ 99 / 100 <= tot 21 (fun i => r (S i)) <= 101 / 100 /\
  (forall j, (1 <= j < 22)%nat -> j <> 1%nat -> r j = 0) /\
  (fin d10 /\ (bR d10 = 0 \/ p2 (-20) <= bR d10)) /\ bR d10 * red_volume r v_red <= 249 / 100.
Proof.
  cbv zeta. destruct ch4g_hyp as (H1 & H2 & H3 & H4 & _). repeat (split; [assumption|]). rewrite ch4g_fun, vol1, (proj2 d10_R).
  unfold v_red. rewrite Nat.eqb_refl. unfold rho_c. cbn [CRIT nth fst snd Rlit]. cbv [Z.pow Z.pow_pos Pos.iter Z.mul Pos.mul Pos.add Pos.succ Pos.add_carry]. interval.
Qed.
