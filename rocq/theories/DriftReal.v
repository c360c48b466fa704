(* Drift over the reals: DETAIL with pure methane heated from 151.3183 K to four times that in steps
   below 1e-7 K. *)
From Coq Require Import Reals ZArith List Bool Lra Lia.
From Coquelicot Require Import Coquelicot.
From Verif Require Import FArith Prelude Tab Composition DetailTables DetailModel DetailPure
  DetailRefine DetailEval GergTables GergModel GergPure GergRefine GergEval Api ApiSafe SpecGeneric
  SpecHistory DensityProofs BasicProofs GenericLemmas HistoryDetail HistoryGerg ArithR RSum SpecReal
  CompReal DetailReal DetailThermo SpecDetail DetailEos DetailLimit NewtonReal Drift.
Import ListNotations.
Local Open Scope R_scope.
Local Existing Instance ArithR.

(* ---------- the second virial coefficient of methane ---------- *)
Definition pm (i : nat) : R := if Nat.eqb i 0 then 1 else 0.
Lemma sum_first n f : (forall i, (0 < i)%nat -> f i = 0) -> sum (S n) f = f 0%nat.
Proof.
  intros H. induction n as [|n IH]; cbn [sum]; [ring|]. cbn [sum] in IH. rewrite IH, (H (S n)) by lia. ring.
Qed.
Definition EM : R := 1513183 / 10000.
Definition KM3 : R := Rpower (tb D_KI 0 * tb D_KI 0) (3/2).
Lemma KM3_pos : 0 < KM3. Proof. apply exp_pos. Qed.
Definition noflag (n : nat) : R :=
  match nth n D_GN 0%nat, nth n D_QN 0%nat, nth n D_FN 0%nat, nth n D_SN 0%nat, nth n D_WN 0%nat with
  | O, O, O, O, O => 1 | _, _, _, _, _ => 0 end.
Lemma E00 : Eij 0 0 = EM.
Proof.
  unfold Eij, bip, tb. cbn [Nat.max Nat.min nth D_EIJ D_EI Rlit].
  change (IZR (10 ^ 4)) with 10000. rewrite sqrt_square by lra. unfold EM. lra.
Qed.
Lemma opt0 l n v : v = 0 -> nth n l 0%nat = 0%nat \/ nth n l 0%nat = 1%nat ->
  opt v l n = match nth n l 0%nat with O => 1 | _ => 0 end.
Proof.
  intros -> [E|E]; unfold opt, flag; rewrite E; cbn [INR pow]; ring.
Qed.
Lemma flags01 n : (n < 18)%nat -> forall l, In l [D_GN; D_QN; D_FN; D_SN; D_WN] -> nth n l 0%nat = 0%nat \/ nth n l 0%nat = 1%nat.
Proof.
  intros Hn l Hl.
  assert (E : forallb (fun l => forallb (fun n => Nat.leb (nth n l 0%nat) 1) (seq 0 18)) [D_GN; D_QN; D_FN; D_SN; D_WN] = true) by reflexivity.
  rewrite forallb_forall in E. specialize (E l Hl). rewrite forallb_forall in E.
  specialize (E n ltac:(apply in_seq; lia)). apply Nat.leb_le in E. lia.
Qed.
Lemma Bstar00 n : (n < 18)%nat -> Bstar n 0 0 = noflag n.
Proof.
  intros Hn. unfold Bstar. pose proof (flags01 n Hn) as H.
  rewrite (opt0 D_GN), (opt0 D_QN), (opt0 D_FN), (opt0 D_SN), (opt0 D_WN);
    try (apply H; cbn; tauto);
    try (unfold bip, tb; cbn [Nat.max Nat.min nth D_GIJ D_GI D_QI D_FI D_SI D_WI Rlit]; rewrite ?sqrt_0; lra).
  unfold noflag. destruct (nth n D_GN 0%nat), (nth n D_QN 0%nat), (nth n D_FN 0%nat), (nth n D_SN 0%nat), (nth n D_WN 0%nat); ring.
Qed.
Lemma virial_pm T : virialB pm T
  = KM3 * sum 18 (fun n => tb D_AN n * noflag n * (Rpower T (- tb D_UN n) * Rpower EM (tb D_UN n))).
Proof.
  unfold virialB. rewrite <- sum_scal. apply sum_ext. intros n Hn.
  rewrite sum_first.
  - rewrite sum_first.
    + rewrite Bstar00, E00 by assumption. unfold KM3, pm. cbn [Nat.eqb]. ring.
    + intros j Hj. unfold pm. destruct j; [lia|]. cbn [Nat.eqb]. ring.
  - intros i Hi. erewrite sum_ext.
    + apply (sum_first 20 (fun _ => 0)). reflexivity.
    + intros j _. unfold pm. destruct i; [lia|]. cbn [Nat.eqb]. ring.
Qed.
Lemma pow4 m : Rpower 4 (IZR m / 2) = powerRZ 2 m.
Proof.
  replace 4 with (Rpower 2 2).
  - rewrite Rpower_mult. replace (2 * (IZR m / 2)) with (IZR m) by field. symmetry. apply powerRZ_Rpower. lra.
  - replace 2 with (INR 2) at 2 by (cbn; lra). rewrite Rpower_pow by lra. lra.
Qed.
Definition twice_u : list Z := [0; 1; 2; 7; -1; 9; 1; 15; 19; 12; 24; 25; -12; 4; 6; 4; 4; 22]%Z.
Lemma twice_u_ok n : (n < 18)%nat -> tb D_UN n = IZR (nth n twice_u 0%Z) / 2.
Proof.
  intros H. unfold tb. do 18 (destruct n as [|n]; [cbn [nth D_UN twice_u Rlit]; try change (IZR (10 ^ 1)) with 10; lra|]). lia.
Qed.
Lemma virial_E : virialB pm EM = KM3 * sum 18 (fun n => tb D_AN n * noflag n).
Proof.
  rewrite virial_pm. f_equal. apply sum_ext. intros n Hn.
  rewrite <- Rpower_plus, Rplus_opp_l, Rpower_O by (unfold EM; lra). ring.
Qed.
Lemma virial_4E : virialB pm (4 * EM)
  = KM3 * sum 18 (fun n => tb D_AN n * noflag n * powerRZ 2 (- nth n twice_u 0%Z)).
Proof.
  rewrite virial_pm. f_equal. apply sum_ext. intros n Hn. f_equal.
  rewrite <- Rpower_mult_distr by (unfold EM; lra).
  rewrite Rmult_assoc, <- Rpower_plus, Rplus_opp_l, Rpower_O by (unfold EM; lra).
  rewrite Rmult_1_r, twice_u_ok by assumption. rewrite <- pow4, opp_IZR. f_equal. field.
Qed.
Definition actives : list nat := [0; 1; 2; 3; 13; 14; 16; 17]%nat.
Lemma sum_actives q : sum 18 (fun n => tb D_AN n * noflag n * q n)
  = tb D_AN 0 * q 0%nat + tb D_AN 1 * q 1%nat + tb D_AN 2 * q 2%nat + tb D_AN 3 * q 3%nat
    + tb D_AN 13 * q 13%nat + tb D_AN 14 * q 14%nat + tb D_AN 16 * q 16%nat + tb D_AN 17 * q 17%nat.
Proof.
  rewrite (sum_ext 18 _ (fun n => noflag n * (tb D_AN n * q n))) by (intros; ring).
  set (w := fun n => tb D_AN n * q n). change (sum 18 (fun n => noflag n * w n) =
    w 0%nat + w 1%nat + w 2%nat + w 3%nat + w 13%nat + w 14%nat + w 16%nat + w 17%nat).
  clearbody w. cbn [sum]. unfold noflag. cbn [nth D_GN D_QN D_FN D_SN D_WN]. ring.
Qed.
Lemma virial_moves : virialB pm EM < virialB pm (4 * EM).
Proof.
  rewrite virial_E, virial_4E. apply Rmult_lt_compat_l; [exact KM3_pos|].
  rewrite (sum_ext 18 _ (fun n => tb D_AN n * noflag n * 1)) by (intros; ring).
  rewrite !sum_actives. unfold tb, twice_u. cbn [nth D_AN Rlit Z.opp powerRZ].
  repeat match goal with |- context [IZR (10 ^ ?p)] => let v := eval vm_compute in (10 ^ p)%Z in change (IZR (10 ^ p)) with (IZR v) end.
  repeat match goal with |- context [2 ^ Pos.to_nat ?p] =>
    let n := eval vm_compute in (Pos.to_nat p) in change (Pos.to_nat p) with n end.
  cbn [pow]. lra.
Qed.

(* ---------- the ramp ---------- *)
Lemma differs_R a b : @differs ArithR a b = false <-> Rabs (a - b) <= 1 / 10000000.
Proof. unfold differs. rewrite lit7. rar. apply Rltb_false. Qed.
Lemma differs_same a : @differs ArithR a a = false.
Proof. apply differs_R. rewrite Rminus_eq_0, Rabs_R0. lra. Qed.
Lemma differs_0 t : 1 / 10000000 < t -> @differs ArithR t (@f0 ArithR) = true.
Proof.
  intros H. unfold differs. rewrite lit7. unfold f0. rar. cbn [Rlit]. apply Rltb_true.
  rewrite Rminus_0_r, Rabs_right; lra.
Qed.
Lemma x_diff_same_R x : @x_diff ArithR x x = false.
Proof.
  unfold x_diff. induction (seq 0 21) as [|i l IH]; [reflexivity|]. cbn [existsb]. now rewrite differs_same.
Qed.
Lemma x_diff_0 x i : (i < 21)%nat -> 1 / 10000000 < nth i x 0 -> @x_diff ArithR x (repeat (@f0 ArithR) 21) = true.
Proof.
  intros Hi H. unfold x_diff. apply existsb_exists. exists i. split; [apply in_seq; lia|].
  unfold xf at 2. rewrite nth_repeat. now apply differs_0.
Qed.
Lemma nat_above r : 0 <= r -> exists n, r < INR n.
Proof.
  intros H. destruct (nfloor_ex r H) as [n Hn]. exists (S n). rewrite S_INR. lra.
Qed.
(* n equal steps from t0 to t1, each at most 1e-7 *)
Definition line (t0 t1 : R) (n i : nat) : R := t0 + (t1 - t0) * (INR i / INR n).
Lemma line_exists t0 t1 : exists n, (0 < n)%nat /\ line t0 t1 n 0 = t0 /\ line t0 t1 n n = t1 /\
  forall i, Rabs (line t0 t1 n (S i) - line t0 t1 n i) <= 1 / 10000000.
Proof.
  pose proof (Rabs_pos (t1 - t0)) as Hp.
  destruct (nat_above (Rabs (t1 - t0) * 10000000 + 1)) as [n Hn]; [lra|]. exists n.
  assert (0 < INR n) by lra.
  split; [apply INR_lt; cbn [INR]; lra|]. unfold line. split; [cbn [INR]; unfold Rdiv; ring|]. split; [field; lra|].
  intros i. rewrite S_INR. replace (_ - _) with ((t1 - t0) * / INR n) by (field; lra).
  rewrite Rabs_mult, (Rabs_right (/ INR n)) by (left; now apply Rinv_0_lt_compat).
  apply (Rmult_le_reg_r (INR n)); [assumption|]. rewrite Rmult_assoc, Rinv_l by lra. lra.
Qed.

Lemma pz_t k t t' d : 0 < t -> 0 < t' -> @pz ArithR k t d = @pz ArithR k t' d.
Proof.
  intros H H'. unfold pz, ar01. rewrite !facc_rsum, <- !sum_rsum.
  pose proof RD_pos as Hr. set (g := fun n => @ts1 ArithR k (dr k d) d n).
  change (1 + sum 58 (fun n => @RDETAIL ArithR * t * g n) / @RDETAIL ArithR / t
    = 1 + sum 58 (fun n => @RDETAIL ArithR * t' * g n) / @RDETAIL ArithR / t').
  rewrite !sum_scal. revert Hr. generalize (sum 58 g) (@RDETAIL ArithR). intros v r Hr. field. lra.
Qed.

Definition base_ops (c : @Composition ArithR) (t d : R) : list op :=
  [SetComp c; Poke (A := ArithR) PD d; Poke (A := ArithR) PT t; Pressure].
Definition heating (c : @Composition ArithR) (t0 t1 d : R) (n : nat) : list op :=
  base_ops c t0 d ++ ramp (fun i => Poke (A := ArithR) PT (line t0 t1 n i)) n.

Section Heat.
Variables (c : @Composition ArithR) (t0 t1 d : R) (n : nat).
Hypothesis Hc : comp_check c = ROk.
Hypothesis Hx : exists i, (i < 21)%nat /\ 1 / 10000000 < nth i (fractions c) 0.
Hypothesis H0 : 1 / 10000000 < t0.
Hypothesis H1 : 1 / 10000000 < t1.
Hypothesis Hn : line t0 t1 n 0 = t0 /\ line t0 t1 n n = t1 /\
  forall i, Rabs (line t0 t1 n (S i) - line t0 t1 n i) <= 1 / 10000000.
Let x := fractions c.
Local Existing Instance dp_new.

Lemma heat_first : exists s r, dexec New (base_ops c t0 d) = Some (s, r) /\
  held (P := dp_new) (Some x) (Some t0) x t0 d s.
Proof.
  enough (G : exists s r, drun (base_ops c t0 d) detail_fresh = Some (s, r) /\
    held (P := dp_new) (Some x) (Some t0) x t0 d s).
  { destruct G as (s & r & G & Hh). exists s, r. split; [now apply dexec_new|exact Hh]. }
  unfold base_ops. cbn [drun dstep dpoke]. rewrite dset_comp by exact (wf_x _ _ _ wf_fresh). rewrite Hc. cbn [bind].
  set (s0 := set_d_t (t0 : @F ArithR) (set_d_d (d : @F ArithR) (set_d_x (fractions c) detail_fresh))).
  assert (W : wf (P := dp_new) None None s0).
  { apply (@wf_poke ArithR dp_new PT), (@wf_poke ArithR dp_new PD), wf_set_x; [reflexivity|exact wf_fresh]. }
  destruct (press_new (P := dp_new) x (t0 : @F ArithR) (d : @F ArithR) s0 None None W) as (s1 & E1 & Hh); try reflexivity.
  - change (@x_diff ArithR x (repeat (@f0 ArithR) 21) = true). destruct Hx as (i & Hi & G). now apply (x_diff_0 x i).
  - exact (differs_0 t0 H0).
  - rewrite E1. cbn [bind]. eauto.
Qed.
Lemma heat_end : exists s r, dexec New (heating c t0 t1 d n) = Some (s, r) /\
  held (P := dp_new) (Some x) (Some t0) x t1 d s.
Proof.
  destruct heat_first as (s & r & E & Hh). destruct Hn as (L0 & L1 & LS).
  destruct (@d_ramp_t ArithR dp_new (line t0 t1 n) (Some x) (Some t0) x d s) with (n := n) as (s' & r' & E' & Hh').
  - rewrite L0. exact Hh.
  - apply x_diff_same_R.
  - intros i Hi. apply differs_R, LS.
  - do 2 eexists. split; [exact (dexec_app _ _ _ _ _ _ _ E E')|]. rewrite L1 in Hh'. exact Hh'.
Qed.
Lemma xl_fr : xl (fun i => nth i x 0) = x.
Proof. reflexivity. Qed.
Lemma dk_fr t : dk New (fun i => nth i x 0) t = @cache_of ArithR dp_new (Some x) (Some t).
Proof. rewrite dk_eq by exact Hx. unfold dX. rewrite xl_fr. unfold cache_of, cK3, cBs, cCsn. reflexivity. Qed.
Lemma pz_stale t : 0 < t -> @pz ArithR (@cache_of ArithR dp_new (Some x) (Some t0)) t d = Zfactor (nn (fun i => nth i x 0)) t0 d.
Proof.
  intros Ht. rewrite (pz_t _ t t0) by lra. rewrite <- dk_fr, <- dprop_z_eos by assumption.
  rewrite dprop_ok by assumption. cbn [dvals]. unfold qz, pz, qrt. rar. pose proof RD_pos. rar.
  f_equal. field. lra.
Qed.
Lemma heat_stale : exists s r, dexec New (heating c t0 t1 d n) = Some (s, r) /\
  d_x s = fractions c /\ d_t s = t1 /\ d_d s = d /\
  exists s', dstep Pressure s =
    Some (s', OVal (A := ArithR) (d * (831451 / 100000) * t1 * Zfactor (nn (fun i => nth i (fractions c) 0)) t0 d)).
Proof.
  destruct heat_end as (s & r & E & Hh). exists s, r. split; [exact E|].
  destruct Hh as [W X T D XO TO]. split; [exact X|]. split; [exact T|]. split; [exact D|].
  destruct (press_held (P := dp_new) _ _ s x (t1 : @F ArithR) W XO TO) as (s' & E' & _).
  - rewrite X. apply x_diff_same_R.
  - rewrite T. apply differs_same.
  - exists s'. cbn [dstep]. rewrite E'. cbn [bind]. rewrite T, D. unfold pp.
    rewrite (pz_stale t1) by lra. reflexivity.
Qed.
End Heat.

Definition cmethane : @Composition ArithR := @mkComposition ArithR 1 0 0 0 0 0 0 0 0 0 0 0 0 0 0 0 0 0 0 0 0.
Lemma cm_check : comp_check cmethane = ROk.
Proof.
  apply check_ok. unfold fields, cmethane, total. cbn [methane nitrogen carbon_dioxide ethane propane isobutane n_butane isopentane n_pentane
    hexane heptane octane nonane decane hydrogen oxygen carbon_monoxide water hydrogen_sulfide helium argon].
  replace (_ - 1) with 0 by ring. rewrite Rabs_R0. lra.
Qed.
Definition xm (i : nat) : R := nth i (@fractions ArithR cmethane) 0.
Lemma xm_pm i : (i < 21)%nat -> nn xm i = pm i.
Proof.
  intros H. unfold nn, xm. do 21 (destruct i as [|i]; [cbn; unfold Rmax; destruct (Rle_dec _ _); lra|]). lia.
Qed.
Lemma xm_some : exists i, (i < 21)%nat /\ 1 / 10000000 < xm i.
Proof. exists 0%nat. split; [lia|]. cbn. lra. Qed.
Lemma lim_gap (f g : R -> R) a b : a < b -> is_lim f 0 a -> is_lim g 0 b -> exists d, 0 < d /\ f d < g d.
Proof.
  intros H F G. apply is_lim_spec in F, G.
  destruct (F (mkposreal ((b - a) / 2) ltac:(lra))) as [e1 F1].
  destruct (G (mkposreal ((b - a) / 2) ltac:(lra))) as [e2 G2].
  pose proof (cond_pos e1) as P1. pose proof (cond_pos e2) as P2.
  set (d := Rmin e1 e2 / 2). assert (0 < d < e1 /\ d < e2) as [D1 D2].
  { unfold d, Rmin. destruct (Rle_dec _ _); lra. }
  exists d. split; [lra|].
  assert (B1 : Rabs (f d - a) < (b - a) / 2).
  { apply F1; [|lra]. unfold ball; cbn; unfold AbsRing_ball, abs, minus, plus, opp; cbn. rewrite Ropp_0, Rplus_0_r, Rabs_right; lra. }
  assert (B2 : Rabs (g d - b) < (b - a) / 2).
  { apply G2; [|lra]. unfold ball; cbn; unfold AbsRing_ball, abs, minus, plus, opp; cbn. rewrite Ropp_0, Rplus_0_r, Rabs_right; lra. }
  apply Rabs_def2 in B1, B2. lra.
Qed.
Lemma Z_moves : exists d, 0 < d /\ Zfactor (nn xm) EM d < Zfactor (nn xm) (4 * EM) d.
Proof.
  assert (E : forall t, virialB (nn xm) t = virialB pm t) by (intros t; apply virialB_ext; exact xm_pm).
  destruct (lim_gap (fun d => (Zfactor (nn xm) EM d - 1) / d)
    (fun d => (Zfactor (nn xm) (4 * EM) d - 1) / d) _ _ virial_moves) as (d & Hd & H).
  - rewrite <- E. apply virial_lim.
  - rewrite <- E. apply virial_lim.
  - exists d. split; [exact Hd|]. apply (Rmult_lt_compat_r d) in H; [|exact Hd].
    unfold Rdiv in H. rewrite !Rmult_assoc, Rinv_l in H by lra. lra.
Qed.

(* what the fresh copy answers *)
Lemma copy_press (s : @Detail ArithR) : dreach s ->
  (exists i, (i < 21)%nat /\ 1 / 10000000 < nth i (d_x s) 0) -> 1 / 10000000 < d_t s ->
  exists s1 r1, dexec New (dcopy s) = Some (s1, r1) /\ dsame s s1 /\
  exists s2, dstep Pressure s1 = Some (s2, OVal (dpres New (fun i => nth i (d_x s) 0) (d_t s) (d_d s))).
Proof.
  intros Hr (i & Hi & Hx) Ht. set (V := [(d_x s, d_t s)]).
  assert (L : length (d_x s) = 21%nat).
  { destruct (dreach_wf s Hr) as (P & cx & ct & W). exact (wf_x _ _ _ W). }
  assert (HV : separated 0 V).
  { split.
    - intros x t x' t' [E|[]] [E'|[]]. injection E as <- <-. injection E' as <- <-. now split; left.
    - intros x t [E|[]]. injection E as <- <-. split.
      + exists i. split; [lia|]. rewrite nth_repeat. exact (differs_0 _ Hx).
      + exact (differs_0 _ Ht). }
  assert (HL : forall x t, In (x, t) V -> length x = 21%nat).
  { intros x t [E|[]]. injection E as <- _. exact L. }
  assert (H0 : @HistoryDetail.hinv ArithR dp_new V detail_fresh).
  { exists None, None. split; [exact wf_fresh|]. split; left; split; reflexivity. }
  destruct (HistoryDetail.copy_run V s detail_fresh H0 L) as (s1 & r1 & E1 & K1 & Hs).
  exists s1, r1. split; [exact (dexec_new _ _ _ E1)|]. split; [exact Hs|].
  assert (Ex : d_x s1 = d_x s) by (symmetry; apply Hs).
  assert (Et : d_t s1 = d_t s) by (symmetry; apply (proj2 Hs PT)).
  assert (Ed : d_d s1 = d_d s) by (symmetry; apply (proj2 Hs PD)).
  destruct (@HistoryDetail.press_hist ArithR dp_new V HV HL s1 K1) as (s2 & E2 & _).
  { left. now rewrite Ex, Et. }
  exists s2. cbn [dstep]. rewrite E2. cbn [bind]. rewrite Ex, Et, Ed.
  assert (Ha : xapart 0 (d_x s) (repeat (@f0 ArithR) 21)).
  { exists i. split; [lia|]. rewrite nth_repeat. exact (differs_0 _ Hx). }
  exact (f_equal (fun v : @F ArithR => Some (s2, OVal v)) (dpres_some New (d_x s) (d_t s) L Ha Ht (d_d s))).
Qed.

(* the history, and the two answers *)
Lemma d_drift_witness : exists d n s r s1 r1 s2 s3 (p q : R),
  dexec New (heating cmethane EM (4 * EM) d n) = Some (s, r) /\
  (forall i, Rabs (line EM (4 * EM) n (S i) - line EM (4 * EM) n i) <= 1 / 10000000) /\
  0 < d /\ dexec New (dcopy s) = Some (s1, r1) /\ dsame s s1 /\
  dstep Pressure s = Some (s2, OVal (A := ArithR) p) /\ dstep Pressure s1 = Some (s3, OVal (A := ArithR) q) /\ p < q.
Proof.
  destruct Z_moves as (d & Hd & HZ). destruct (line_exists EM (4 * EM)) as (n & _ & Hn).
  destruct (heat_stale cmethane EM (4 * EM) d n cm_check xm_some) as (s & r & E & X & T & D & s2 & E2);
    [unfold EM; lra|unfold EM; lra|exact Hn|].
  destruct (copy_press s) as (s1 & r1 & E1 & Hs & s3 & E3).
  - exists New, (heating cmethane EM (4 * EM) d n), r. exact E.
  - rewrite X. exact xm_some.
  - rewrite T. unfold EM. lra.
  - rewrite X, T, D in E3. exists d, n, s, r, s1, r1, s2, s3. do 2 eexists. split; [exact E|]. split; [apply Hn|].
    split; [exact Hd|]. split; [exact E1|]. split; [exact Hs|]. split; [exact E2|]. split; [exact E3|].
    change (fun i => nth i (fractions cmethane) 0) with xm. rewrite dpres_eos; [|exact xm_some|unfold EM; lra].
    unfold eos. apply Rmult_lt_compat_l; [|exact HZ]. unfold EM. apply Rmult_lt_0_compat; lra.
Qed.
Lemma d_history_false : ~ (forall k l l2 (s : @Detail ArithR) r, dexec k l = Some (s, r) ->
  exists s1 r1, dexec k (dcopy s) = Some (s1, r1) /\
  exists s2 s3 r2, drun l2 s = Some (s2, r2) /\ drun l2 s1 = Some (s3, r2) /\ dsame s2 s3).
Proof.
  intros H. destruct d_drift_witness as (d & n & s & r & s1 & r1 & s2 & s3 & p & q & E & _ & _ & E1 & _ & E2 & E3 & L).
  destruct (H New _ [Pressure] s r E) as (s1' & r1' & E1' & t2 & t3 & r2 & F2 & F3 & _).
  rewrite E1 in E1'. injection E1' as <- _. cbn [drun] in F2, F3. rewrite E2 in F2. rewrite E3 in F3. cbn [bind] in F2, F3.
  injection F2 as _ <-. injection F3 as _ E4. change (q = p) in E4. lra.
Qed.
Lemma d_drift : forall (c : @Composition ArithR) t0 t1 d, comp_check c = ROk ->
  (exists i, (i < 21)%nat /\ 1 / 10000000 < nth i (fractions c) 0) -> 1 / 10000000 < t0 -> 1 / 10000000 < t1 ->
  exists n s r, dexec New (heating c t0 t1 d n) = Some (s, r) /\
    d_x s = fractions c /\ d_t s = t1 /\ d_d s = d /\
    exists s', dstep Pressure s = Some (s', OVal (A := ArithR)
      (d * (831451 / 100000) * t1 * Zfactor (nn (fun i => nth i (fractions c) 0)) t0 d)).
Proof.
  intros c t0 t1 d Hc Hx H0 H1. destruct (line_exists t0 t1) as (n & _ & Hn). exists n. now apply heat_stale.
Qed.
