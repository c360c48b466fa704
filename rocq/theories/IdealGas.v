(* The fields properties() fills at zero density, over the reals, are those of SpecIdeal. *)
From Coq Require Import Reals ZArith List Bool Lra Lia.
From Coquelicot Require Import Coquelicot.
From Verif Require Import FArith Prelude Tab Composition DetailTables GergTables DetailModel GergModel Api ApiSafe
  ArithR RSum SpecReal SpecDetail SpecGerg SpecIdeal DetailPure DetailEval DetailReal DetailThermo DetailEos DetailLimit
  GergPure GergEval GergReal GergIdeal GergThermo GergEos GergLimit.
Import ListNotations.
Local Open Scope R_scope.
Local Existing Instance ArithR.

(* the coefficient tables *)
Definition dcell_is i j : bool :=
  match entry D_setup_n0i i j with Some v => lit_eqb v (nth j (nth i IG []) (L 0 0)) | None => false end.
Definition gcell_is i j : bool :=
  match entry G_setup_n0i (S i) (S j) with Some v => lit_eqb v (nth j (nth i IG []) (L 0 0)) | None => false end.
Definition th_is i j : bool :=
  (lit_eqb (nth (3 + j) (nth i D_TH0I []) (L 0 0)) (nth (7 + j) (nth i IG []) (L 0 0)) &&
   lit_eqb (nth (4 + j) (nth (S i) G_TH0I []) (L 0 0)) (nth (7 + j) (nth i IG []) (L 0 0)))%bool.
(* a temperature is at least 0.001 K, or zero together with its coefficient *)
Definition big (l : lit) : bool := let '(L m e) := l in (Z.ltb 0 m && Z.leb (-3) e)%bool.
Definition nil (l : lit) : bool := lit_eqb l (L 0 0).
Definition th_ok i j : bool :=
  let th := nth (7 + j) (nth i IG []) (L 0 0) in
  (big th || (nil th && nil (nth (3 + j) (nth i IG []) (L 0 0))))%bool.
Definition row_ok i : bool :=
  (forallb (fun j => dcell_is i j && gcell_is i j)%bool (seq 0 7) &&
   forallb (fun j => th_is i j && th_ok i j)%bool (seq 0 4))%bool.
Lemma ideal_tables_ok : forallb row_ok (seq 0 21) = true. Proof. vm_compute. reflexivity. Qed.
Lemma in_range a n i : (a <= i < a + n)%nat -> In i (seq a n).
Proof. intros H. apply in_seq. lia. Qed.
Lemma ideal_row i : (i < 21)%nat ->
  (forall j, (j < 7)%nat -> dcell_is i j = true /\ gcell_is i j = true) /\
  (forall j, (j < 4)%nat -> th_is i j = true /\ th_ok i j = true).
Proof.
  intros Hi. pose proof (proj1 (forallb_forall row_ok (seq 0 21)) ideal_tables_ok i (in_range 0 21 i ltac:(lia))) as H.
  unfold row_ok in H. apply andb_true_iff in H. destruct H as [H1 H2].
  rewrite forallb_forall in H1, H2. split; intros j Hj; apply andb_true_iff;
  [apply H1|apply H2]; apply in_range; lia.
Qed.
Lemma d_cell i j : (i < 21)%nat -> (j < 7)%nat -> cell D_setup_n0i i j = ig i j.
Proof.
  intros Hi Hj. destruct (proj1 (ideal_row i Hi) j Hj) as [H _]. unfold dcell_is in H. unfold cell, ig.
  destruct (entry D_setup_n0i i j); [|discriminate]. now rewrite (lit_eqb_ok _ _ H).
Qed.
Lemma g_cell i j : (i < 21)%nat -> (j < 7)%nat -> cell G_setup_n0i (S i) (S j) = ig i j.
Proof.
  intros Hi Hj. destruct (proj1 (ideal_row i Hi) j Hj) as [_ H]. unfold gcell_is in H. unfold cell, ig.
  destruct (entry G_setup_n0i (S i) (S j)); [|discriminate]. now rewrite (lit_eqb_ok _ _ H).
Qed.
Lemma d_th i j : (i < 21)%nat -> (j < 4)%nat -> @lv2 ArithR D_TH0I i (3 + j) = ig i (7 + j).
Proof.
  intros Hi Hj. destruct (proj2 (ideal_row i Hi) j Hj) as [H _]. apply andb_true_iff in H. destruct H as [H _].
  unfold lv2, ig. now rewrite (lit_eqb_ok _ _ H).
Qed.
Lemma g_th i j : (i < 21)%nat -> (j < 4)%nat -> @lv2 ArithR G_TH0I (S i) (4 + j) = ig i (7 + j).
Proof.
  intros Hi Hj. destruct (proj2 (ideal_row i Hi) j Hj) as [H _]. apply andb_true_iff in H. destruct H as [_ H].
  unfold lv2, ig. now rewrite (lit_eqb_ok _ _ H).
Qed.
Lemma big_ok l : big l = true -> 1 / 1000 <= Rlit l.
Proof.
  destruct l as [m e]. unfold big. intros H. apply andb_true_iff in H. destruct H as [H1 H2].
  apply Z.ltb_lt in H1. apply Z.leb_le in H2.
  assert (1 <= IZR m) as Hm by (apply IZR_le; lia).
  destruct e as [|p|p]; cbn [Rlit].
  - lra.
  - assert (0 < 10 ^ Z.pos p)%Z by (apply Z.pow_pos_nonneg; lia).
    assert (1 <= IZR (m * 10 ^ Z.pos p)); [|lra]. apply IZR_le. nia.
  - assert (p <= 3)%positive as Hp by lia.
    assert (p = 1 \/ p = 2 \/ p = 3)%positive as [->|[->| ->]] by lia;
    [change (10 ^ 1)%Z with 10%Z|change (10 ^ 2)%Z with 100%Z|change (10 ^ 3)%Z with 1000%Z]; lra.
Qed.
Lemma th_cases i j : (i < 21)%nat -> (j < 4)%nat ->
  1 / 1000 <= ig i (7 + j) \/ (ig i (7 + j) = 0 /\ ig i (3 + j) = 0).
Proof.
  intros Hi Hj. destruct (proj2 (ideal_row i Hi) j Hj) as [_ H]. unfold th_ok in H. cbv zeta in H.
  apply orb_true_iff in H. destruct H as [H|H]; [left; exact (big_ok _ H)|right].
  apply andb_true_iff in H. destruct H as [H1 H2]. unfold ig.
  split; [now rewrite (lit_eqb_ok _ _ H1)|now rewrite (lit_eqb_ok _ _ H2)].
Qed.

Lemma shy_sinh y : shy y = sinh y.
Proof. unfold shy, sinh. rewrite exp_Ropp. unfold Rdiv. ring. Qed.
Lemma chy_cosh y : chy y = cosh y.
Proof. unfold chy, cosh. rewrite exp_Ropp. unfold Rdiv. ring. Qed.
Lemma sinh_gt0 y : 0 < y -> 0 < sinh y.
Proof. intros H. rewrite <- shy_sinh. now apply shy_pos. Qed.
Lemma cosh_gt0 y : 0 < cosh y.
Proof. rewrite <- chy_cosh. apply chy_pos. Qed.

Section Detail.
Local Instance DN : @DParams ArithR := dp_new.
Variables (t : R).
Hypothesis Ht : 0 < t.
Lemma dq_hi i j : (i < 21)%nat -> (3 <= j < 7)%nat -> @q_n0i ArithR DN i j = ig i j.
Proof.
  intros Hi Hj. change (@q_n0i ArithR DN i j) with (@Dn0i ArithR i j). unfold Dn0i. cbv zeta.
  rewrite cell_aval, d_cell by lia.
  replace (Nat.eqb j 2) with false by (symmetry; apply Nat.eqb_neq; lia).
  replace (Nat.eqb j 0) with false by (symmetry; apply Nat.eqb_neq; lia). reflexivity.
Qed.
Lemma dq_0 i : (i < 21)%nat -> @q_n0i ArithR DN i 0 = ig i 0 - ln (@D0 ArithR).
Proof.
  intros Hi. change (@q_n0i ArithR DN i 0%nat) with (@Dn0i ArithR i 0%nat). unfold Dn0i. cbv zeta.
  rewrite cell_aval, d_cell by lia. reflexivity.
Qed.
Lemma dq_1 i : (i < 21)%nat -> @q_n0i ArithR DN i 1 = ig i 1.
Proof.
  intros Hi. change (@q_n0i ArithR DN i 1%nat) with (@Dn0i ArithR i 1%nat). unfold Dn0i. cbv zeta.
  rewrite cell_aval, d_cell by lia. reflexivity.
Qed.
Lemma dq_2 i : (i < 21)%nat -> @q_n0i ArithR DN i 2 = ig i 2 - 1.
Proof.
  intros Hi. change (@q_n0i ArithR DN i 2%nat) with (@Dn0i ArithR i 2%nat). unfold Dn0i. cbv zeta.
  rewrite cell_aval, d_cell by lia. reflexivity.
Qed.
Definition even_term (n th : R) : trip :=
  (n * ln (sinh (th / t)), n * ln (sinh (th / t)) - n * (th / t * coth (th / t)), n * (th / t / sinh (th / t)) ^ 2).
Definition odd_term (n th : R) : trip :=
  (- (n * ln (cosh (th / t))), n * (th / t * tanh (th / t)) - n * ln (cosh (th / t)), n * (th / t / cosh (th / t)) ^ 2).
Lemma ln_abs y : 0 < y -> ln (Rabs y) = ln y.
Proof. intros H. rewrite Rabs_right; [reflexivity|lra]. Qed.
Lemma hyp_even i j : (i < 21)%nat -> j = 0%nat \/ j = 2%nat ->
  @hyp_inc DN t i (3 + j) = even_term (ig i (3 + j)) (ig i (7 + j)).
Proof.
  intros Hi Hj. unfold hyp_inc. cbv zeta. rewrite d_th, dq_hi by lia.
  replace (Nat.eqb (3 + j) 3 || Nat.eqb (3 + j) 5)%bool with true by (destruct Hj as [-> | ->]; reflexivity).
  unfold even_term, coth. rewrite !shy_sinh, !chy_cosh.
  destruct (th_cases i j Hi ltac:(lia)) as [H|[H1 H2]].
  - replace (Rltb 0 (ig i (7 + j))) with true by (symmetry; apply Rltb_true; lra).
    assert (0 < ig i (7 + j) / t) as Hy by (apply Rdiv_lt_0_compat; lra).
    pose proof (sinh_gt0 _ Hy). rewrite ln_abs by assumption. f_equal; [f_equal|].
    + field. split; lra.
    + cbn [pow]. rar. ring.
  - rewrite H1, H2. replace (Rltb 0 0) with false by (symmetry; apply Rltb_false; lra).
    repeat f_equal; ring.
Qed.
Lemma hyp_odd i j : (i < 21)%nat -> j = 1%nat \/ j = 3%nat ->
  @hyp_inc DN t i (3 + j) = odd_term (ig i (3 + j)) (ig i (7 + j)).
Proof.
  intros Hi Hj. unfold hyp_inc. cbv zeta. rewrite d_th, dq_hi by lia.
  replace (Nat.eqb (3 + j) 3 || Nat.eqb (3 + j) 5)%bool with false by (destruct Hj as [-> | ->]; reflexivity).
  unfold odd_term, tanh. rewrite !shy_sinh, !chy_cosh. pose proof (cosh_gt0 (ig i (7 + j) / t)).
  destruct (th_cases i j Hi ltac:(lia)) as [H1|[H1 H2]].
  - replace (Rltb 0 (ig i (7 + j))) with true by (symmetry; apply Rltb_true; lra).
    rewrite ln_abs by assumption. f_equal; [f_equal|].
    + ring.
    + field. split; lra.
    + cbn [pow]. rar. ring.
  - rewrite H1, H2. replace (Rltb 0 0) with false by (symmetry; apply Rltb_false; lra).
    repeat f_equal; ring.
Qed.
Lemma phyp_ig i : (i < 21)%nat ->
  p3 (@phyp ArithR DN t i) = cp0 i t - ig i 2 /\
  t * (p1 (@phyp ArithR DN t i) - p2 (@phyp ArithR DN t i)) = h0 i t - ig i 1 - ig i 2 * t /\
  - p2 (@phyp ArithR DN t i) = s0 i t + ig i 0 - (ig i 2 - 1) * (1 + ln t).
Proof.
  intros Hi. unfold phyp. cbn [seq fold_left]. rewrite !hyp_step_inc.
  pose proof (hyp_even i 0 Hi (or_introl eq_refl)) as E0. pose proof (hyp_even i 2 Hi (or_intror eq_refl)) as E2.
  pose proof (hyp_odd i 1 Hi (or_introl eq_refl)) as E1. pose proof (hyp_odd i 3 Hi (or_intror eq_refl)) as E3.
  cbn [Nat.add] in E0, E1, E2, E3. rewrite E0, E1, E2, E3.
  unfold even_term, odd_term, cp0, h0, s0, p1, p2, p3. cbn [fst snd]. unfold f0. rar. cbn [Rlit].
  split; [ring|]. split; [field; lra|ring].
Qed.
End Detail.

(* the sums over the components *)
Lemma fold_trip (step : nat -> trip -> trip) (inc : nat -> trip) l :
  (forall i st, step i st = (p1 st + p1 (inc i), p2 st + p2 (inc i), p3 st + p3 (inc i))) ->
  forall st, fold_left (fun st i => step i st) l st
  = (p1 st + rsum (fun i => p1 (inc i)) l, p2 st + rsum (fun i => p2 (inc i)) l, p3 st + rsum (fun i => p3 (inc i)) l).
Proof.
  intros H. induction l as [|i l IH]; intros st; cbn [fold_left].
  - change (rsum _ []) with 0. rewrite !Rplus_0_r. destruct st as [[a b] c]. reflexivity.
  - rewrite IH, H, !rsum_cons, <- !Rplus_assoc. reflexivity.
Qed.
Lemma xlnx_split x : Rmax 0 x = if Rltb 0 x then x else 0.
Proof. unfold Rltb. destruct (Rlt_dec 0 x); [rewrite Rmax_right|rewrite Rmax_left]; lra. Qed.

Lemma p1E (a b c : R) : p1 (a, b, c) = a. Proof. reflexivity. Qed.
Lemma p2E (a b c : R) : p2 (a, b, c) = b. Proof. reflexivity. Qed.
Lemma p3E (a b c : R) : p3 (a, b, c) = c. Proof. reflexivity. Qed.
Lemma rsum_minus {T} (f g : T -> R) l : rsum f l - rsum g l = rsum (fun n => f n - g n) l.
Proof. unfold Rminus at 1. rewrite <- rsum_opp, <- rsum_plus. apply rsum_ext. intros. ring. Qed.
Section DetailApi.
Local Existing Instance DN.
Variables (x : nat -> R) (t : R).
Hypothesis Ht : 1 / 10000000 < t.
Let Ht0 : 0 < t. Proof. lra. Qed.
Local Notation PA := (@pa0sum ArithR DN (dX x) t 0).
Lemma pa_sum : PA = (rsum (fun i => p1 (@a0_inc DN (dX x) t 0 i)) (seq 0 21),
  rsum (fun i => p2 (@a0_inc DN (dX x) t 0 i)) (seq 0 21), rsum (fun i => p3 (@a0_inc DN (dX x) t 0 i)) (seq 0 21)).
Proof.
  unfold pa0sum. rewrite (fold_trip (fun i st => @a0_step ArithR DN (dX x) t 0 i st) (@a0_inc DN (dX x) t 0)) by (intros; apply a0_step_inc).
  rewrite p1E, p2E, p3E. unfold f0. rar. cbn [Rlit]. now rewrite !Rplus_0_l.
Qed.
Lemma ln_eps : @plogd ArithR 0 = ln (1 / 1000000000000000).
Proof.
  unfold plogd. rar. rewrite lit15. unfold Rltb. destruct (Rlt_dec _ _); [lra|reflexivity].
Qed.
Lemma D0_ref : @D0 ArithR = ref_density RD.
Proof.
  unfold D0, ref_density, RDETAIL, RD, T0. rar. cbn [Rlit].
  change (10 ^ 3)%Z with 1000%Z. change (10 ^ 5)%Z with 100000%Z. change (10 ^ 2)%Z with 100%Z. field.
Qed.
Lemma ref_pos r : 0 < r -> 0 < ref_density r.
Proof. intros H. unfold ref_density, T0. apply Rdiv_lt_0_compat; [lra|]. apply Rmult_lt_0_compat; lra. Qed.
Lemma pa_cv : - p3 PA = sum 21 (fun i => nn x i * (cp0 i t - 1)).
Proof.
  rewrite pa_sum. rewrite p3E. rewrite sum_rsum, <- rsum_opp. apply rsum_ext. intros i Hi. apply in_seq in Hi.
  unfold a0_inc, nn. rewrite dX_i, xlnx_split by lia. destruct (Rltb 0 (x i)); rewrite p3E; [|ring].
  rewrite dq_2 by lia. rewrite (proj1 (phyp_ig t Ht0 i ltac:(lia))). ring.
Qed.
Lemma pa_u : t * (p1 PA - p2 PA) = sum 21 (fun i => nn x i * (h0 i t - t)).
Proof.
  rewrite pa_sum. rewrite p1E, p2E.
  rewrite sum_rsum, rsum_minus, <- rsum_scal. apply rsum_ext. intros i Hi. apply in_seq in Hi.
  unfold a0_inc, nn. rewrite dX_i, xlnx_split by lia. destruct (Rltb 0 (x i)); rewrite p1E, p2E; [|ring].
  rewrite dq_1, dq_2 by lia. destruct (phyp_ig t Ht0 i ltac:(lia)) as (_ & E & _).
  replace (h0 i t) with (t * (p1 (@phyp ArithR DN t i) - p2 (@phyp ArithR DN t i)) + ig i 1 + ig i 2 * t) by lra.
  field. lra.
Qed.
Lemma pa_s : - p2 PA = sum 21 (fun i => nn x i * (s0 i t - ln (1 / 1000000000000000 / ref_density RD) - ln (nn x i))).
Proof.
  rewrite pa_sum. rewrite p2E.
  rewrite sum_rsum, <- rsum_opp. apply rsum_ext. intros i Hi. apply in_seq in Hi.
  unfold a0_inc, nn. rewrite dX_i, xlnx_split by lia. destruct (Rltb 0 (x i)); rewrite p2E; [|ring].
  rewrite dq_0, dq_2, ln_eps, D0_ref by lia. destruct (phyp_ig t Ht0 i ltac:(lia)) as (_ & _ & E).
  rewrite (ln_div (1 / 1000000000000000) (ref_density RD)); [|lra|apply ref_pos; unfold RD; lra].
  replace (s0 i t) with (- p2 (@phyp ArithR DN t i) - ig i 0 + (ig i 2 - 1) * (1 + ln t)) by lra. ring.
Qed.
(* the residual terms vanish *)
Lemma ts0_zero n : (n < 58)%nat -> @ts0 ArithR (dk New x t) (dr (dk New x t) 0) 0 n = 0.
Proof.
  intros Hn. assert (E : @dr ArithR (dk New x t) 0 = 0) by (unfold dr; rar; ring). rewrite E.
  unfold ts0, tsumb, tsum0. rewrite !fpw_pow. unfold bn. pose proof (bn_ge1 n Hn).
  rewrite pow_i by lia. unfold f0. rar. cbn [Rlit].
  destruct (Nat.leb 12 n), (Nat.leb n 17); ring.
Qed.
Lemma facc_zero g : (forall n, (n < 58)%nat -> g n = 0) -> @facc ArithR g = 0.
Proof.
  intros H. rewrite facc_rsum, (rsum_ext _ (fun _ => 0)), rsum_0; [reflexivity|].
  intros n Hn. apply in_seq in Hn. apply H. lia.
Qed.
Lemma fdec_zero g : (forall n, (n < 58)%nat -> g n = 0) -> @fdec ArithR g = 0.
Proof.
  intros H. unfold fdec. etransitivity; [exact (rsum_fold_minus g (seq 0 58) f0)|].
  rewrite (rsum_ext _ (fun _ => 0)), rsum_0; [unfold f0; rar; cbn [Rlit]; ring|].
  intros n Hn. apply in_seq in Hn. apply H. lia.
Qed.
Lemma ar00_zero : @ar00 ArithR (dk New x t) t 0 = 0.
Proof. apply facc_zero. intros n Hn. rewrite ts0_zero by assumption. rar. ring. Qed.
Lemma ar10_zero : @ar10 ArithR (dk New x t) 0 = 0.
Proof. apply fdec_zero. intros n Hn. rewrite ts0_zero by assumption. rar. ring. Qed.
Lemma ar20_zero : @ar20 ArithR (dk New x t) 0 = 0.
Proof. apply facc_zero. intros n Hn. rewrite ts0_zero by assumption. rar. ring. Qed.
Lemma RD_eq : @RDETAIL ArithR = RD. Proof. reflexivity. Qed.
Lemma d_ideal_cv : dprop New PCv x t 0 = mix_cv RD (nn x) t.
Proof.
  rewrite dprop_ok by exact Ht. rewrite v_cv. change (dpar New) with DN. cbv beta. rewrite ar20_zero.
  destruct (@pa0_entries DN (dX x) t 0) as (_ & _ & ->). unfold mix_cv. rewrite <- pa_cv, RD_eq. ring.
Qed.
Lemma sum_scal n c f : sum n (fun i => c * f i) = c * sum n f.
Proof. rewrite !sum_rsum. apply rsum_scal. Qed.
Lemma sum_plus' n f g : sum n (fun i => f i + g i) = sum n f + sum n g.
Proof. rewrite !sum_rsum. apply rsum_plus. Qed.
Lemma sum_ext' n f g : (forall i, (i < n)%nat -> f i = g i) -> sum n f = sum n g.
Proof. intros H. rewrite !sum_rsum. apply rsum_ext. intros i Hi. apply in_seq in Hi. apply H. lia. Qed.
Lemma mix_u_split rs y : rs * sum 21 (fun i => y i * (h0 i t - t)) = mix_h rs y t - rs * t * sum 21 y.
Proof.
  unfold mix_h. rewrite (sum_ext' 21 (fun i => y i * (h0 i t - t)) (fun i => y i * h0 i t + (- t) * y i)) by (intros; ring).
  rewrite sum_plus', sum_scal. ring.
Qed.
Lemma d_ideal_u : dprop New PU x t 0 = mix_h RD (nn x) t - RD * t * sum 21 (nn x).
Proof.
  rewrite dprop_ok by exact Ht. rewrite v_u. change (dpar New) with DN. cbv beta. rewrite ar00_zero, ar10_zero.
  destruct (@pa0_entries DN (dX x) t 0) as (-> & -> & _). rewrite <- mix_u_split, <- pa_u, RD_eq. ring.
Qed.
Lemma d_ideal_h : dprop New PH x t 0 = mix_h RD (nn x) t - RD * t * (sum 21 (nn x) - 1).
Proof. rewrite low_h by (assumption || lra). rewrite d_ideal_u. unfold RD. ring. Qed.
Lemma d_ideal_cp : dprop New PCp x t 0 = mix_cv RD (nn x) t + RD.
Proof. rewrite low_cp by (assumption || lra). rewrite d_ideal_cv. reflexivity. Qed.
Lemma d_ideal_s : dprop New PS x t 0 = mix_s RD RD (nn x) t (1 / 1000000000000000).
Proof.
  rewrite dprop_ok by exact Ht. rewrite v_s. change (dpar New) with DN. cbv beta. rewrite ar10_zero.
  destruct (@pa0_entries DN (dX x) t 0) as (_ & -> & _).
  transitivity (RD * (- p2 PA)); [rewrite RD_eq; ring|]. rewrite pa_s. unfold mix_s.
  rewrite <- sum_scal. apply sum_ext'. intros i _. ring.
Qed.
End DetailApi.

Section Gerg.
Local Instance GN : @GParams ArithR := gp_new.
Variables (t : R).
Hypothesis Ht : 0 < t.
Local Notation rsr := (@RSR ArithR).
Lemma gq_hi i j : (i < 21)%nat -> (3 <= j < 7)%nat -> @gq_n0i ArithR GN (S i) (S j) = ig i j * rsr.
Proof.
  intros Hi Hj. change (@gq_n0i ArithR GN (S i) (S j)) with (@Gn0i ArithR (S i) (S j)). unfold Gn0i. cbv zeta.
  rewrite cell_aval, g_cell by lia. cbn [Nat.eqb]. destruct j as [|[|[|j]]]; [lia..|reflexivity].
Qed.
Lemma gq_1 i : (i < 21)%nat -> @gq_n0i ArithR GN (S i) 1 = ig i 0 * rsr - ln (@GD0 ArithR).
Proof.
  intros Hi. change (@gq_n0i ArithR GN (S i) 1%nat) with (@Gn0i ArithR (S i) 1%nat). unfold Gn0i. cbv zeta.
  rewrite cell_aval, g_cell by lia. reflexivity.
Qed.
Lemma gq_2 i : (i < 21)%nat -> @gq_n0i ArithR GN (S i) 2 = (ig i 1 + T0) * rsr - T0.
Proof.
  intros Hi. change (@gq_n0i ArithR GN (S i) 2%nat) with (@Gn0i ArithR (S i) 2%nat). unfold Gn0i. cbv zeta.
  rewrite cell_aval, g_cell by lia. reflexivity.
Qed.
Lemma gq_3 i : (i < 21)%nat -> @gq_n0i ArithR GN (S i) 3 = (ig i 2 - 1) * rsr.
Proof.
  intros Hi. change (@gq_n0i ArithR GN (S i) 3%nat) with (@Gn0i ArithR (S i) 3%nat). unfold Gn0i. cbv zeta.
  rewrite cell_aval, g_cell by lia. reflexivity.
Qed.
Definition geven (n th : R) : trip :=
  (n * ln (sinh (th / t)), n * (th / t * coth (th / t)), n * (th / t / sinh (th / t)) ^ 2).
Definition godd (n th : R) : trip :=
  (- (n * ln (cosh (th / t))), - (n * (th / t * tanh (th / t))), n * (th / t / cosh (th / t)) ^ 2).
Lemma ghyp_even i j : (i < 21)%nat -> j = 0%nat \/ j = 2%nat ->
  @ghyp_inc GN t (S i) (4 + j) = geven (ig i (3 + j) * rsr) (ig i (7 + j)).
Proof.
  intros Hi Hj. unfold ghyp_inc. cbv zeta. rewrite g_th by lia.
  change (4 + j)%nat with (S (3 + j)). rewrite gq_hi by lia.
  replace (Nat.eqb (S (3 + j)) 4 || Nat.eqb (S (3 + j)) 6)%bool with true by (destruct Hj as [-> | ->]; reflexivity).
  unfold geven, coth. rewrite !shy_sinh, !chy_cosh.
  destruct (th_cases i j Hi ltac:(lia)) as [H|[H1 H2]].
  - replace (Rltb (@GEPSILON ArithR) (ig i (7 + j))) with true by (symmetry; apply Rltb_true; rewrite glit15; lra).
    assert (0 < ig i (7 + j) / t) as Hy by (apply Rdiv_lt_0_compat; lra).
    pose proof (sinh_gt0 _ Hy). rewrite ln_abs by assumption. f_equal; [f_equal|].
    + field. split; lra.
    + cbn [pow]. rar. ring.
  - rewrite H1, H2. replace (Rltb (@GEPSILON ArithR) 0) with false by (symmetry; apply Rltb_false; rewrite glit15; lra).
    repeat f_equal; ring.
Qed.
Lemma ghyp_odd i j : (i < 21)%nat -> j = 1%nat \/ j = 3%nat ->
  @ghyp_inc GN t (S i) (4 + j) = godd (ig i (3 + j) * rsr) (ig i (7 + j)).
Proof.
  intros Hi Hj. unfold ghyp_inc. cbv zeta. rewrite g_th by lia.
  change (4 + j)%nat with (S (3 + j)). rewrite gq_hi by lia.
  replace (Nat.eqb (S (3 + j)) 4 || Nat.eqb (S (3 + j)) 6)%bool with false by (destruct Hj as [-> | ->]; reflexivity).
  unfold godd, tanh. rewrite !shy_sinh, !chy_cosh. pose proof (cosh_gt0 (ig i (7 + j) / t)).
  destruct (th_cases i j Hi ltac:(lia)) as [H1|[H1 H2]].
  - replace (Rltb (@GEPSILON ArithR) (ig i (7 + j))) with true by (symmetry; apply Rltb_true; rewrite glit15; lra).
    rewrite ln_abs by assumption. f_equal; [f_equal|].
    + field. split; lra.
    + cbn [pow]. rar. ring.
  - rewrite H1, H2. replace (Rltb (@GEPSILON ArithR) 0) with false by (symmetry; apply Rltb_false; rewrite glit15; lra).
    repeat f_equal; ring.
Qed.
Lemma ghyp_ig i : (i < 21)%nat ->
  p3 (@ghyp ArithR GN t (S i)) = (cp0 i t - ig i 2) * rsr /\
  t * p2 (@ghyp ArithR GN t (S i)) = (h0 i t - ig i 1 - ig i 2 * t) * rsr /\
  p2 (@ghyp ArithR GN t (S i)) - p1 (@ghyp ArithR GN t (S i)) = (s0 i t + ig i 0 - (ig i 2 - 1) * (1 + ln t)) * rsr.
Proof.
  intros Hi. unfold ghyp. cbn [seq fold_left]. rewrite !ghyp_step_inc.
  pose proof (ghyp_even i 0 Hi (or_introl eq_refl)) as E0. pose proof (ghyp_even i 2 Hi (or_intror eq_refl)) as E2.
  pose proof (ghyp_odd i 1 Hi (or_introl eq_refl)) as E1. pose proof (ghyp_odd i 3 Hi (or_intror eq_refl)) as E3.
  cbn [Nat.add] in E0, E1, E2, E3. rewrite E0, E1, E2, E3.
  unfold geven, godd, cp0, h0, s0, p1, p2, p3. cbn [fst snd]. unfold f0. rar. cbn [Rlit].
  split; [ring|]. split; [field; lra|ring].
Qed.
End Gerg.

Section GergApi.
Local Existing Instance GN.
Variables (x : nat -> R) (t : R).
Hypothesis Hs : some_present x.
Hypothesis Ht : 1 / 10000000 < t.
Let Ht0 : 0 < t. Proof. lra. Qed.
Local Notation PA := (@ga0sum ArithR GN (gX x) t 0).
Local Notation inc := (@ga0_inc GN (gX x) t 0).
Lemma ga_sum : PA = (rsum (fun i => p1 (inc i)) (seq 1 21), rsum (fun i => p2 (inc i)) (seq 1 21), rsum (fun i => p3 (inc i)) (seq 1 21)).
Proof.
  unfold ga0sum. rewrite (fold_trip (fun i st => @ga0_step ArithR GN (gX x) t 0 i st) inc) by (intros; apply ga0_step_inc).
  rewrite p1E, p2E, p3E. unfold f0. rar. cbn [Rlit]. now rewrite !Rplus_0_l.
Qed.
Lemma gln_eps : @glogd ArithR 0 = ln (1 / 1000000000000000).
Proof.
  unfold glogd. rar. rewrite glit15. unfold Rltb. destruct (Rlt_dec _ _); [lra|reflexivity].
Qed.
Lemma GD0_ref : @GD0 ArithR = ref_density Rg.
Proof.
  unfold GD0, GT0, ref_density, RGERG, Rg, T0. rar. cbn [Rlit].
  change (10 ^ 3)%Z with 1000%Z. change (10 ^ 6)%Z with 1000000%Z. change (10 ^ 2)%Z with 100%Z. field.
Qed.
Lemma Rg_rsr : Rg * @RSR ArithR = RD.
Proof.
  unfold RSR, RGERG, Rg, RD. rar. cbn [Rlit].
  change (10 ^ 6)%Z with 1000000%Z. change (10 ^ 5)%Z with 100000%Z. field.
Qed.
Lemma sum_shift f : rsum f (seq 1 21) = sum 21 (fun i => f (S i)).
Proof. rewrite sum_rsum, <- seq_shift, rsum_map. reflexivity. Qed.
Local Notation y := (down (ac x)).
Lemma inc_present i : (i < 21)%nat -> @ga0_inc GN (gX x) t 0 (S i) =
  if Rltb (@GEPSILON ArithR) (x (S i)) then
    (y i * (@glogd ArithR 0 + ln (y i) + @gq_n0i ArithR GN (S i) 1 + @gq_n0i ArithR GN (S i) 2 / t - @gq_n0i ArithR GN (S i) 3 * ln t + p1 (@ghyp ArithR GN t (S i))),
     y i * (@gq_n0i ArithR GN (S i) 3 + @gq_n0i ArithR GN (S i) 2 / t + p2 (@ghyp ArithR GN t (S i))),
     - y i * (@gq_n0i ArithR GN (S i) 3 + p3 (@ghyp ArithR GN t (S i))))
  else (0, 0, 0).
Proof.
  intros Hi. unfold ga0_inc. unfold gX. rewrite gxl_i by lia. unfold down, ac. rewrite <- glit15.
  unfold Rltb. destruct (Rlt_dec _ _); reflexivity.
Qed.
Lemma y_absent i : Rltb (@GEPSILON ArithR) (x (S i)) = false -> y i = 0.
Proof. unfold down, ac. rewrite <- glit15. unfold Rltb. now destruct (Rlt_dec _ _). Qed.
Lemma ga_cv : - Rg * p3 PA = mix_cv RD y t.
Proof.
  rewrite ga_sum, p3E, sum_shift. unfold mix_cv. rewrite <- !sum_scal. apply sum_ext'. intros i Hi.
  rewrite inc_present by assumption. destruct (Rltb _ _) eqn:E; rewrite p3E; [|rewrite (y_absent i E); ring].
  rewrite gq_3 by assumption. rewrite (proj1 (ghyp_ig t Ht0 i Hi)), <- Rg_rsr. ring.
Qed.
Lemma ga_u : Rg * t * p2 PA = mix_h RD y t - RD * t * sum 21 y + (RD - Rg) * T0 * sum 21 y.
Proof.
  rewrite <- mix_u_split. rewrite ga_sum, p2E, sum_shift. rewrite <- !sum_scal, <- sum_plus'.
  apply sum_ext'. intros i Hi.
  rewrite inc_present by assumption. destruct (Rltb _ _) eqn:E; rewrite p2E; [|rewrite (y_absent i E); ring].
  rewrite gq_3, gq_2 by assumption. destruct (ghyp_ig t Ht0 i Hi) as (_ & K & _). rewrite <- Rg_rsr.
  transitivity (Rg * y i * ((ig i 2 - 1) * RSR * t + ((ig i 1 + T0) * RSR - T0) + t * p2 (@ghyp ArithR GN t (S i)))).
  { field. lra. } rewrite K. ring.
Qed.
Lemma ga_s : Rg * (p2 PA - p1 PA) = mix_s Rg RD y t (1 / 1000000000000000).
Proof.
  rewrite ga_sum, p1E, p2E, rsum_minus, sum_shift, <- sum_scal. unfold mix_s. apply sum_ext'. intros i Hi.
  rewrite inc_present by assumption. destruct (Rltb _ _) eqn:E; rewrite p1E, p2E; [|rewrite (y_absent i E); ring].
  rewrite gq_3, gq_2, gq_1, gln_eps, GD0_ref by assumption. destruct (ghyp_ig t Ht0 i Hi) as (_ & _ & K).
  rewrite (ln_div (1 / 1000000000000000) (ref_density Rg)); [|lra|apply ref_pos; unfold Rg; lra].
  replace (p2 (@ghyp ArithR GN t (S i))) with (p1 (@ghyp ArithR GN t (S i)) + (s0 i t + ig i 0 - (ig i 2 - 1) * (1 + ln t)) * RSR) by lra.
  rewrite <- Rg_rsr. ring.
Qed.
(* the residual terms vanish *)
Local Notation A e t d := (@AR GN (gxl x) e t d).
Lemma alpha_zero : forall z tau, alphar z 0 tau = 0.
Proof.
  intros z tau. unfold alphar.
  assert (forall i, (1 <= i < 22)%nat -> alpha_o 0 tau i = 0) as H1.
  { intros i Hi. unfold alpha_o. cbv zeta. rewrite !sumf_rsum.
    rewrite (rsum_ext _ (fun _ => 0)), rsum_0. 2:{ intros k Hk. apply in_seq in Hk.
      destruct (table_exps i k Hi) as [[H _] _]; [unfold kpol, kexp; lia|]. rewrite pow_i by lia. ring. }
    rewrite (rsum_ext _ (fun _ => 0)), rsum_0. 2:{ intros k Hk. apply in_seq in Hk.
      destruct (table_exps i k Hi) as [[H _] _]; [unfold kpol, kexp; lia|]. rewrite pow_i by lia. ring. }
    ring. }
  assert (forall m, In m models -> alpha_m 0 tau m = 0) as H2.
  { intros m Hm. unfold alpha_m. cbv zeta. rewrite !sumf_rsum.
    rewrite (rsum_ext _ (fun _ => 0)), rsum_0. 2:{ intros k Hk. apply in_seq in Hk.
      destruct (mexps_at m k Hm) as [_ H]; [unfold kpolij, kexpij; lia|]. rewrite pow_i by lia. ring. }
    rewrite (rsum_ext _ (fun _ => 0)), rsum_0. 2:{ intros k Hk. apply in_seq in Hk.
      destruct (mexps_at m k Hm) as [_ H]; [unfold kpolij, kexpij; lia|]. rewrite pow_i by lia. ring. }
    ring. }
  rewrite sumf_rsum, (rsum_ext _ (fun _ => 0)), rsum_0.
  2:{ intros i Hi. apply in_seq in Hi. rewrite H1 by lia. ring. }
  unfold pairs1, pairs. rewrite sum_zero; [ring|]. intros j Hj. apply sum_zero. intros i Hi.
  unfold departure. pose proof (mnumb_in (S i) (S j) ltac:(lia) ltac:(lia)) as K. unfold mnumb, nv2 in K.
  destruct (nth (S j) (nth (S i) G_MNUMB []) 0%nat) as [|m] eqn:E; [reflexivity|].
  rewrite H2 by (apply K; lia). ring.
Qed.
Lemma A0_zero s : A 0%nat s 0 = 0.
Proof.
  etransitivity; [exact (AR0_alphar (gxl x) s 0)|]. unfold Rdiv at 1. rewrite Rmult_0_l. apply alpha_zero.
Qed.
End GergApi.
Lemma zero_diff t (Ht0 : 0 < t) (f : R -> R) h : (forall s, 0 < s -> f s = 0) -> is_derive f t h -> h = 0.
Proof.
  intros H D. rewrite <- (is_derive_unique _ _ _ D).
  apply is_derive_unique. apply (is_derive_ext_loc (fun _ => 0)); [|apply (@is_derive_const R_AbsRing R_NormedModule)].
  exists (mkposreal t Ht0). intros s Hb. symmetry. apply H. unfold ball in Hb. cbn in Hb. unfold AbsRing_ball, abs, minus, plus, opp in Hb.
  cbn in Hb. apply Rabs_lt_between in Hb. lra.
Qed.
Section GergZero.
Local Existing Instance GN.
Variables (x : nat -> R).
Hypothesis Hs : some_present x.
Local Notation A e t d := (@AR GN (gxl x) e t d).
Lemma A4_zero t : 0 < t -> A 4%nat t 0 = 0.
Proof.
  intros Ht. destruct (@A_good New x Hs t 0 Ht) as ((h1 & h2 & E1 & _ & G) & _). cbv beta in *. change (gpar New) with GN in *.
  assert (h1 = 0) as ->; [|lra]. apply (zero_diff t Ht (fun s => A 0%nat s 0)); [intros; apply A0_zero|].
  replace h1 with (h1 * 1 + h2 * 0) by ring.
  apply (G (fun s => s) (fun _ => 0)); [reflexivity|reflexivity|apply (@is_derive_id R_AbsRing)|apply (@is_derive_const R_AbsRing R_NormedModule)].
Qed.
Lemma A7_zero t : 0 < t -> A 7%nat t 0 = 0.
Proof.
  intros Ht. destruct (@A_good New x Hs t 0 Ht) as (_ & _ & _ & (h1 & h2 & E1 & _ & G)). cbv beta in *. change (gpar New) with GN in *.
  rewrite (A4_zero t Ht) in E1.
  assert (h1 = 0) as ->; [|lra]. apply (zero_diff t Ht (fun s => A 4%nat s 0)); [intros; now apply A4_zero|].
  replace h1 with (h1 * 1 + h2 * 0) by ring.
  apply (G (fun s => s) (fun _ => 0)); [reflexivity|reflexivity|apply (@is_derive_id R_AbsRing)|apply (@is_derive_const R_AbsRing R_NormedModule)].
Qed.
Lemma A1_zero t : 0 < t -> A 1%nat t 0 = 0.
Proof.
  intros Ht. destruct (@A_good New x Hs t 0 Ht) as ((h1 & h2 & _ & E2 & _) & _). cbv beta in E2.
  rewrite Rmult_0_l in E2. change (gpar New) with GN in *. now symmetry.
Qed.
Lemma A2_zero t : 0 < t -> A 2%nat t 0 = 0.
Proof.
  intros Ht. destruct (@A_good New x Hs t 0 Ht) as (_ & (h1 & h2 & _ & E2 & _) & _). cbv beta in E2.
  change (gpar New) with GN in *. rewrite Rmult_0_l, A1_zero, Rplus_0_l in E2 by assumption. now symmetry.
Qed.
Variable t : R.
Hypothesis Ht : 1 / 10000000 < t.
Let Ht0 : 0 < t. Proof. lra. Qed.
Local Notation y := (down (ac x)).
Lemma g_ideal_cv : gprop New PCv x t 0 = mix_cv RD y t.
Proof.
  rewrite gprop_ok by assumption. rewrite w_cv. change (gpar New) with GN. cbv beta. rewrite A7_zero by assumption.
  destruct (@ga0_entries GN (gX x) t 0) as (_ & _ & ->). rewrite <- (ga_cv x t Ht).
  replace (@RGERG ArithR) with Rg by reflexivity. ring.
Qed.
Lemma g_ideal_u : gprop New PU x t 0 = mix_h RD y t - RD * t * sum 21 y + (RD - Rg) * T0 * sum 21 y.
Proof.
  rewrite gprop_ok by assumption. rewrite w_u. change (gpar New) with GN. cbv beta. rewrite A4_zero by assumption.
  destruct (@ga0_entries GN (gX x) t 0) as (_ & -> & _). rewrite <- (ga_u x t Ht).
  replace (@RGERG ArithR) with Rg by reflexivity. ring.
Qed.
Lemma g_ideal_h : gprop New PH x t 0 = mix_h RD y t - (RD * t - (RD - Rg) * T0) * sum 21 y + Rg * t.
Proof.
  rewrite g_low_h by (assumption || lra). rewrite g_ideal_u.
  replace (gprop New PZ x t 0) with 1; [ring|]. rewrite gprop_ok by assumption.
  change (1 = 1 + A 1%nat t 0). rewrite A1_zero by assumption. ring.
Qed.
Lemma g_ideal_cp : gprop New PCp x t 0 = mix_cv RD y t + Rg.
Proof. rewrite g_low_cp by (assumption || lra). now rewrite g_ideal_cv. Qed.
Lemma g_ideal_s : gprop New PS x t 0 = mix_s Rg RD y t (1 / 1000000000000000).
Proof.
  rewrite gprop_ok by assumption. rewrite w_s. change (gpar New) with GN. cbv beta. rewrite A4_zero, A0_zero by assumption.
  destruct (@ga0_entries GN (gX x) t 0) as (-> & -> & _). rewrite <- (ga_s x t Ht).
  replace (@RGERG ArithR) with Rg by reflexivity. ring.
Qed.
End GergZero.
