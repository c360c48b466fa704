(* Newton's iteration with an error in every step still converges where the gas is nearly ideal. *)
From Coq Require Import Reals ZArith List Bool Lra Lia Psatz.
From Coquelicot Require Import Coquelicot.
From Interval Require Import Tactic.
From Verif Require Import Newton Converge.
Local Open Scope R_scope.

Section N.
Variables (p q : R -> R) (P d0 : R).
Hypothesis Hd0 : 0 < d0.
Hypothesis HP : 0 < P.
Hypothesis D : forall d, 0 < d -> is_derive p d (q d).
Hypothesis H : forall d, d0 / 3 <= d <= 3 * d0 -> 0 < p d /\ 5 / 6 * p d <= d * q d <= 7 / 6 * p d.
Hypothesis H0 : 2 / 3 * P <= p d0 <= 3 / 2 * P.
Let v0 := - ln d0.
Let f := fN p (ln P).
Let f' := fN1 p q.
Local Notation eta := (1 / 100000000).
Definition fair n v := Rabs (v - v0) <= 812 / 1000 * (1 - (2 / 5) ^ n) + 5 * eta * (INR n + 1) /\ Rabs (f v) <= 406 / 1000 * (2 / 5) ^ n + 3 * eta.
Lemma fair_start u : Rabs (u - v0) <= eta -> fair 0 u.
Proof.
  intros Hu. assert (N0 : Rabs (v0 - v0) <= 1) by (rewrite Rminus_eq_0, Rabs_R0; lra). assert (N1 : Rabs (u - v0) <= 1) by lra.
  destruct (mean p q P d0 Hd0 D H v0 u N0 N1) as (c & Hc & E). destruct (near_p p q d0 Hd0 H c Hc) as [_ C].
  pose proof (f_v0 p P d0 Hd0 HP H0) as F0. fold v0 f in F0. fold f f' in E. fold f' in C. split; [cbn [pow INR]; lra|].
  replace (f u) with ((f u - f v0) + f v0) by ring. eapply Rle_trans; [apply Rabs_triang|]. rewrite E, Rabs_mult, (Rabs_left (f' c)) by lra.
  pose proof (Rabs_pos (u - v0)). cbn [pow]. assert (- f' c * Rabs (u - v0) <= 7 / 6 * eta) by nra. lra.
Qed.
Lemma fair_near n v : (n <= 20)%nat -> fair n v -> Rabs (v - v0) <= 1.
Proof. intros Hn [G _]. pose proof (pow_box n). assert (INR n <= 20) by (rewrite INR_IZR_INZ; apply IZR_le; lia). lra. Qed.
Lemma fair_next n v v' : (n < 20)%nat -> fair n v -> Rabs (v' - (v - step p q P v)) <= eta -> fair (S n) v' /\ Rabs (f v') <= 2 / 5 * Rabs (f v) + 7 / 6 * eta.
Proof.
  intros Hn G Hv'. pose proof (fair_near n v ltac:(lia) G) as Hv. destruct (step_size p q P d0 Hd0 H v Hv) as [_ Hw]. destruct G as [G1 G2]. pose proof (pow_box n) as Pn.
  fold f in Hw. assert (Hn' : INR n <= 20) by (rewrite INR_IZR_INZ; apply IZR_le; lia). pose proof (pos_INR n) as Nn.
  set (w := step p q P v) in *. apply Rabs_le_inv in Hv' as Hv1.
  assert (T0 : Rabs (v - w - v0) <= 812 / 1000 * (1 - (2 / 5) ^ S n) + 5 * eta * (INR n + 1) + 36 / 10 * eta).
  { replace (v - w - v0) with ((v - v0) + - w) by ring. eapply Rle_trans; [apply Rabs_triang|]. rewrite Rabs_Ropp. cbn [pow]. lra. }
  assert (T : Rabs (v' - v0) <= 812 / 1000 * (1 - (2 / 5) ^ S n) + 5 * eta * (INR (S n) + 1)).
  { rewrite S_INR. replace (v' - v0) with ((v' - (v - w)) + (v - w - v0)) by ring. eapply Rle_trans; [apply Rabs_triang|]. lra. }
  pose proof (pow_box (S n)) as PS. assert (Hu : Rabs (v - w - v0) <= 1) by lra. assert (Hu' : Rabs (v' - v0) <= 1) by (rewrite S_INR in T; lra).
  destruct (mean p q P d0 Hd0 D H v (v - w) Hv Hu) as (c & Hc & E). destruct (near_p p q d0 Hd0 H v Hv) as [_ B]. destruct (near_p p q d0 Hd0 H c Hc) as [_ C].
  destruct (mean p q P d0 Hd0 D H (v - w) v' Hu Hu') as (c2 & Hc2 & E2). destruct (near_p p q d0 Hd0 H c2 Hc2) as [_ C2].
  fold f f' in E, E2. fold f' in B, C, C2. pose proof (step_eq p q P d0 Hd0 H v Hv) as SE. fold f f' w in SE.
  assert (F : Rabs (f (v - w)) <= 2 / 5 * Rabs (f v)).
  { assert (Ef : f (v - w) = f v * (1 - f' c / f' v)).
    { replace (f (v - w)) with (f v + (f (v - w) - f v)) by ring. rewrite E, SE. field. lra. }
    rewrite Ef, Rabs_mult, Rmult_comm. apply Rmult_le_compat_r; [apply Rabs_pos|].
    assert (5 / 7 <= f' c / f' v <= 7 / 5) as [Q1 Q2].
    { replace (f' c / f' v) with ((- f' c) * / (- f' v)) by (field; lra). assert (6 / 7 <= / - f' v <= 6 / 5) as [R1 R2].
      { split; [replace (6 / 7) with (/ (7 / 6)) by lra|replace (6 / 5) with (/ (5 / 6)) by lra]; apply Rinv_le_contravar; lra. }
      split; nra. }
    apply Rabs_le. lra. }
  assert (F2 : Rabs (f v') <= 2 / 5 * Rabs (f v) + 7 / 6 * eta).
  { replace (f v') with ((f v' - f (v - w)) + f (v - w)) by ring. eapply Rle_trans; [apply Rabs_triang|]. rewrite E2, Rabs_mult, (Rabs_left (f' c2)) by lra.
    pose proof (Rabs_pos (v' - (v - w))). assert (- f' c2 * Rabs (v' - (v - w)) <= 7 / 6 * eta) by nra. lra. }
  split; [|exact F2]. split; [exact T|]. cbn [pow]. lra.
Qed.
Lemma fair_last v : fair 19 v -> Rabs (step p q P v) <= 6 / 100000000.
Proof.
  intros G. destruct (step_size p q P d0 Hd0 H v (fair_near 19 v ltac:(lia) G)) as [_ S]. destruct G as [_ G]. fold f in S.
  assert (406 / 1000 * (2 / 5) ^ 19 < 2 / 100000000) by (cbn [pow]; lra). lra.
Qed.
Lemma fair_f n v : (n <= 20)%nat -> fair n v -> Rabs (f v) <= 41 / 100.
Proof. intros Hn [_ G]. pose proof (pow_box n). lra. Qed.
(* the accepted density *)
Lemma fair_accepted n v v' : (n < 20)%nat -> fair n v -> Rabs (step p q P v) <= 12 / 100000000 -> Rabs (v' - (v - step p q P v)) <= eta ->
  let d := exp (- v') in
  Rabs (p d - P) <= 1 / 10000000 * P /\ d0 / 3 <= d <= 3 * d0 /\
  exists e, d0 / 3 <= e <= 3 * d0 /\ p e = P /\ Rabs (d - e) <= 1 / 10000000 * e.
Proof.
  intros Hn G Hw Hv1 d. pose proof (fair_near n v ltac:(lia) G) as Hv. destruct (fair_next n v v' Hn G Hv1) as [G' F']. pose proof (fair_near (S n) v' ltac:(lia) G') as Hv'.
  destruct (step_size p q P d0 Hd0 H v Hv) as [S _]. destruct (root p q P d0 Hd0 HP D H H0) as (r & Hr & Er). pose proof (f_far p q P d0 Hd0 D H r v' Hr Hv') as FF. fold f in S, Er, FF. rewrite Er, Rminus_0_r in FF.
  destruct (near_p p q d0 Hd0 H r Hr) as [Pr _]. destruct (near_p p q d0 Hd0 H _ Hv') as [Pv _].
  assert (forall u, 0 < p (exp (- u)) -> p (exp (- u)) = P * exp (f u)) as EP.
  { intros u Hu. unfold f, fN. unfold Rminus. rewrite exp_plus, (exp_Ropp (ln P)). rewrite (exp_ln P HP), (exp_ln _ Hu). field. lra. }
  split; [|split; [exact (near_d d0 Hd0 _ Hv')|]].
  - unfold d. rewrite (EP _ Pv). replace (P * exp (f v') - P) with (P * exp (- - f v') - P * exp (- 0)) by (rewrite Ropp_involutive, Ropp_0, exp_0; ring).
    rewrite <- Rmult_minus_distr_l, Rabs_mult, (Rabs_pos_eq P), Rmult_comm by lra. apply Rmult_le_compat_r; [lra|].
    eapply Rle_trans; [apply (exp_close _ _ (7 / 100000000)); [rewrite Rminus_0_r, Rabs_Ropp; lra|lra]|]. rewrite Ropp_0, exp_0. lra.
  - exists (exp (- r)). split; [exact (near_d d0 Hd0 r Hr)|]. split; [rewrite (EP r Pr), Er, exp_0; ring|].
    eapply Rle_trans; [apply (exp_close _ _ (9 / 100000000)); lra|]. apply Rmult_le_compat_r; [apply Rlt_le, exp_pos|lra].
Qed.
End N.

(* effect of relative errors in the pressure and the slope on the step *)
Lemma step_pert L l g a b : Rabs L <= 41 / 100 -> Rabs l <= 17 / 10000000000 -> 0 < g <= 6 / 5 -> Rabs a <= 16 / 10000000000 -> Rabs b <= 19 / 10000000000 ->
  Rabs ((L + l) * (g * (1 + a) / (1 + b)) - L * g) <= 8 / 1000000000.
Proof.
  intros HL Hl Hg Ha Hb. apply Rabs_le_inv in Ha, Hb.
  set (c := (a - b) / (1 + b)). assert (Hc : Rabs c <= 36 / 10000000000).
  { unfold c, Rdiv. rewrite Rabs_mult, (Rabs_pos_eq (/ (1 + b))) by (apply Rlt_le, Rinv_0_lt_compat; lra).
    apply Rle_trans with (35 / 10000000000 * (1 + 1 / 1000)); [|lra]. apply Rmult_le_compat; try apply Rabs_pos; try (apply Rlt_le, Rinv_0_lt_compat; lra); [apply Rabs_le; lra|].
    replace (1 + 1 / 1000) with (/ (1000 / 1001)) by lra. apply Rinv_le_contravar; lra. }
  replace ((L + l) * (g * (1 + a) / (1 + b)) - L * g) with (g * (L * c + l * (1 + c))) by (unfold c; field; lra).
  rewrite Rabs_mult, (Rabs_pos_eq g) by lra.
  assert (Rabs (L * c + l * (1 + c)) <= 41 / 100 * (36 / 10000000000) + 17 / 10000000000 * (1 + 1 / 1000)).
  { eapply Rle_trans; [apply Rabs_triang|]. rewrite !Rabs_mult. apply Rplus_le_compat; apply Rmult_le_compat; try apply Rabs_pos; trivial.
    apply Rabs_le. apply Rabs_le_inv in Hc. lra. }
  pose proof (Rabs_pos (L * c + l * (1 + c))). nra.
Qed.
