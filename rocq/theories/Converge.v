(* Newton's iteration for ln p as a function of ln v converges where the gas is nearly ideal. *)
From Coq Require Import Reals Ranalysis5 ZArith List Bool Lra Lia Psatz.
From Coquelicot Require Import Coquelicot.
From Interval Require Import Tactic.
From Verif Require Import Newton.
Local Open Scope R_scope.

Lemma Rabs_le_inv x y : Rabs x <= y -> - y <= x <= y.
Proof. apply Rabs_le_between. Qed.

Section N.
Variables (p q : R -> R) (P d0 : R).
Hypothesis Hd0 : 0 < d0.
Hypothesis HP : 0 < P.
Hypothesis D : forall d, 0 < d -> is_derive p d (q d).
Hypothesis H : forall d, d0 / 3 <= d <= 3 * d0 -> 0 < p d /\ 5 / 6 * p d <= d * q d <= 7 / 6 * p d.
Hypothesis H0 : 2 / 3 * P <= p d0 <= 3 / 2 * P.
Let v0 := - ln d0.
Let f := fN p (ln P).
Let f' := fN1 p q.

Lemma near_d v : Rabs (v - v0) <= 1 -> d0 / 3 <= exp (- v) <= 3 * d0.
Proof.
  intros Hv. apply Rabs_le_inv in Hv. assert (exp (- v) = d0 * exp (- (v - v0))) as ->.
  { replace (- v) with (ln d0 + - (v - v0)) by (unfold v0; ring). rewrite exp_plus, exp_ln by exact Hd0. ring. }
  assert (1 / 3 <= exp (- (v - v0)) <= 3) as [A B]; [|split; nra].
  assert (exp (-1) <= exp (- (v - v0)) <= exp 1) as [A B].
  { split.
    - destruct (Rle_lt_or_eq_dec (-1) (- (v - v0))) as [L| ->]; [lra|left; now apply exp_increasing|lra].
    - destruct (Rle_lt_or_eq_dec (- (v - v0)) 1) as [L| ->]; [lra|left; now apply exp_increasing|lra]. }
  assert (1 / 3 <= exp (-1)) by interval. assert (exp 1 <= 3) by interval. lra.
Qed.
Lemma near_p v : Rabs (v - v0) <= 1 -> 0 < p (exp (- v)) /\ -7 / 6 <= f' v <= -5 / 6.
Proof.
  intros Hv. destruct (H _ (near_d v Hv)) as [A B]. split; [exact A|]. unfold f', fN1.
  replace (- exp (- v) * q (exp (- v)) / p (exp (- v))) with (- (exp (- v) * q (exp (- v)) / p (exp (- v)))) by (field; lra).
  assert (5 / 6 <= exp (- v) * q (exp (- v)) / p (exp (- v)) <= 7 / 6); [|lra]. split.
  - apply (Rmult_le_reg_r (p (exp (- v)))); [exact A|]. unfold Rdiv. rewrite (Rmult_assoc (_ * _)), Rinv_l by lra. lra.
  - apply (Rmult_le_reg_r (p (exp (- v)))); [exact A|]. unfold Rdiv. rewrite (Rmult_assoc (_ * _)), Rinv_l by lra. lra.
Qed.
Lemma f_der v : Rabs (v - v0) <= 1 -> is_derive f v (f' v).
Proof. intros Hv. apply (fN_derive p q D). apply near_p, Hv. Qed.
Lemma mean a b : Rabs (a - v0) <= 1 -> Rabs (b - v0) <= 1 -> exists c, Rabs (c - v0) <= 1 /\ f b - f a = f' c * (b - a).
Proof.
  intros Ha Hb. apply Rabs_le_inv in Ha, Hb.
  assert (forall c, Rmin a b <= c <= Rmax a b -> Rabs (c - v0) <= 1) as G.
  { intros c Hc. apply Rabs_le. unfold Rmin, Rmax in Hc. destruct (Rle_dec a b); lra. }
  destruct (MVT_gen f a b f') as (c & Hc & E).
  - intros x Hx. apply f_der, G. lra.
  - intros x Hx. apply continuity_pt_filterlim, @ex_derive_continuous. exists (f' x). apply f_der, G, Hx.
  - exists c. split; [now apply G|exact E].
Qed.
Lemma f_v0 : Rabs (f v0) <= 406 / 1000.
Proof.
  unfold f, fN, v0. rewrite Ropp_involutive, exp_ln by exact Hd0. rewrite <- ln_div by lra.
  assert (2 / 3 <= p d0 / P <= 3 / 2) as [A B].
  { split; apply (Rmult_le_reg_r P); trivial; unfold Rdiv; rewrite (Rmult_assoc (p d0)), Rinv_l by lra; lra. }
  assert (ln (2 / 3) <= ln (p d0 / P)) by (apply ln_le; lra). assert (ln (p d0 / P) <= ln (3 / 2)) by (apply ln_le; lra).
  assert (- (406 / 1000) <= ln (2 / 3)) by interval. assert (ln (3 / 2) <= 406 / 1000) by interval. apply Rabs_le. lra.
Qed.

Definition good n v := Rabs (v - v0) <= 812 / 1000 * (1 - (2 / 5) ^ n) /\ Rabs (f v) <= 406 / 1000 * (2 / 5) ^ n.
Definition step v := (ln (p (exp (- v))) - ln P) * p (exp (- v)) / (- exp (- v) * q (exp (- v))).
Lemma pow_box n : 0 < (2 / 5) ^ n <= 1.
Proof. split; [apply pow_lt; lra|]. induction n; cbn [pow]; [lra|]. assert (0 < (2 / 5) ^ n) by (apply pow_lt; lra). lra. Qed.
Lemma good_start : good 0 v0.
Proof. split; [rewrite Rminus_eq_0, Rabs_R0; cbn; lra|]. pose proof f_v0. cbn [pow]. lra. Qed.
Lemma good_near n v : good n v -> Rabs (v - v0) <= 1.
Proof. intros [G _]. pose proof (pow_box n). lra. Qed.
Lemma step_eq v : Rabs (v - v0) <= 1 -> step v = f v / f' v.
Proof.
  intros Hv. destruct (near_p v Hv) as [A B]. unfold step, f, fN, f', fN1 in *. pose proof (exp_pos (- v)).
  assert (q (exp (- v)) <> 0). { intros E. rewrite E in B. unfold Rdiv in B. rewrite Rmult_0_r, Rmult_0_l in B. lra. }
  field. split; [lra|split; lra].
Qed.
Lemma step_size v : Rabs (v - v0) <= 1 -> 6 / 7 * Rabs (f v) <= Rabs (step v) <= 6 / 5 * Rabs (f v).
Proof.
  intros Hv. rewrite step_eq by exact Hv. destruct (near_p v Hv) as [A B]. unfold Rdiv at 2 3. rewrite Rabs_mult, Rabs_inv.
  rewrite (Rabs_left (f' v)) by lra. pose proof (Rabs_pos (f v)) as F0.
  assert (6 / 7 <= / - f' v <= 6 / 5) as [Q1 Q2].
  { split.
    - replace (6 / 7) with (/ (7 / 6)) by lra. apply Rinv_le_contravar; lra.
    - replace (6 / 5) with (/ (5 / 6)) by lra. apply Rinv_le_contravar; lra. }
  split; nra.
Qed.
Lemma good_next n v : good n v -> good (S n) (v - step v) /\ Rabs (f (v - step v)) <= 2 / 5 * Rabs (f v).
Proof.
  intros G. pose proof (good_near n v G) as Hv. destruct (step_size v Hv) as [_ Hw]. destruct G as [G1 G2]. pose proof (pow_box n) as Pn.
  assert (Rabs (v - step v - v0) <= 812 / 1000 * (1 - (2 / 5) ^ S n)) as T.
  { replace (v - step v - v0) with ((v - v0) + - step v) by ring. eapply Rle_trans; [apply Rabs_triang|]. rewrite Rabs_Ropp. cbn [pow]. lra. }
  assert (Rabs (v - step v - v0) <= 1) as Hv' by (pose proof (pow_box (S n)); lra).
  destruct (mean v (v - step v) Hv Hv') as (c & Hc & E). destruct (near_p v Hv) as [_ B]. destruct (near_p c Hc) as [_ C].
  assert (f (v - step v) = f v * (1 - f' c / f' v)) as Ef.
  { replace (f (v - step v)) with (f v + (f (v - step v) - f v)) by ring. rewrite E, (step_eq v Hv). field. lra. }
  assert (Rabs (f (v - step v)) <= 2 / 5 * Rabs (f v)) as F.
  { rewrite Ef, Rabs_mult, Rmult_comm. apply Rmult_le_compat_r; [apply Rabs_pos|].
    assert (5 / 7 <= f' c / f' v <= 7 / 5) as [Q1 Q2].
    { replace (f' c / f' v) with ((- f' c) * / (- f' v)) by (field; lra). assert (6 / 7 <= / - f' v <= 6 / 5) as [R1 R2].
      { split; [replace (6 / 7) with (/ (7 / 6)) by lra|replace (6 / 5) with (/ (5 / 6)) by lra]; apply Rinv_le_contravar; lra. }
      split; nra. }
    apply Rabs_le. lra. }
  split; [|exact F]. split; [exact T|]. cbn [pow]. lra.
Qed.
Lemma last_step v : good 17 v -> Rabs (step v) < 1 / 10000000.
Proof. intros G. destruct (step_size v (good_near _ _ G)) as [_ S]. destruct G as [_ G]. assert (406 / 1000 * (2 / 5) ^ 17 < 8 / 100000000) by (cbn [pow]; lra). lra. Qed.

(* the solution *)
Lemma f_far a b : Rabs (a - v0) <= 1 -> Rabs (b - v0) <= 1 -> 5 / 6 * Rabs (b - a) <= Rabs (f b - f a).
Proof.
  intros Ha Hb. destruct (mean a b Ha Hb) as (c & Hc & ->). destruct (near_p c Hc) as [_ C]. rewrite Rabs_mult, (Rabs_left (f' c)) by lra.
  pose proof (Rabs_pos (b - a)). nra.
Qed.
Lemma root : exists r, Rabs (r - v0) <= 1 /\ f r = 0.
Proof.
  pose proof f_v0 as F0. apply Rabs_le_inv in F0.
  assert (Rabs (v0 - v0) <= 1) as N0 by (rewrite Rminus_eq_0, Rabs_R0; lra).
  assert (Rabs (v0 - 1 - v0) <= 1) as Na by (apply Rabs_le; lra). assert (Rabs (v0 + 1 - v0) <= 1) as Nb by (apply Rabs_le; lra).
  destruct (mean v0 (v0 - 1) N0 Na) as (a & Ha & Ea). destruct (mean v0 (v0 + 1) N0 Nb) as (b & Hb & Eb).
  destruct (near_p a Ha) as [_ A]. destruct (near_p b Hb) as [_ B].
  destruct (IVT_interv (fun v => - f v) (v0 - 1) (v0 + 1)) as (r & Hr & Er); try lra.
  - intros c Hc. apply continuity_pt_opp, continuity_pt_filterlim, @ex_derive_continuous. exists (f' c). apply f_der, Rabs_le. lra.
  - exists r. split; [apply Rabs_le; lra|lra].
Qed.
Lemma exp_close a b e : Rabs (a - b) <= e -> e <= 1 / 10 -> Rabs (exp (- a) - exp (- b)) <= (e + 2 * e * e) * exp (- b).
Proof.
  intros L E. replace (- a) with (- b + (b - a)) by ring. rewrite exp_plus.
  replace (exp (- b) * exp (b - a) - exp (- b)) with (exp (- b) * (exp (b - a) - 1)) by ring. rewrite Rabs_mult, Rmult_comm.
  rewrite (Rabs_pos_eq (exp (- b))) by apply Rlt_le, exp_pos. apply Rmult_le_compat_r; [apply Rlt_le, exp_pos|].
  apply Rabs_le_inv in L. pose proof (exp_ineq1_le (b - a)). pose proof (exp_ineq1_le (- (b - a))) as Q. rewrite exp_Ropp in Q.
  pose proof (exp_pos (b - a)) as X. assert (exp (b - a) * (1 + - (b - a)) <= 1).
  { apply Rle_trans with (exp (b - a) * / exp (b - a)); [apply Rmult_le_compat_l; lra|rewrite Rinv_r by lra; lra]. }
  apply Rabs_le. split; [nra|].
  assert (exp (b - a) * (1 - e) <= (1 + e + 2 * e * e) * (1 - e)); [nra|].
  assert (exp (b - a) <= 1 + e + 2 * e * e); [|lra]. apply (Rmult_le_reg_r (1 - e)); lra.
Qed.
(* the accepted density: near the only solution, with a pressure near P *)
Lemma accepted n v : good n v -> Rabs (step v) < 1 / 10000000 -> let d := exp (- (v - step v)) in
  Rabs (p d - P) <= 1 / 10000000 * P /\ d0 / 3 <= d <= 3 * d0 /\
  exists e, d0 / 3 <= e <= 3 * d0 /\ p e = P /\ Rabs (d - e) <= 1 / 10000000 * e.
Proof.
  intros G Hw d. pose proof (good_near n v G) as Hv. destruct (good_next n v G) as [G' F']. pose proof (good_near _ _ G') as Hv'.
  destruct (step_size v Hv) as [S _]. destruct root as (r & Hr & Er). pose proof (f_far r _ Hr Hv') as FF. rewrite Er, Rminus_0_r in FF.
  destruct (near_p r Hr) as [Pr _]. destruct (near_p _ Hv') as [Pv _].
  assert (forall u, 0 < p (exp (- u)) -> p (exp (- u)) = P * exp (f u)) as EP.
  { intros u Hu. unfold f, fN. unfold Rminus. rewrite exp_plus, (exp_Ropp (ln P)). rewrite (exp_ln P HP), (exp_ln _ Hu). field. lra. }
  split; [|split; [exact (near_d _ Hv')|]].
  - unfold d. rewrite (EP _ Pv). replace (P * exp (f (v - step v)) - P) with (P * exp (- - f (v - step v)) - P * exp (- 0)) by (rewrite Ropp_involutive, Ropp_0, exp_0; ring).
    rewrite <- Rmult_minus_distr_l, Rabs_mult, (Rabs_pos_eq P), Rmult_comm by lra. apply Rmult_le_compat_r; [lra|].
    eapply Rle_trans; [apply (exp_close _ _ (5 / 100000000)); [rewrite Rminus_0_r, Rabs_Ropp; lra|lra]|]. rewrite Ropp_0, exp_0. lra.
  - exists (exp (- r)). split; [exact (near_d r Hr)|]. split; [rewrite (EP r Pr), Er, exp_0; ring|].
    eapply Rle_trans; [apply (exp_close _ _ (6 / 100000000)); lra|]. apply Rmult_le_compat_r; [apply Rlt_le, exp_pos|lra].
Qed.
Lemma unique a b : d0 / 3 <= a <= 3 * d0 -> d0 / 3 <= b <= 3 * d0 -> p a = p b -> a = b.
Proof.
  intros Ha Hb E. destruct (Req_dec a b) as [EE|N]; [exact EE|exfalso]. assert (forall a b, d0 / 3 <= a -> a < b -> b <= 3 * d0 -> p a < p b) as M.
  { clear a b Ha Hb E N. intros a b Ha L Hb. destruct (MVT_gen p a b q) as (c & Hc & E).
    - intros x Hx. apply D. rewrite Rmin_left in Hx by lra. lra.
    - intros x Hx. apply continuity_pt_filterlim, @ex_derive_continuous. exists (q x). apply D. rewrite Rmin_left in Hx by lra. lra.
    - rewrite Rmin_left, Rmax_right in Hc by lra. destruct (H c ltac:(lra)) as [A B]. assert (0 < c * q c) by lra. assert (0 < q c) by nra. nra. }
  destruct (Rtotal_order a b) as [L|[L|L]]; [specialize (M a b)|contradiction|specialize (M b a)]; lra.
Qed.
End N.
