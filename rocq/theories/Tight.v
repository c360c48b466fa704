(* Newton's iteration with an error in every step, started close to the solution: a narrower region around the start
   than in Converge and ConvergeEps, and a wider one for the logarithmic slope. *)
From Coq Require Import Reals Ranalysis5 ZArith List Bool Lra Lia Psatz.
From Coquelicot Require Import Coquelicot.
From Interval Require Import Tactic.
From Verif Require Import Newton Converge.
Local Open Scope R_scope.

Section N.
Variables (p q : R -> R) (P d0 : R).
Hypothesis Hd0 : 0 < d0.
Hypothesis HP : 0 < P.
Hypothesis D : forall d, 0 < d -> is_derive p d (q d).
Hypothesis H : forall d, 8 / 11 * d0 <= d <= 11 / 8 * d0 -> 0 < p d /\ 10 / 13 * p d <= d * q d <= 14 / 13 * p d.
Hypothesis H0 : 87 / 100 * P <= p d0 <= 23 / 20 * P.
Let v0 := - ln d0.
Let f := fN p (ln P).
Let f' := fN1 p q.
Local Notation eta := (1 / 100000000).

Lemma t_near_d v : Rabs (v - v0) <= 31 / 100 -> 8 / 11 * d0 <= exp (- v) <= 11 / 8 * d0.
Proof.
  intros Hv. apply Rabs_le_inv in Hv. assert (exp (- v) = d0 * exp (- (v - v0))) as ->.
  { replace (- v) with (ln d0 + - (v - v0)) by (unfold v0; ring). rewrite exp_plus, exp_ln by exact Hd0. ring. }
  assert (8 / 11 <= exp (- (v - v0)) <= 11 / 8) as [A B]; [|split; nra].
  assert (exp (- (31 / 100)) <= exp (- (v - v0)) <= exp (31 / 100)) as [A B].
  { split.
    - destruct (Rle_lt_or_eq_dec (- (31 / 100)) (- (v - v0))) as [L| ->]; [lra|left; now apply exp_increasing|lra].
    - destruct (Rle_lt_or_eq_dec (- (v - v0)) (31 / 100)) as [L| ->]; [lra|left; now apply exp_increasing|lra]. }
  assert (8 / 11 <= exp (- (31 / 100))) by interval. assert (exp (31 / 100) <= 11 / 8) by interval. lra.
Qed.
Lemma t_near_p v : Rabs (v - v0) <= 31 / 100 -> 0 < p (exp (- v)) /\ -14 / 13 <= f' v <= -10 / 13.
Proof.
  intros Hv. destruct (H _ (t_near_d v Hv)) as [A B]. split; [exact A|]. unfold f', fN1.
  replace (- exp (- v) * q (exp (- v)) / p (exp (- v))) with (- (exp (- v) * q (exp (- v)) / p (exp (- v)))) by (field; lra).
  assert (10 / 13 <= exp (- v) * q (exp (- v)) / p (exp (- v)) <= 14 / 13); [|lra]. split.
  - apply (Rmult_le_reg_r (p (exp (- v)))); [exact A|]. unfold Rdiv. rewrite (Rmult_assoc (_ * _)), Rinv_l by lra. lra.
  - apply (Rmult_le_reg_r (p (exp (- v)))); [exact A|]. unfold Rdiv. rewrite (Rmult_assoc (_ * _)), Rinv_l by lra. lra.
Qed.
Lemma t_f_der v : Rabs (v - v0) <= 31 / 100 -> is_derive f v (f' v).
Proof. intros Hv. apply (fN_derive p q D). apply t_near_p, Hv. Qed.
Lemma t_mean a b : Rabs (a - v0) <= 31 / 100 -> Rabs (b - v0) <= 31 / 100 -> exists c, Rabs (c - v0) <= 31 / 100 /\ f b - f a = f' c * (b - a).
Proof.
  intros Ha Hb. apply Rabs_le_inv in Ha, Hb.
  assert (forall c, Rmin a b <= c <= Rmax a b -> Rabs (c - v0) <= 31 / 100) as G.
  { intros c Hc. apply Rabs_le. unfold Rmin, Rmax in Hc. destruct (Rle_dec a b); lra. }
  destruct (MVT_gen f a b f') as (c & Hc & E).
  - intros x Hx. apply t_f_der, G. lra.
  - intros x Hx. apply continuity_pt_filterlim, @ex_derive_continuous. exists (f' x). apply t_f_der, G, Hx.
  - exists c. split; [now apply G|exact E].
Qed.
Lemma t_f_v0 : Rabs (f v0) <= 14 / 100.
Proof.
  unfold f, fN, v0. rewrite Ropp_involutive, exp_ln by exact Hd0. rewrite <- ln_div by lra.
  assert (87 / 100 <= p d0 / P <= 23 / 20) as [A B].
  { split; apply (Rmult_le_reg_r P); trivial; unfold Rdiv; rewrite (Rmult_assoc (p d0)), Rinv_l by lra; lra. }
  assert (ln (87 / 100) <= ln (p d0 / P)) by (apply ln_le; lra). assert (ln (p d0 / P) <= ln (23 / 20)) by (apply ln_le; lra).
  assert (- (14 / 100) <= ln (87 / 100)) by interval. assert (ln (23 / 20) <= 14 / 100) by interval. apply Rabs_le. lra.
Qed.
Lemma t_step_eq v : Rabs (v - v0) <= 31 / 100 -> step p q P v = f v / f' v.
Proof.
  intros Hv. destruct (t_near_p v Hv) as [A B]. unfold step, f, fN, f', fN1 in *. pose proof (exp_pos (- v)).
  assert (q (exp (- v)) <> 0). { intros E. rewrite E in B. unfold Rdiv in B. rewrite Rmult_0_r, Rmult_0_l in B. lra. }
  field. split; [lra|split; lra].
Qed.
Lemma t_inv y : -14 / 13 <= y <= -10 / 13 -> 13 / 14 <= / - y <= 13 / 10.
Proof.
  intros B. split.
  - replace (13 / 14) with (/ (14 / 13)) by lra. apply Rinv_le_contravar; lra.
  - replace (13 / 10) with (/ (10 / 13)) by lra. apply Rinv_le_contravar; lra.
Qed.
Lemma t_step_size v : Rabs (v - v0) <= 31 / 100 -> 13 / 14 * Rabs (f v) <= Rabs (step p q P v) <= 13 / 10 * Rabs (f v).
Proof.
  intros Hv. rewrite t_step_eq by exact Hv. destruct (t_near_p v Hv) as [A B]. unfold Rdiv at 2 3. rewrite Rabs_mult, Rabs_inv.
  rewrite (Rabs_left (f' v)) by lra. pose proof (Rabs_pos (f v)) as F0. destruct (t_inv _ B) as [Q1 Q2]. split; nra.
Qed.
Lemma t_contract v w c : Rabs (v - v0) <= 31 / 100 -> Rabs (c - v0) <= 31 / 100 -> f w - f v = f' c * (w - v) -> w = v - step p q P v -> Rabs (f w) <= 2 / 5 * Rabs (f v).
Proof.
  intros Hv Hc E Ew. destruct (t_near_p v Hv) as [_ B]. destruct (t_near_p c Hc) as [_ C].
  assert (Ef : f w = f v * (1 - f' c / f' v)).
  { replace (f w) with (f v + (f w - f v)) by ring. rewrite E, Ew, (t_step_eq v Hv). field. lra. }
  rewrite Ef, Rabs_mult, Rmult_comm. apply Rmult_le_compat_r; [apply Rabs_pos|].
  assert (5 / 7 <= f' c / f' v <= 7 / 5) as [Q1 Q2].
  { replace (f' c / f' v) with ((- f' c) * / (- f' v)) by (field; lra). destruct (t_inv _ B) as [R1 R2]. split; nra. }
  apply Rabs_le. lra.
Qed.
Lemma t_f_far a b : Rabs (a - v0) <= 31 / 100 -> Rabs (b - v0) <= 31 / 100 -> 10 / 13 * Rabs (b - a) <= Rabs (f b - f a).
Proof.
  intros Ha Hb. destruct (t_mean a b Ha Hb) as (c & Hc & ->). destruct (t_near_p c Hc) as [_ C]. rewrite Rabs_mult, (Rabs_left (f' c)) by lra.
  pose proof (Rabs_pos (b - a)). nra.
Qed.
Lemma t_root : exists r, Rabs (r - v0) <= 31 / 100 /\ f r = 0.
Proof.
  pose proof t_f_v0 as F0. apply Rabs_le_inv in F0.
  assert (Rabs (v0 - v0) <= 31 / 100) as N0 by (rewrite Rminus_eq_0, Rabs_R0; lra).
  assert (Rabs (v0 - 31 / 100 - v0) <= 31 / 100) as Na by (apply Rabs_le; lra). assert (Rabs (v0 + 31 / 100 - v0) <= 31 / 100) as Nb by (apply Rabs_le; lra).
  destruct (t_mean v0 (v0 - 31 / 100) N0 Na) as (a & Ha & Ea). destruct (t_mean v0 (v0 + 31 / 100) N0 Nb) as (b & Hb & Eb).
  destruct (t_near_p a Ha) as [_ A]. destruct (t_near_p b Hb) as [_ B].
  destruct (IVT_interv (fun v => - f v) (v0 - 31 / 100) (v0 + 31 / 100)) as (r & Hr & Er); try lra.
  - intros c Hc. apply continuity_pt_opp, continuity_pt_filterlim, @ex_derive_continuous. exists (f' c). apply t_f_der, Rabs_le. lra.
  - exists r. split; [apply Rabs_le; lra|lra].
Qed.
Lemma t_unique a b : 8 / 11 * d0 <= a <= 11 / 8 * d0 -> 8 / 11 * d0 <= b <= 11 / 8 * d0 -> p a = p b -> a = b.
Proof.
  intros Ha Hb E. destruct (Req_dec a b) as [EE|N]; [exact EE|exfalso]. assert (forall a b, 8 / 11 * d0 <= a -> a < b -> b <= 11 / 8 * d0 -> p a < p b) as M.
  { clear a b Ha Hb E N. intros a b Ha L Hb. destruct (MVT_gen p a b q) as (c & Hc & E).
    - intros x Hx. apply D. rewrite Rmin_left in Hx by lra. lra.
    - intros x Hx. apply continuity_pt_filterlim, @ex_derive_continuous. exists (q x). apply D. rewrite Rmin_left in Hx by lra. lra.
    - rewrite Rmin_left, Rmax_right in Hc by lra. destruct (H c ltac:(lra)) as [A B]. assert (0 < c * q c) by lra. assert (0 < q c) by nra. nra. }
  destruct (Rtotal_order a b) as [L|[L|L]]; [specialize (M a b)|contradiction|specialize (M b a)]; lra.
Qed.

(* with an error in every step *)
Definition tfair n v := Rabs (v - v0) <= 304 / 1000 * (1 - (2 / 5) ^ n) + 5 * eta * (INR n + 1) /\ Rabs (f v) <= 14 / 100 * (2 / 5) ^ n + 3 * eta.
Lemma tfair_start u : Rabs (u - v0) <= eta -> tfair 0 u.
Proof.
  intros Hu. assert (N0 : Rabs (v0 - v0) <= 31 / 100) by (rewrite Rminus_eq_0, Rabs_R0; lra). assert (N1 : Rabs (u - v0) <= 31 / 100) by lra.
  destruct (t_mean v0 u N0 N1) as (c & Hc & E). destruct (t_near_p c Hc) as [_ C].
  pose proof t_f_v0 as F0. split; [cbn [pow INR]; lra|].
  replace (f u) with ((f u - f v0) + f v0) by ring. eapply Rle_trans; [apply Rabs_triang|]. rewrite E, Rabs_mult, (Rabs_left (f' c)) by lra.
  pose proof (Rabs_pos (u - v0)). cbn [pow]. assert (- f' c * Rabs (u - v0) <= 14 / 13 * eta) by nra. lra.
Qed.
Lemma tfair_near n v : (n <= 20)%nat -> tfair n v -> Rabs (v - v0) <= 31 / 100.
Proof. intros Hn [G _]. pose proof (pow_box n). assert (INR n <= 20) by (rewrite INR_IZR_INZ; apply IZR_le; lia). lra. Qed.
Lemma tfair_next n v v' : (n < 20)%nat -> tfair n v -> Rabs (v' - (v - step p q P v)) <= eta -> tfair (S n) v' /\ Rabs (f v') <= 2 / 5 * Rabs (f v) + 14 / 13 * eta.
Proof.
  intros Hn G Hv'. pose proof (tfair_near n v ltac:(lia) G) as Hv. destruct (t_step_size v Hv) as [_ Hw]. destruct G as [G1 G2]. pose proof (pow_box n) as Pn.
  assert (Hn' : INR n <= 20) by (rewrite INR_IZR_INZ; apply IZR_le; lia). pose proof (pos_INR n) as Nn.
  set (w := step p q P v) in *. apply Rabs_le_inv in Hv' as Hv1.
  assert (T0 : Rabs (v - w - v0) <= 304 / 1000 * (1 - (2 / 5) ^ S n) + 5 * eta * (INR n + 1) + 39 / 10 * eta).
  { replace (v - w - v0) with ((v - v0) + - w) by ring. eapply Rle_trans; [apply Rabs_triang|]. rewrite Rabs_Ropp. cbn [pow]. lra. }
  assert (T : Rabs (v' - v0) <= 304 / 1000 * (1 - (2 / 5) ^ S n) + 5 * eta * (INR (S n) + 1)).
  { rewrite S_INR. replace (v' - v0) with ((v' - (v - w)) + (v - w - v0)) by ring. eapply Rle_trans; [apply Rabs_triang|]. lra. }
  pose proof (pow_box (S n)) as PS. assert (Hu : Rabs (v - w - v0) <= 31 / 100) by lra. assert (Hu' : Rabs (v' - v0) <= 31 / 100) by (rewrite S_INR in T; lra).
  destruct (t_mean v (v - w) Hv Hu) as (c & Hc & E). destruct (t_mean (v - w) v' Hu Hu') as (c2 & Hc2 & E2). destruct (t_near_p c2 Hc2) as [_ C2].
  pose proof (t_contract v (v - w) c Hv Hc E eq_refl) as F.
  assert (F2 : Rabs (f v') <= 2 / 5 * Rabs (f v) + 14 / 13 * eta).
  { replace (f v') with ((f v' - f (v - w)) + f (v - w)) by ring. eapply Rle_trans; [apply Rabs_triang|]. rewrite E2, Rabs_mult, (Rabs_left (f' c2)) by lra.
    pose proof (Rabs_pos (v' - (v - w))). assert (- f' c2 * Rabs (v' - (v - w)) <= 14 / 13 * eta) by nra. lra. }
  split; [|exact F2]. split; [exact T|]. cbn [pow]. lra.
Qed.
Lemma tfair_last v : tfair 19 v -> Rabs (step p q P v) <= 6 / 100000000.
Proof.
  intros G. destruct (t_step_size v (tfair_near 19 v ltac:(lia) G)) as [_ S]. destruct G as [_ G].
  assert (14 / 100 * (2 / 5) ^ 19 < 1 / 100000000) by (cbn [pow]; lra). lra.
Qed.
Lemma tfair_f n v : (n <= 20)%nat -> tfair n v -> Rabs (f v) <= 15 / 100.
Proof. intros Hn [_ G]. pose proof (pow_box n). lra. Qed.
Lemma tfair_accepted n v v' : (n < 20)%nat -> tfair n v -> Rabs (step p q P v) <= 12 / 100000000 -> Rabs (v' - (v - step p q P v)) <= eta ->
  let d := exp (- v') in
  Rabs (p d - P) <= 1 / 10000000 * P /\ 8 / 11 * d0 <= d <= 11 / 8 * d0 /\
  exists e, 8 / 11 * d0 <= e <= 11 / 8 * d0 /\ p e = P /\ Rabs (d - e) <= 1 / 10000000 * e.
Proof.
  intros Hn G Hw Hv1 d. pose proof (tfair_near n v ltac:(lia) G) as Hv. destruct (tfair_next n v v' Hn G Hv1) as [G' F']. pose proof (tfair_near (S n) v' ltac:(lia) G') as Hv'.
  destruct (t_step_size v Hv) as [S _]. destruct t_root as (r & Hr & Er). pose proof (t_f_far r v' Hr Hv') as FF. rewrite Er, Rminus_0_r in FF.
  destruct (t_near_p r Hr) as [Pr _]. destruct (t_near_p _ Hv') as [Pv _].
  assert (forall u, 0 < p (exp (- u)) -> p (exp (- u)) = P * exp (f u)) as EP.
  { intros u Hu. unfold f, fN. unfold Rminus. rewrite exp_plus, (exp_Ropp (ln P)). rewrite (exp_ln P HP), (exp_ln _ Hu). field. lra. }
  split; [|split; [exact (t_near_d _ Hv')|]].
  - unfold d. rewrite (EP _ Pv). replace (P * exp (f v') - P) with (P * exp (- - f v') - P * exp (- 0)) by (rewrite Ropp_involutive, Ropp_0, exp_0; ring).
    rewrite <- Rmult_minus_distr_l, Rabs_mult, (Rabs_pos_eq P), Rmult_comm by lra. apply Rmult_le_compat_r; [lra|].
    eapply Rle_trans; [apply (exp_close _ _ (7 / 100000000)); [rewrite Rminus_0_r, Rabs_Ropp; lra|lra]|]. rewrite Ropp_0, exp_0. lra.
  - exists (exp (- r)). split; [exact (t_near_d r Hr)|]. split; [rewrite (EP r Pr), Er, exp_0; ring|].
    eapply Rle_trans; [apply (exp_close _ _ (9 / 100000000)); lra|]. apply Rmult_le_compat_r; [apply Rlt_le, exp_pos|lra].
Qed.
End N.

Lemma t_step_pert L l g a b : Rabs L <= 15 / 100 -> Rabs l <= 17 / 10000000000 -> 0 < g <= 13 / 10 -> Rabs a <= 16 / 10000000000 -> Rabs b <= 19 / 10000000000 ->
  Rabs ((L + l) * (g * (1 + a) / (1 + b)) - L * g) <= 8 / 1000000000.
Proof.
  intros HL Hl Hg Ha Hb. apply Rabs_le_inv in Ha, Hb.
  set (c := (a - b) / (1 + b)). assert (Hc : Rabs c <= 36 / 10000000000).
  { unfold c, Rdiv. rewrite Rabs_mult, (Rabs_pos_eq (/ (1 + b))) by (apply Rlt_le, Rinv_0_lt_compat; lra).
    apply Rle_trans with (35 / 10000000000 * (1 + 1 / 1000)); [|lra]. apply Rmult_le_compat; try apply Rabs_pos; try (apply Rlt_le, Rinv_0_lt_compat; lra); [apply Rabs_le; lra|].
    replace (1 + 1 / 1000) with (/ (1000 / 1001)) by lra. apply Rinv_le_contravar; lra. }
  replace ((L + l) * (g * (1 + a) / (1 + b)) - L * g) with (g * (L * c + l * (1 + c))) by (unfold c; field; lra).
  rewrite Rabs_mult, (Rabs_pos_eq g) by lra.
  assert (Rabs (L * c + l * (1 + c)) <= 15 / 100 * (36 / 10000000000) + 17 / 10000000000 * (1 + 1 / 1000)).
  { eapply Rle_trans; [apply Rabs_triang|]. rewrite !Rabs_mult. apply Rplus_le_compat; apply Rmult_le_compat; try apply Rabs_pos; trivial.
    apply Rabs_le. apply Rabs_le_inv in Hc. lra. }
  pose proof (Rabs_pos (L * c + l * (1 + c))). nra.
Qed.
