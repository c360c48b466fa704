(* One Newton step for ln p as a function of -ln d, over the reals. *)
From Coq Require Import Reals Lra Lia.
From Coquelicot Require Import Coquelicot.
Local Open Scope R_scope.

(* second order remainder *)
Lemma taylor2 (f f1 f2 : R -> R) a h M :
  (forall r, 0 <= r <= 1 -> is_derive f (a + r * h) (f1 (a + r * h))) ->
  (forall r, 0 <= r <= 1 -> is_derive f1 (a + r * h) (f2 (a + r * h))) ->
  (forall r, 0 <= r <= 1 -> Rabs (f2 (a + r * h)) <= M) ->
  Rabs (f (a + h) - f a - f1 a * h) <= M / 2 * (h * h).
Proof.
  intros D1 D2 B.
  assert (Hd : forall r, is_derive (fun r => a + r * h) r h).
  { intros r. auto_derive; [trivial|ring]. }
  assert (L1 : forall r, 0 <= r <= 1 -> Rabs (f1 (a + r * h) - f1 a) <= M * Rabs h * r).
  { intros r Hr.
    destruct (MVT_gen (fun r => f1 (a + r * h)) 0 r (fun r => h * f2 (a + r * h))) as (c & Hc & E).
    - intros q Hq. rewrite Rmin_left, Rmax_right in Hq by lra.
      pose proof (is_derive_comp f1 (fun r => a + r * h) q _ _ (D2 q ltac:(lra)) (Hd q)) as K. exact K.
    - intros q Hq. rewrite Rmin_left, Rmax_right in Hq by lra.
      apply continuity_pt_filterlim. apply (ex_derive_continuous (fun r => f1 (a + r * h))).
      eexists. exact (is_derive_comp f1 (fun r => a + r * h) q _ _ (D2 q ltac:(lra)) (Hd q)).
    - rewrite Rmin_left, Rmax_right in Hc by lra. rewrite Rmult_0_l, Rplus_0_r in E.
      rewrite E, !Rabs_mult, (Rabs_right (r - 0)) by lra. rewrite Rminus_0_r.
      rewrite (Rmult_comm (Rabs h)).
      apply Rmult_le_compat_r; [lra|]. apply Rmult_le_compat_r; [apply Rabs_pos|]. apply B. lra. }
  assert (G : forall e, e = 1 \/ e = -1 ->
    e * (f (a + h) - f a - f1 a * h) <= M / 2 * (h * h)).
  { intros e He.
    set (g := fun r => e * (f (a + r * h) - f a - f1 a * (r * h)) - M / 2 * (h * h) * (r * r)).
    set (g' := fun r => e * (h * (f1 (a + r * h) - f1 a)) - M * (h * h) * r).
    assert (Dg : forall r, 0 <= r <= 1 -> is_derive g r (g' r)).
    { intros r Hr.
      pose proof (is_derive_comp f (fun r => a + r * h) r _ _ (D1 r Hr) (Hd r)) as K.
      change (is_derive (fun r => f (a + r * h)) r (h * f1 (a + r * h))) in K. unfold g, g'.
      set (F := fun r => f (a + r * h)) in *.
      assert (E : is_derive (fun r => e * (F r - f a - f1 a * (r * h)) - M / 2 * (h * h) * (r * r)) r
        (e * (h * f1 (a + r * h) - f1 a * h) - M / 2 * (h * h) * (2 * r))).
      { evar_last.
        - apply (is_derive_minus (fun r => e * (F r - f a - f1 a * (r * h))) (fun r => M / 2 * (h * h) * (r * r))).
          + apply (is_derive_scal (fun r => F r - f a - f1 a * (r * h))).
            apply (is_derive_minus (fun r => F r - f a) (fun r => f1 a * (r * h))).
            * apply (is_derive_minus F (fun _ => f a)); [exact K|apply is_derive_const].
            * auto_derive; [trivial|reflexivity].
          + auto_derive; [trivial|reflexivity].
        - unfold minus, plus, opp, zero, scal, mult; cbn. unfold mult; cbn. ring. }
      replace (e * (h * (f1 (a + r * h) - f1 a)) - M * (h * h) * r)
        with (e * (h * f1 (a + r * h) - f1 a * h) - M / 2 * (h * h) * (2 * r)) by field.
      exact E. }
    destruct (MVT_gen g 0 1 g') as (c & Hc & E).
    - intros q Hq. rewrite Rmin_left, Rmax_right in Hq by lra. apply Dg. lra.
    - intros q Hq. rewrite Rmin_left, Rmax_right in Hq by lra.
      apply continuity_pt_filterlim. apply (ex_derive_continuous g). eexists. apply Dg. lra.
    - rewrite Rmin_left, Rmax_right in Hc by lra.
      assert (Hn : g' c <= 0).
      { unfold g'. pose proof (L1 c Hc) as L. pose proof (Rle_abs (e * (h * (f1 (a + c * h) - f1 a)))) as A.
        rewrite !Rabs_mult in A.
        replace (Rabs e) with 1 in A by (destruct He as [-> | ->]; [rewrite Rabs_R1|rewrite Rabs_left by lra]; lra).
        pose proof (Rmult_le_compat_l (Rabs h) _ _ (Rabs_pos h) L) as L'.
        replace (Rabs h * (M * Rabs h * c)) with (M * (Rabs h * Rabs h) * c) in L' by ring.
        rewrite <- (Rabs_mult h h), (Rabs_right (h * h)) in L' by (apply Rle_ge, Rle_0_sqr). lra. }
      unfold g in E at 1 2. rewrite !Rmult_1_l, !Rmult_0_l, Rplus_0_r in E. lra. }
  apply Rabs_le. pose proof (G 1 (or_introl eq_refl)). pose proof (G (-1) (or_intror eq_refl)). lra.
Qed.

Section N.
Variables (p p1 p2 : R -> R).
Hypothesis D1 : forall d, 0 < d -> is_derive p d (p1 d).
Hypothesis D2 : forall d, 0 < d -> is_derive p1 d (p2 d).
Variable lp : R.
Definition fN (v : R) : R := ln (p (exp (- v))) - lp.
Definition fN1 (v : R) : R := - exp (- v) * p1 (exp (- v)) / p (exp (- v)).
Lemma dexpm v : is_derive (fun v => exp (- v)) v (- exp (- v)).
Proof. auto_derive; [trivial|ring]. Qed.
Lemma dp_exp v : is_derive (fun v => p (exp (- v))) v (- exp (- v) * p1 (exp (- v))).
Proof. exact (is_derive_comp p (fun v => exp (- v)) v _ _ (D1 _ (exp_pos _)) (dexpm v)). Qed.
Lemma dp1_exp v : is_derive (fun v => p1 (exp (- v))) v (- exp (- v) * p2 (exp (- v))).
Proof. exact (is_derive_comp p1 (fun v => exp (- v)) v _ _ (D2 _ (exp_pos _)) (dexpm v)). Qed.
Lemma fN_derive v : 0 < p (exp (- v)) -> is_derive fN v (fN1 v).
Proof.
  intros H. unfold fN, fN1.
  pose proof (is_derive_comp ln (fun v => p (exp (- v))) v _ _ (is_derive_ln _ H) (dp_exp v)) as K.
  evar_last.
  - apply (is_derive_minus (fun v => ln (p (exp (- v)))) (fun _ => lp)); [exact K|apply is_derive_const].
  - unfold minus, plus, opp, zero, scal, mult; cbn. unfold mult; cbn. field. lra.
Qed.
Lemma pos_near v : 0 < p (exp (- v)) -> locally v (fun w => 0 < p (exp (- w))).
Proof.
  intros H. assert (C : continuous (fun v => p (exp (- v))) v).
  { apply (ex_derive_continuous (fun v => p (exp (- v)))). eexists. apply dp_exp. }
  apply (C (fun q => 0 < q)). now apply open_gt.
Qed.
Lemma fN1_derive v : 0 < p (exp (- v)) -> ex_derive fN1 v.
Proof.
  intros H. unfold fN1. apply ex_derive_div; [| |lra].
  - apply (ex_derive_mult (fun v => - exp (- v)) (fun v => p1 (exp (- v)))).
    + auto_derive. trivial.
    + eexists. apply dp1_exp.
  - eexists. apply dp_exp.
Qed.
Lemma fN_n2 v : 0 < p (exp (- v)) -> is_derive fN1 v (Derive_n fN 2 v).
Proof.
  intros H. cbn [Derive_n]. rewrite (Derive_ext_loc _ fN1).
  - apply Derive_correct. now apply fN1_derive.
  - apply (filter_imp (fun w => 0 < p (exp (- w)))); [|now apply pos_near].
    intros w Hw. apply is_derive_unique. exact (fN_derive w Hw).
Qed.
(* v1 = v0 - f/f' *)
Lemma newton_residual v0 w M :
  0 < p (exp (- v0)) -> p1 (exp (- v0)) <> 0 -> w = fN v0 / Derive fN v0 -> Rabs w <= 1 / 10000000 ->
  (forall v, Rmin v0 (v0 - w) <= v <= Rmax v0 (v0 - w) -> 0 < p (exp (- v)) /\ Rabs (Derive_n fN 2 v) <= M) ->
  Rabs (fN (v0 - w)) <= M / 2 * (1 / 100000000000000).
Proof.
  intros Hp Hq Ew Hw HM. rewrite (is_derive_unique _ _ _ (fN_derive v0 Hp)) in Ew.
  assert (Hb : forall r, 0 <= r <= 1 -> Rmin v0 (v0 - w) <= v0 + r * - w <= Rmax v0 (v0 - w)).
  { intros r Hr. unfold Rmin, Rmax. destruct (Rle_dec v0 (v0 - w)) as [L|L].
    - split.
      + pose proof (Rmult_le_pos r (- w) (proj1 Hr) ltac:(lra)). lra.
      + pose proof (Rmult_le_compat_r (- w) r 1 ltac:(lra) (proj2 Hr)). lra.
    - split.
      + pose proof (Rmult_le_compat_r w r 1 ltac:(lra) (proj2 Hr)). lra.
      + pose proof (Rmult_le_pos r w (proj1 Hr) ltac:(lra)). lra. }
  pose proof (taylor2 fN fN1 (Derive_n fN 2) v0 (- w) M) as T.
  assert (N0 : fN1 v0 <> 0).
  { unfold fN1. pose proof (exp_pos (- v0)) as X. intros E.
    apply (Rmult_eq_compat_r (p (exp (- v0)))) in E. rewrite Rmult_0_l in E. unfold Rdiv in E.
    rewrite Rmult_assoc, Rinv_l, Rmult_1_r in E by lra.
    apply Rmult_integral in E. destruct E as [E|E]; [lra|contradiction]. }
  assert (E0 : fN v0 + fN1 v0 * - w = 0).
  { rewrite Ew. field. exact N0. }
  assert (M0 : 0 <= M).
  { destruct (HM v0) as [_ B]; [pose proof (Rmin_l v0 (v0 - w)); pose proof (Rmax_l v0 (v0 - w)); lra|].
    pose proof (Rabs_pos (Derive_n fN 2 v0)). lra. }
  assert (Hw2 : - w * - w <= 1 / 100000000000000).
  { replace (- w * - w) with (Rabs w * Rabs w) by (rewrite <- Rabs_mult, Rabs_right; [ring|apply Rle_ge, Rle_0_sqr]).
    pose proof (Rmult_le_compat _ _ _ _ (Rabs_pos w) (Rabs_pos w) Hw Hw). lra. }
  assert (R1 : Rabs (fN (v0 + - w) - fN v0 - fN1 v0 * - w) <= M / 2 * (- w * - w)).
  { apply T.
    - intros r Hr. apply fN_derive. exact (proj1 (HM _ (Hb r Hr))).
    - intros r Hr. apply fN_n2. exact (proj1 (HM _ (Hb r Hr))).
    - intros r Hr. exact (proj2 (HM _ (Hb r Hr))). }
  replace (fN (v0 + - w) - fN v0 - fN1 v0 * - w) with (fN (v0 - w)) in R1.
  2: { unfold Rminus at 2. unfold Rminus. lra. }
  pose proof (Rmult_le_compat_l (M / 2) _ _ ltac:(lra) Hw2). lra.
Qed.
End N.
