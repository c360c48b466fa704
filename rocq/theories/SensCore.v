(* How the density that solves p(T, d) = P depends on P and T when p is nearly that of an ideal gas. *)
From Coq Require Import Reals Lra Lia Psatz.
From Coquelicot Require Import Coquelicot.
Local Open Scope R_scope.

Lemma ln_ratio a b : 0 < a -> 0 < b -> ln (b / a) = ln b - ln a.
Proof. intros A B. unfold Rdiv. rewrite ln_mult, ln_Rinv; [ring|assumption..|now apply Rinv_0_lt_compat]. Qed.
(* a function whose logarithmic derivative is within e of 1 *)
Lemma log_slope (f : R -> R) (lo hi e : R) : 0 < lo ->
  (forall y, lo <= y <= hi -> 0 < f y /\ exists q, is_derive f y q /\ Rabs (y * q - f y) <= e * f y) ->
  forall a b, lo <= a <= hi -> lo <= b <= hi -> Rabs (ln (f b) - ln (f a) - (ln b - ln a)) <= e * Rabs (ln b - ln a).
Proof.
  intros L H a b Ha Hb. set (g u := ln (f (exp u)) - u).
  assert (E : forall y, 0 < y -> exp (ln y) = y) by exact exp_ln.
  assert (DG : forall u, Rmin (ln a) (ln b) <= u <= Rmax (ln a) (ln b) -> lo <= exp u <= hi).
  { intros u [U1 U2]. split.
    - destruct (Rle_dec (ln a) (ln b)) as [Q|Q]; [rewrite Rmin_left in U1 by assumption|rewrite Rmin_right in U1 by lra].
      + apply Rle_trans with a; [lra|]. rewrite <- (E a) by lra. destruct U1 as [U1|<-]; [left; now apply exp_increasing|lra].
      + apply Rle_trans with b; [lra|]. rewrite <- (E b) by lra. destruct U1 as [U1|<-]; [left; now apply exp_increasing|lra].
    - destruct (Rle_dec (ln a) (ln b)) as [Q|Q]; [rewrite Rmax_right in U2 by assumption|rewrite Rmax_left in U2 by lra].
      + apply Rle_trans with b; [|lra]. rewrite <- (E b) by lra. destruct U2 as [U2| ->]; [left; now apply exp_increasing|lra].
      + apply Rle_trans with a; [|lra]. rewrite <- (E a) by lra. destruct U2 as [U2| ->]; [left; now apply exp_increasing|lra]. }
  assert (DE : forall u, Rmin (ln a) (ln b) <= u <= Rmax (ln a) (ln b) -> is_derive g u (exp u * Derive f (exp u) / f (exp u) - 1)).
  { intros u Hu. destruct (H _ (DG u Hu)) as (P & q & Dq & _). rewrite (is_derive_unique _ _ _ Dq). unfold g.
    apply (@is_derive_minus R_AbsRing R_NormedModule); [|apply (@is_derive_id R_AbsRing)].
    evar_last; [apply (is_derive_comp ln (fun u => f (exp u))); [apply is_derive_ln, P|apply (is_derive_comp f exp); [exact Dq|apply is_derive_exp]]|].
    unfold scal, mult; cbn. unfold mult; cbn. field. lra. }
  destruct (MVT_gen g (ln a) (ln b) (fun u => exp u * Derive f (exp u) / f (exp u) - 1)) as (c & Hc & Ec).
  - intros u Hu. apply DE. lra.
  - intros u Hu. apply derivable_continuous_pt. exists (exp u * Derive f (exp u) / f (exp u) - 1). apply is_derive_Reals. now apply DE.
  - assert (EG : ln (f b) - ln (f a) - (ln b - ln a) = g (ln b) - g (ln a)) by (unfold g; rewrite !E by lra; ring). rewrite EG, Ec, Rabs_mult.
    apply Rmult_le_compat_r; [apply Rabs_pos|]. destruct (H _ (DG c Hc)) as (P & q & Dq & B). rewrite (is_derive_unique _ _ _ Dq).
    replace (exp c * q / f (exp c) - 1) with ((exp c * q - f (exp c)) * / f (exp c)) by (field; lra). assert (0 < / f (exp c)) by now apply Rinv_0_lt_compat.
    rewrite Rabs_mult, (Rabs_pos_eq (/ _)) by lra. apply (Rmult_le_reg_r (f (exp c))); [exact P|]. rewrite Rmult_assoc, Rinv_l by lra. lra.
Qed.

Section S.
Variables (p : R -> R -> R) (t0 t1 dm ek eh : R).
Hypothesis Ht0 : 0 < t0.
Hypothesis Hp : forall T d, t0 <= T <= t1 -> 0 < d <= dm -> 0 < p T d.
Hypothesis Hd : forall T d, t0 <= T <= t1 -> 0 < d <= dm -> exists q, is_derive (p T) d q /\ Rabs (d * q - p T d) <= ek * p T d.
Hypothesis HT : forall T d, t0 <= T <= t1 -> 0 < d <= dm -> exists q, is_derive (fun T => p T d) T q /\ Rabs (T * q - p T d) <= eh * p T d.

Lemma sens T1 T2 d1 d2 : t0 <= T1 <= t1 -> t0 <= T2 <= t1 -> 0 < d1 <= dm -> 0 < d2 <= dm ->
  let a := ln (p T2 d2) - ln (p T1 d1) in let b := ln T2 - ln T1 in
  Rabs (ln d2 - ln d1 - (a - b)) <= ek * Rabs (ln d2 - ln d1) + eh * Rabs b.
Proof.
  intros H1 H2 G1 G2 a b. unfold a, b. clear a b.
  assert (K : Rabs (ln (p T2 d2) - ln (p T2 d1) - (ln d2 - ln d1)) <= ek * Rabs (ln d2 - ln d1)).
  { apply (log_slope (p T2) (Rmin d1 d2) dm ek).
    - apply Rmin_glb_lt; lra.
    - intros y Hy. assert (0 < y <= dm) by (split; [apply Rlt_le_trans with (2 := proj1 Hy); apply Rmin_glb_lt; lra|lra]). split; [now apply Hp|]. now apply Hd.
    - split; [apply Rmin_l|lra].
    - split; [apply Rmin_r|lra]. }
  assert (L : Rabs (ln (p T2 d1) - ln (p T1 d1) - (ln T2 - ln T1)) <= eh * Rabs (ln T2 - ln T1)).
  { apply (log_slope (fun T => p T d1) t0 t1 eh Ht0); trivial. intros y Hy. split; [now apply Hp|]. now apply HT. }
  replace (ln d2 - ln d1 - (ln (p T2 d2) - ln (p T1 d1) - (ln T2 - ln T1)))
    with (- ((ln (p T2 d2) - ln (p T2 d1) - (ln d2 - ln d1)) + (ln (p T2 d1) - ln (p T1 d1) - (ln T2 - ln T1)))) by ring.
  rewrite Rabs_Ropp. eapply Rle_trans; [apply Rabs_triang|]. lra.
Qed.
End S.

(* a solution found within 1e-7 of the exact one *)
Lemma ln_near d e : 0 < e -> Rabs (d - e) <= 1 / 10000000 * e -> 0 < d /\ Rabs (ln d - ln e) <= 11 / 100000000.
Proof.
  intros He H. apply Rabs_le_between in H. assert (D : 0 < d) by lra. split; [exact D|].
  assert (Q : forall y, 0 < y -> ln y <= y - 1).
  { intros y Hy. pose proof (exp_ineq1_le (y - 1)) as X. replace (1 + (y - 1)) with y in X by ring. destruct X as [X|X]; [|rewrite X, ln_exp; lra].
    left. apply Rlt_le_trans with (ln (exp (y - 1))); [now apply ln_increasing|rewrite ln_exp; lra]. }
  apply Rabs_le. split.
  - assert (0 < / d) by now apply Rinv_0_lt_compat. pose proof (Q (e / d) ltac:(unfold Rdiv; now apply Rmult_lt_0_compat)) as X. rewrite ln_ratio in X by assumption.
    assert (e / d <= 1 + 11 / 100000000) by (apply (Rmult_le_reg_r d); [exact D|]; unfold Rdiv at 1; rewrite Rmult_assoc, Rinv_l by lra; lra). lra.
  - assert (0 < / e) by now apply Rinv_0_lt_compat. pose proof (Q (d / e) ltac:(unfold Rdiv; now apply Rmult_lt_0_compat)) as X. rewrite ln_ratio in X by assumption.
    assert (d / e <= 1 + 11 / 100000000) by (apply (Rmult_le_reg_r e); [exact He|]; unfold Rdiv at 1; rewrite Rmult_assoc, Rinv_l by lra; lra). lra.
Qed.
Lemma combine ek eh l l' a b ca cb : 0 <= ek <= 1 / 10 -> 0 <= eh -> Rabs (l - (a - b)) <= ek * Rabs l + eh * Rabs b -> Rabs (l' - l) <= 22 / 100000000 ->
  ek <= ca * (1 - ek) -> eh + ek <= cb * (1 - ek) -> Rabs (l' - (a - b)) <= ca * Rabs a + cb * Rabs b + 1 / 4000000.
Proof.
  intros E1 E2 H N Ca Cb.
  assert (L : (1 - ek) * Rabs l <= Rabs a + (1 + eh) * Rabs b).
  { assert (Rabs l <= Rabs (l - (a - b)) + Rabs (a - b)) by (replace l with ((l - (a - b)) + (a - b)) at 1 by ring; apply Rabs_triang).
    assert (Rabs (a - b) <= Rabs a + Rabs b) by (unfold Rminus; rewrite <- (Rabs_Ropp b); apply Rabs_triang). lra. }
  assert (M : Rabs (l' - (a - b)) <= Rabs (l' - l) + Rabs (l - (a - b))) by (replace (l' - (a - b)) with ((l' - l) + (l - (a - b))) by ring; apply Rabs_triang).
  pose proof (Rabs_pos a) as Pa. pose proof (Rabs_pos b) as Pb. pose proof (Rabs_pos l) as Pl. set (A := Rabs a) in *. set (B := Rabs b) in *. set (X := Rabs l) in *. clearbody A B X.
  assert (ek * X + eh * B <= ca * A + cb * B).
  { apply (Rmult_le_reg_l (1 - ek)); [lra|]. assert (ek * ((1 - ek) * X) <= ek * (A + (1 + eh) * B)) by (apply Rmult_le_compat_l; lra).
    assert (ek * A <= ca * (1 - ek) * A) by (apply Rmult_le_compat_r; lra). assert ((eh + ek) * B <= cb * (1 - ek) * B) by (apply Rmult_le_compat_r; lra). nra. }
  lra.
Qed.
