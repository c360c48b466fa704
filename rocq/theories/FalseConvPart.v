(* An accepted density does reproduce the pressure where the pressure is not too steep. *)
From Coq Require Import Reals ZArith List Bool Lra Lia Psatz.
From Coquelicot Require Import Coquelicot.
From Flocq Require Import Core.
From Verif Require Import FArith Prelude DetailModel GergModel Api SpecGeneric SpecHistory
  ArithR SpecReal NewtonReal.
Import ListNotations.
Local Open Scope R_scope.
Local Existing Instance ArithR.

Section N.
Variables (p : R -> R) (P K d' v0 w : R).
Let f v := ln (p (exp (- v))) - ln P.
Hypothesis Hex : forall d, 0 < d -> ex_derive p d.
Hypothesis Hp : 0 < p (exp (- v0)).
Hypothesis Hq : 0 < Derive p (exp (- v0)).
Hypothesis Ew : w = f v0 / Derive f v0.
Hypothesis Hw : Rabs w < 1 / 10000000.
Hypothesis Ed : d' = exp (- (v0 - w)).
Hypothesis HK : forall d, exp (- (1 / 10000000)) * d' <= d <= exp (1 / 10000000) * d' -> 0 < p d /\ Rabs (d * Derive p d) <= K * p d.
Let g v := - (exp (- v) * Derive p (exp (- v)) / p (exp (- v))).
Lemma f_derive v : 0 < p (exp (- v)) -> is_derive f v (g v).
Proof.
  intros H. unfold f.
  assert (E : is_derive (fun v => exp (- v)) v (- exp (- v))) by (auto_derive; [exact I|ring]).
  pose proof (Derive_correct p (exp (- v)) (Hex _ (exp_pos _))) as D.
  pose proof (is_derive_comp p (fun v => exp (- v)) v _ _ D E) as D1.
  pose proof (is_derive_comp ln (fun v => p (exp (- v))) v _ _ (is_derive_ln _ H) D1) as D2.
  evar_last; [apply (@is_derive_minus R_AbsRing R_NormedModule); [exact D2|apply is_derive_const]|].
  unfold g, minus, plus, opp, zero, scal; cbn. unfold mult; cbn. match goal with |- ?a = ?b => change (@eq R a b) end. field. lra.
Qed.
Lemma inbox v : Rabs (v - v0) <= Rabs w -> Rabs (v - (v0 - w)) <= Rabs w -> 0 < p (exp (- v)) /\ Rabs (g v) <= K.
Proof.
  intros _ H. assert (B : Rabs (v - (v0 - w)) <= 1 / 10000000) by lra. apply Rabs_le_inv in B.
  destruct (HK (exp (- v))) as [P0 P1].
  { rewrite Ed, <- !exp_plus. split; (destruct (Req_dec (- v) (- (1/10000000) + - (v0 - w))) as [E|N]; [|]); try (right; f_equal; lra).
    - left. apply exp_increasing. lra.
    - rewrite E. left. apply exp_increasing. lra.
    - destruct (Req_dec (- v) (1 / 10000000 + - (v0 - w))) as [E|N']; [right; now f_equal|]. left. apply exp_increasing. lra. }
  split; [exact P0|]. unfold g. rewrite Rabs_Ropp. unfold Rdiv. rewrite Rabs_mult, (Rabs_pos_eq (/ _)) by (left; now apply Rinv_0_lt_compat).
  apply (Rmult_le_reg_r (p (exp (- v)))); [exact P0|]. rewrite Rmult_assoc, Rinv_l, Rmult_1_r by lra. exact P1.
Qed.
Lemma newton_close : Rabs (ln (p d') - ln P) <= 2 * K / 10000000.
Proof.
  destruct (inbox v0) as [_ G0]; [rewrite Rminus_diag_eq, Rabs_R0 by reflexivity; apply Rabs_pos|right; f_equal; ring|].
  assert (D0 : Derive f v0 = g v0) by (apply is_derive_unique, f_derive, Hp).
  assert (G1 : g v0 < 0).
  { unfold g. assert (0 < exp (- v0) * Derive p (exp (- v0)) / p (exp (- v0))); [|lra]. apply Rdiv_lt_0_compat; [|exact Hp]. apply Rmult_lt_0_compat; [apply exp_pos|exact Hq]. }
  assert (F0 : Rabs (f v0) <= K / 10000000).
  { replace (f v0) with (w * g v0) by (rewrite Ew, D0; field; lra). rewrite Rabs_mult.
    replace (K / 10000000) with (1 / 10000000 * K) by field. apply Rmult_le_compat; [apply Rabs_pos|apply Rabs_pos|lra|exact G0]. }
  assert (S : forall z, Rmin v0 (v0 - w) <= z <= Rmax v0 (v0 - w) -> Rabs (z - v0) <= Rabs w /\ Rabs (z - (v0 - w)) <= Rabs w).
  { intros z Hz. unfold Rmin, Rmax, Rabs in *. destruct (Rle_dec v0 (v0 - w)), (Rcase_abs w), (Rcase_abs (z - v0)), (Rcase_abs (z - (v0 - w))); lra. }
  destruct (MVT_gen f v0 (v0 - w) g) as (c & Hc & E).
  { intros z Hz. destruct (S z ltac:(lra)). now apply f_derive, inbox. }
  { intros z Hz. destruct (S z Hz). apply continuity_pt_filterlim, @ex_derive_continuous. exists (g z). now apply f_derive, inbox. }
  assert (F1 : Rabs (f (v0 - w) - f v0) <= K / 10000000).
  { rewrite E. replace (v0 - w - v0) with (- w) by ring. rewrite Rabs_mult, Rabs_Ropp. replace (K / 10000000) with (K * (1 / 10000000)) by field.
    destruct (S c Hc). apply Rmult_le_compat; [apply Rabs_pos|apply Rabs_pos|now apply inbox|lra]. }
  assert (f (v0 - w) = ln (p d') - ln P) as <- by (unfold f; now rewrite Ed).
  apply Rabs_le_inv in F0, F1. apply Rabs_le. lra.
Qed.
End N.
Lemma d_close k l i (s : @Detail ArithR) r s' K :
  dexec k l = Some (s, r) -> separated 0 (dasked (l ++ [Density i])) ->
  0 < d_t s -> dstep (Density i) s = Some (s', ODens ROk) ->
  let p := dpres k (fun j => nth j (d_x s) 0) (d_t s) in
  (forall d, exp (- (1 / 10000000)) * d_d s' <= d <= exp (1 / 10000000) * d_d s' -> 0 < p d /\ Rabs (d * Derive p d) <= K * p d) ->
  Rabs (ln (p (d_d s')) - ln (DetailModel.d_p s)) <= 2 * K / 10000000.
Proof.
  intros E HV Ht H p HK. destruct (d_accept k l i s r s' E HV Ht H) as (v0 & w & _ & P1 & P2 & P3 & P4 & P5 & _). fold p in P1, P2, P3.
  refine (newton_close p (DetailModel.d_p s) K (d_d s') v0 w _ _ _ P3 P4 P5 HK); [|eapply Rlt_le_trans; [|exact P1]; lra|eapply Rlt_le_trans; [|exact P2]; lra].
  destruct (d_hinv k l [Density i] s r E HV) as (_ & Hin & HL). specialize (Hin _ (or_introl eq_refl)).
  destruct (proj2 HV _ _ Hin) as [_ Hta]. pose proof (HL _ _ Hin) as Hx.
  pose proof (apart0_t _ Hta Ht) as Ht'. intros d Hd. eexists. exact (d_D1 k (d_x s) (d_t s) Ht' d Hd).
Qed.
Lemma g_close k l i (s : @Gerg ArithR) r s' K :
  gexec k l = Some (s, r) -> separated 1 (gasked (l ++ [Density i])) ->
  (exists j, (1 <= j < 22)%nat /\ 1 / 10000000 < nth j (g_x s) 0) ->
  0 < g_t s -> gstep (Density i) s = Some (s', ODens ROk) ->
  let p := gpres k (fun j => nth j (g_x s) 0) (g_t s) in
  (forall d, exp (- (1 / 10000000)) * g_d s' <= d <= exp (1 / 10000000) * g_d s' -> 0 < p d /\ Rabs (d * Derive p d) <= K * p d) ->
  Rabs (ln (p (g_d s')) - ln (GergModel.g_p s)) <= 2 * K / 10000000.
Proof.
  intros E HV Hs Ht H p HK. destruct (g_accept k l i s r s' E HV Hs Ht H) as (v0 & w & P1 & P2 & P3 & P4 & P5 & _). fold p in P1, P2, P3.
  refine (newton_close p (GergModel.g_p s) K (g_d s') v0 w _ _ _ P3 P4 P5 HK); [|eapply Rlt_le_trans; [|exact P1]; lra|eapply Rlt_le_trans; [|exact P2]; lra].
  destruct (g_hinv k l [Density i] s r E HV) as (_ & Hin & HL). specialize (Hin _ (or_introl eq_refl)).
  destruct (proj2 HV _ _ Hin) as [_ Hta]. pose proof (apart0_t _ Hta Ht) as Ht'. intros d Hd. eexists. exact (g_D1 k (g_x s) (g_t s) Hs Ht' d Hd).
Qed.
