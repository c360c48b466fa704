(* Methane at 150 K: the DETAIL pressure passes through zero near 21.849 mol/l. *)
From Coq Require Import Reals ZArith List Bool Lra Lia Psatz.
From Coquelicot Require Import Coquelicot.
From Interval Require Import Tactic.
From Verif Require Import FArith Prelude DetailTables DetailModel DetailPure DetailRefine DetailEval Api ApiSafe SpecGeneric SpecHistory
  ArithR RSum SpecReal SpecDetail StdDetail DetailThermo DetailEos SpecStd SpecAcc SpecConv SpecIdeal StdDetailProof Drift Converge ConvDetail ConvReal ConvLow ConvCase DriftCase.
Import ListNotations.
Local Open Scope R_scope.

Definition dp1 d := 831451 / 100000 * 150 * (1 + 2 * (tot 18 (v1 150) - K1 ^ 3 * tot 6 (fun m => c1 (12 + m) * Rpower 150 (- u_ (12 + m)))) * d
  + tot 46 (fun m => let n := (12 + m)%nat in c1 n * Rpower 150 (- u_ n) * ((INR (b_ n) - INR (k_ n) * (K1 ^ 3 * d) ^ k_ n) * (INR (b_ n) + 1 - INR (k_ n) * (K1 ^ 3 * d) ^ k_ n) - INR (k_ n) ^ 2 * (K1 ^ 3 * d) ^ k_ n)
      * (K1 ^ 3 * d) ^ b_ n * match k_ n with O => 1 | k => exp (- (K1 ^ 3 * d) ^ k) end)).
Lemma kap : Rpower (sizeK5 (nn ch4)) (1/5) ^ 3 = K1 ^ 3.
Proof. rewrite K5_1, K_1, (R5 K1) by (unfold K1; lra). reflexivity. Qed.
Lemma dp_1 d : 0 < d -> is_derive (detail_p (nn ch4) 150) d (dp1 d).
Proof.
  intros Hd. evar_last; [exact (p_derive (nn ch4) 150 d Hd)|]. unfold dp1. f_equal. rewrite Z_eq. unfold Z1, lin. rewrite kap, V_1.
  rewrite (tot_ext 6 _ (fun m => c1 (12 + m) * Rpower 150 (- u_ (12 + m)))) by (intros m _; now rewrite C_1).
  set (f m := c1 (12 + m) * Rpower 150 (- u_ (12 + m)) * hb (b_ (12 + m)) (k_ (12 + m)) (K1 ^ 3 * d)).
  set (g m := c1 (12 + m) * Rpower 150 (- u_ (12 + m)) * hb1 (b_ (12 + m)) (k_ (12 + m)) (K1 ^ 3 * d)).
  set (S1 := tot 46 (fun m => _ * _ * hb _ _ _)). assert (S1 = tot 46 f) as -> by (apply tot_ext; intros m _; now rewrite C_1).
  set (S2 := tot 46 (fun m => _ * _ * (hb1 _ _ _ / d))). assert (d * S2 = tot 46 g) as E2.
  { unfold S2. rewrite <- tot_scal. apply tot_ext. intros m _. rewrite C_1. unfold g, c1. field. lra. }
  match goal with |- _ = _ + tot 46 ?h => assert (tot 46 h = tot 46 f + tot 46 g) as -> end.
  { transitivity (tot 46 (fun m => f m + g m)); [|exact (sum_plus 46 f g)]. apply tot_ext. intros m _. cbv zeta. unfold f, g, hb, hb1, ek. destruct (k_ (12 + m)); ring. }
  rewrite <- E2. unfold v1. toR. ring.
Qed.
Lemma dp_box d : 21848 / 1000 <= d <= 21851 / 1000 -> 1000 <= dp1 d <= 20000.
Proof. intros Hd. unfold dp1, c1, v1. split; numb. Qed.
Lemma p_lo : detail_p (nn ch4) 150 (21849 / 1000) <= 0.
Proof. unfold detail_p. rewrite Z_1. unfold c1, v1. numb. Qed.
Lemma p_hi : 1 <= detail_p (nn ch4) 150 (21850 / 1000).
Proof. unfold detail_p. rewrite Z_1. unfold c1, v1. numb. Qed.
