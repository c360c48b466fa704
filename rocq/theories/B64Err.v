(* Forward error analysis in binary64: [ap k a b v x M] says that the double v is finite and within
   k units of 2^-53 M of the real x, where M >= |x| is a scale that is 0 or between 2^a and 2^b. *)
From Coq Require Import Reals ZArith List Bool Lra Lia Psatz.
From Flocq Require Import Core BinarySingleNaN.
From Verif Require Import FArith ArithB64 B64Lemmas ArithR SpecAcc.
Import ListNotations.
Local Open Scope R_scope.

Notation p2 := (bpow radix2).
Definition rng (a b : Z) (M : R) : Prop := M = 0 \/ p2 a <= M <= p2 b.
Definition ap (k a b : Z) (v : b64) (x M : R) : Prop :=
  fin v /\ Rabs (bR v - x) <= IZR k * u64 * M /\ Rabs x <= M /\ rng a b M.
(* limits of the analysis *)
Definition KM : Z := 16777216.
Definition inr (a b : Z) : Prop := (-1000 <= a /\ b <= 1000)%Z.

Lemma u_pos : 0 < u64. Proof. apply bpow_gt_0. Qed.
Lemma u_small : u64 <= 1 / 9007199254740992. Proof. rewrite u64_val. lra. Qed.
Lemma rng0 a b : rng a b 0. Proof. now left. Qed.
Lemma rng_ge0 a b M : rng a b M -> 0 <= M.
Proof. intros [->|[H _]]; [lra|]. pose proof (bpow_gt_0 radix2 a). lra. Qed.
Lemma rng_le a b M : rng a b M -> M <= p2 b.
Proof. intros [->|[_ H]]; [|exact H]. pose proof (bpow_gt_0 radix2 b). lra. Qed.
Lemma rng_weak a b a' b' M : rng a b M -> (a' <= a)%Z -> (b <= b')%Z -> rng a' b' M.
Proof.
  intros [->|[H H']] Ha Hb; [now left|right]. split; eapply Rle_trans; try eassumption; now apply bpow_le.
Qed.
Lemma rng_mul a b a' b' M N : rng a b M -> rng a' b' N -> rng (a + a') (b + b') (M * N).
Proof.
  intros [->|[H1 H2]]; [intros _; left; ring|]. intros [->|[H3 H4]]; [left; ring|right]. rewrite !bpow_plus.
  pose proof (bpow_gt_0 radix2 a). pose proof (bpow_gt_0 radix2 a'). split; apply Rmult_le_compat; lra.
Qed.
Lemma rng_add a b a' b' M N : rng a b M -> rng a' b' N -> rng (Z.min a a') (Z.max b b' + 1) (M + N).
Proof.
  intros H1 H2. pose proof (rng_ge0 _ _ _ H1). pose proof (rng_ge0 _ _ _ H2).
  assert (p2 (Z.max b b' + 1) = 2 * p2 (Z.max b b')) as E by (rewrite bpow_plus; change (p2 1) with 2; ring).
  pose proof (rng_weak _ _ (Z.min a a') (Z.max b b') _ H1 ltac:(lia) ltac:(lia)) as W1.
  pose proof (rng_weak _ _ (Z.min a a') (Z.max b b') _ H2 ltac:(lia) ltac:(lia)) as W2.
  pose proof (rng_le _ _ _ W1). pose proof (rng_le _ _ _ W2). pose proof (bpow_gt_0 radix2 (Z.max b b')).
  destruct W1 as [->|[L1 _]]; [destruct W2 as [->|[L2 _]]; [left; ring|]|]; right; rewrite E; lra.
Qed.
Lemma rng_div a b a' b' M N : rng a b M -> p2 a' <= N <= p2 b' -> rng (a - b') (b - a') (M / N).
Proof.
  intros [->|[H1 H2]] [H3 H4]; [left; unfold Rdiv; ring|right].
  pose proof (bpow_gt_0 radix2 a). pose proof (bpow_gt_0 radix2 a'). pose proof (bpow_gt_0 radix2 b').
  unfold Zminus. rewrite !bpow_plus, !bpow_opp. unfold Rdiv.
  split; apply Rmult_le_compat; try lra; try (apply Rlt_le, Rinv_0_lt_compat; lra); apply Rinv_le; lra.
Qed.

Lemma ap_fin k a b v x M : ap k a b v x M -> fin v. Proof. now intros []. Qed.
Lemma ap_M k a b v x M : ap k a b v x M -> 0 <= M. Proof. intros (_ & _ & _ & H). exact (rng_ge0 _ _ _ H). Qed.
Lemma ap_weak k a b k' a' b' v x M : ap k a b v x M -> (k <= k')%Z -> (a' <= a)%Z -> (b <= b')%Z -> ap k' a' b' v x M.
Proof.
  intros (H1 & H2 & H3 & H4) Hk Ha Hb. split; [exact H1|]. split; [|split; [exact H3|now apply (rng_weak a b)]].
  eapply Rle_trans; [exact H2|]. apply Rmult_le_compat_r; [exact (rng_ge0 _ _ _ H4)|].
  apply Rmult_le_compat_r; [apply Rlt_le, u_pos|now apply IZR_le].
Qed.
(* a smaller scale, when the larger one exceeds it at most c times *)
Lemma ap_scale c k a b a' b' v x M N : ap k a b v x M -> M <= IZR c * N -> Rabs x <= N -> (0 <= k)%Z -> rng a' b' N ->
  ap (k * c) a' b' v x N.
Proof.
  intros (H1 & H2 & H3 & H4) HM Hx Hk Hr. split; [exact H1|]. split; [|split; assumption].
  eapply Rle_trans; [exact H2|]. rewrite mult_IZR.
  replace (IZR k * IZR c * u64 * N) with (IZR k * u64 * (IZR c * N)) by ring. apply Rmult_le_compat_l; [|exact HM].
  apply Rmult_le_pos; [now apply IZR_le|apply Rlt_le, u_pos].
Qed.
Lemma ap_eq k a b v x M x' M' : ap k a b v x M -> x = x' -> M = M' -> ap k a b v x' M'.
Proof. now intros H <- <-. Qed.
Lemma ap_0 a b : ap 0 a b B0 0 0.
Proof.
  split; [reflexivity|]. split; [|split; [rewrite Rabs_R0; lra|apply rng0]].
  change (bR B0) with 0. rewrite Rminus_0_r, Rabs_R0. lra.
Qed.
Lemma ap_neg k a b v x M : ap k a b v x M -> ap k a b (Bopp v) (- x) M.
Proof.
  intros (H1 & H2 & H3 & H4). split; [unfold fin in *; now rewrite is_finite_Bopp|].
  split; [|split; [now rewrite Rabs_Ropp|exact H4]]. unfold bR in *. rewrite B2R_Bopp.
  replace (- B2R v - - x) with (- (B2R v - x)) by ring. now rewrite Rabs_Ropp.
Qed.
(* an exact double *)
Lemma ap_exact a b v : fin v -> rng a b (Rabs (bR v)) -> ap 0 a b v (bR v) (Rabs (bR v)).
Proof.
  intros H Hr. split; [exact H|]. split; [|split; [lra|exact Hr]].
  replace (bR v - bR v) with 0 by ring. rewrite Rabs_R0. lra.
Qed.

(* rounding *)
Lemma round_err (k a b : Z) r y M : (0 <= k <= KM)%Z -> inr a b -> Rabs (r - y) <= IZR k * u64 * M -> Rabs y <= M -> rng a b M ->
  Rabs (rnd r) < p2 1024 /\ Rabs (rnd r - y) <= IZR (k + 2) * u64 * M.
Proof.
  intros Hk [Ha Hb] E Hy Hr. pose proof u_pos as U. pose proof u_small as U'.
  assert (0 <= IZR k <= 16777216) as K by (split; apply IZR_le; unfold KM in *; lia).
  destruct Hr as [->|[L H]].
  - assert (r = y) as -> . { rewrite Rmult_0_r in E. pose proof (Rabs_pos (r - y)). destruct (Req_dec (r - y) 0); [lra|].
      pose proof (Rabs_pos_lt _ H0). lra. }
    assert (y = 0) as ->. { destruct (Req_dec y 0); [assumption|]. pose proof (Rabs_pos_lt _ H). lra. }
    rewrite rnd_0. replace (0 - 0) with 0 by ring. rewrite Rabs_R0. split; [apply bpow_gt_0|lra].
  - assert (0 < M) as HM by (pose proof (bpow_gt_0 radix2 a); lra).
    assert (IZR k * u64 <= 1 / 16777216) as Ku.
    { apply Rle_trans with (16777216 * (1 / 9007199254740992)); [apply Rmult_le_compat; lra|lra]. }
    assert (Rabs r <= 2 * M) as Hr.
    { replace r with ((r - y) + y) by ring. eapply Rle_trans; [apply Rabs_triang|]. nra. }
    split.
    + apply (no_overflow _ 1001); [lia|]. eapply Rle_trans; [exact Hr|]. replace (p2 1001) with (2 * p2 1000) by
        (change 1001%Z with (1 + 1000)%Z; rewrite bpow_plus; change (p2 1) with 2; ring).
      pose proof (bpow_le radix2 b 1000 Hb). lra.
    + destruct (rnd_any r) as (e & h & He & Hh & ->).
      replace (r * (1 + e) + h - y) with ((r - y) + r * e + h) by ring.
      assert (Rabs h <= u64 * M / 2) as Hh'.
      { eapply Rle_trans; [exact Hh|]. apply Rle_trans with (u64 * p2 (-1000) / 2).
        - unfold u64. rewrite <- bpow_plus. change (p2 (-1075)) with (p2 (-53 + -1000 + -22)). rewrite bpow_plus.
          pose proof (bpow_gt_0 radix2 (-53 + -1000)). assert (p2 (-22) <= 1 / 2) by (simpl; lra). nra.
        - assert (p2 (-1000) <= M) by (pose proof (bpow_le radix2 (-1000) a Ha); lra). nra. }
      assert (Rabs (r * e) <= (M + IZR k * u64 * M) * u64) as Hre.
      { rewrite Rabs_mult. apply Rmult_le_compat; try apply Rabs_pos; [|exact He].
        replace r with ((r - y) + y) by ring. eapply Rle_trans; [apply Rabs_triang|]. lra. }
      rewrite plus_IZR. assert (IZR k * u64 * M * u64 <= u64 * M / 2).
      { assert (IZR k * u64 * (M * u64) <= 1 / 16777216 * (M * u64)); [|assert (0 < M * u64) by (apply Rmult_lt_0_compat; lra); lra].
        apply Rmult_le_compat_r; [|exact Ku]. apply Rlt_le, Rmult_lt_0_compat; lra. }
      eapply Rle_trans; [apply Rabs_triang|]. eapply Rle_trans; [apply Rplus_le_compat_r, Rabs_triang|]. lra.
Qed.
Lemma ap_round k a b r v y M : (0 <= k <= KM)%Z -> inr a b -> Rabs (r - y) <= IZR k * u64 * M -> Rabs y <= M -> rng a b M ->
  (Rabs (rnd r) < p2 1024 -> bR v = rnd r /\ fin v) -> ap (k + 2) a b v y M.
Proof.
  intros Hk Hi E Hy Hr Hv. destruct (round_err k a b r y M Hk Hi E Hy Hr) as [A B]. destruct (Hv A) as [V F].
  split; [exact F|]. split; [now rewrite V|]. now split.
Qed.

(* the operations *)
Lemma ap_add k1 a1 b1 v1 x1 M1 k2 a2 b2 v2 x2 M2 a b : ap k1 a1 b1 v1 x1 M1 -> ap k2 a2 b2 v2 x2 M2 ->
  (0 <= k1 <= KM)%Z -> (0 <= k2 <= KM)%Z -> inr a b -> rng a b (M1 + M2) ->
  ap (Z.max k1 k2 + 2) a b (badd v1 v2) (x1 + x2) (M1 + M2).
Proof.
  intros P1 P2 K1 K2 Hi Hr. pose proof (ap_M _ _ _ _ _ _ P1). pose proof (ap_M _ _ _ _ _ _ P2). pose proof u_pos as U.
  destruct P1 as (F1 & E1 & X1 & R1). destruct P2 as (F2 & E2 & X2 & R2).
  apply (ap_round (Z.max k1 k2) a b (bR v1 + bR v2)).
  - lia.
  - exact Hi.
  - replace (bR v1 + bR v2 - (x1 + x2)) with ((bR v1 - x1) + (bR v2 - x2)) by ring.
    eapply Rle_trans; [apply Rabs_triang|]. rewrite Rmult_plus_distr_l. apply Rplus_le_compat.
    + eapply Rle_trans; [exact E1|]. apply Rmult_le_compat_r; [assumption|]. apply Rmult_le_compat_r; [lra|]. apply IZR_le. lia.
    + eapply Rle_trans; [exact E2|]. apply Rmult_le_compat_r; [assumption|]. apply Rmult_le_compat_r; [lra|]. apply IZR_le. lia.
  - eapply Rle_trans; [apply Rabs_triang|]. lra.
  - exact Hr.
  - intros Ho. exact (add_ok v1 v2 F1 F2 Ho).
Qed.
Lemma ap_sub k1 a1 b1 v1 x1 M1 k2 a2 b2 v2 x2 M2 a b : ap k1 a1 b1 v1 x1 M1 -> ap k2 a2 b2 v2 x2 M2 ->
  (0 <= k1 <= KM)%Z -> (0 <= k2 <= KM)%Z -> inr a b -> rng a b (M1 + M2) ->
  ap (Z.max k1 k2 + 2) a b (bsub v1 v2) (x1 - x2) (M1 + M2).
Proof.
  intros P1 P2 K1 K2 Hi Hr. pose proof (ap_M _ _ _ _ _ _ P1). pose proof (ap_M _ _ _ _ _ _ P2). pose proof u_pos as U.
  destruct P1 as (F1 & E1 & X1 & R1). destruct P2 as (F2 & E2 & X2 & R2).
  apply (ap_round (Z.max k1 k2) a b (bR v1 - bR v2)).
  - lia.
  - exact Hi.
  - replace (bR v1 - bR v2 - (x1 - x2)) with ((bR v1 - x1) - (bR v2 - x2)) by ring.
    eapply Rle_trans; [apply Rabs_triang|]. rewrite Rabs_Ropp. rewrite Rmult_plus_distr_l. apply Rplus_le_compat.
    + eapply Rle_trans; [exact E1|]. apply Rmult_le_compat_r; [assumption|]. apply Rmult_le_compat_r; [lra|]. apply IZR_le. lia.
    + eapply Rle_trans; [exact E2|]. apply Rmult_le_compat_r; [assumption|]. apply Rmult_le_compat_r; [lra|]. apply IZR_le. lia.
  - eapply Rle_trans; [apply Rabs_triang|]. rewrite Rabs_Ropp. lra.
  - exact Hr.
  - intros Ho. exact (sub_ok v1 v2 F1 F2 Ho).
Qed.
Lemma KM_prod k1 k2 : (0 <= k1 <= KM)%Z -> (0 <= k2 <= KM)%Z -> IZR k1 * IZR k2 * u64 <= 1 / 16.
Proof.
  intros H1 H2. assert (0 <= IZR k1 <= 16777216) by (split; apply IZR_le; unfold KM in *; lia).
  assert (0 <= IZR k2 <= 16777216) by (split; apply IZR_le; unfold KM in *; lia).
  pose proof u_small. pose proof u_pos.
  apply Rle_trans with (16777216 * 16777216 * (1 / 9007199254740992)); [|lra].
  apply Rmult_le_compat; try lra; [apply Rmult_le_pos; lra|apply Rmult_le_compat; lra].
Qed.
Lemma ap_mul k1 a1 b1 v1 x1 M1 k2 a2 b2 v2 x2 M2 : ap k1 a1 b1 v1 x1 M1 -> ap k2 a2 b2 v2 x2 M2 ->
  (0 <= k1)%Z -> (0 <= k2)%Z -> (k1 + k2 + 1 <= KM)%Z -> inr (a1 + a2) (b1 + b2) ->
  ap (k1 + k2 + 3) (a1 + a2) (b1 + b2) (bmul v1 v2) (x1 * x2) (M1 * M2).
Proof.
  intros P1 P2 K1 K2 K3 Hi. pose proof (ap_M _ _ _ _ _ _ P1) as N1. pose proof (ap_M _ _ _ _ _ _ P2) as N2. pose proof u_pos as U.
  destruct P1 as (F1 & E1 & X1 & R1). destruct P2 as (F2 & E2 & X2 & R2).
  replace (k1 + k2 + 3)%Z with (k1 + k2 + 1 + 2)%Z by lia. apply (ap_round _ _ _ (bR v1 * bR v2)).
  - lia.
  - exact Hi.
  - replace (bR v1 * bR v2 - x1 * x2) with ((bR v1 - x1) * (bR v2 - x2) + (bR v1 - x1) * x2 + x1 * (bR v2 - x2)) by ring.
    eapply Rle_trans; [apply Rabs_triang|]. eapply Rle_trans; [apply Rplus_le_compat_r, Rabs_triang|]. rewrite !Rabs_mult.
    apply Rle_trans with (IZR k1 * u64 * M1 * (IZR k2 * u64 * M2) + IZR k1 * u64 * M1 * M2 + M1 * (IZR k2 * u64 * M2)).
    + repeat apply Rplus_le_compat; apply Rmult_le_compat; auto using Rabs_pos.
    + rewrite !plus_IZR. pose proof (KM_prod k1 k2 ltac:(lia) ltac:(lia)) as KP.
      assert (0 <= u64 * (M1 * M2)) as Z by (apply Rmult_le_pos; [lra|now apply Rmult_le_pos]).
      pose proof (Rmult_le_compat_r _ _ _ Z KP). lra.
  - rewrite Rabs_mult. apply Rmult_le_compat; auto using Rabs_pos.
  - now apply rng_mul.
  - intros Ho. exact (mul_ok v1 v2 F1 F2 Ho).
Qed.
(* division by a number known relatively *)
Lemma ap_div k1 a1 b1 v1 x1 M1 k2 a2 b2 v2 x2 : ap k1 a1 b1 v1 x1 M1 -> ap k2 a2 b2 v2 x2 x2 -> 0 < x2 ->
  (0 <= k1)%Z -> (0 <= k2)%Z -> (k1 + k2 + 1 <= KM)%Z -> inr (a1 - b2) (b1 - a2) ->
  ap (k1 + k2 + 3) (a1 - b2) (b1 - a2) (bdiv v1 v2) (x1 / x2) (M1 / x2).
Proof.
  intros P1 P2 Hx K1 K2 K3 Hi. pose proof (ap_M _ _ _ _ _ _ P1) as N1. pose proof u_pos as U. pose proof u_small as U'.
  destruct P1 as (F1 & E1 & X1 & R1). destruct P2 as (F2 & E2 & X2 & R2).
  assert (0 <= IZR k2 <= 16777216) as K2' by (split; apply IZR_le; unfold KM in *; lia).
  assert (0 <= IZR k1 <= 16777216) as K1' by (split; apply IZR_le; unfold KM in *; lia).
  assert (0 <= IZR k2 * u64 <= 1 / 268435456) as Ku.
  { split; [apply Rmult_le_pos; lra|]. apply Rle_trans with (16777216 * (1 / 9007199254740992)); [apply Rmult_le_compat; lra|lra]. }
  apply Rabs_le_inv in E2.
  assert (x2 * (1 - IZR k2 * u64) <= bR v2) as L by lra.
  assert (0 < bR v2) as V2. { eapply Rlt_le_trans; [|exact L]. apply Rmult_lt_0_compat; lra. }
  replace (k1 + k2 + 3)%Z with (k1 + k2 + 1 + 2)%Z by lia. apply (ap_round _ _ _ (bR v1 / bR v2)).
  - lia.
  - exact Hi.
  - replace (bR v1 / bR v2 - x1 / x2) with (((bR v1 - x1) * x2 - x1 * (bR v2 - x2)) / (bR v2 * x2)) by (field; lra).
    unfold Rdiv at 1. rewrite Rabs_mult. rewrite (Rabs_pos_eq (/ (bR v2 * x2))).
    2: { apply Rlt_le, Rinv_0_lt_compat. now apply Rmult_lt_0_compat. }
    apply Rle_trans with ((IZR k1 + IZR k2) * u64 * M1 * x2 * / (bR v2 * x2)).
    { apply Rmult_le_compat_r; [apply Rlt_le, Rinv_0_lt_compat; now apply Rmult_lt_0_compat|].
      eapply Rle_trans; [apply Rabs_triang|]. rewrite Rabs_Ropp, !Rabs_mult, (Rabs_pos_eq x2) by lra.
      replace ((IZR k1 + IZR k2) * u64 * M1 * x2) with (IZR k1 * u64 * M1 * x2 + M1 * (IZR k2 * u64 * x2)) by ring.
      apply Rplus_le_compat; apply Rmult_le_compat; auto using Rabs_pos; try lra. apply Rabs_le. lra. }
    replace ((IZR k1 + IZR k2) * u64 * M1 * x2 * / (bR v2 * x2)) with ((IZR k1 + IZR k2) * u64 * M1 * / bR v2) by (field; lra).
    apply Rle_trans with ((IZR k1 + IZR k2) * u64 * M1 * (/ x2 * (1 + 2 * (IZR k2 * u64)))).
    { apply Rmult_le_compat_l; [apply Rmult_le_pos; [apply Rmult_le_pos; lra|assumption]|].
      apply (Rmult_le_reg_r (bR v2 * x2)); [now apply Rmult_lt_0_compat|].
      replace (/ bR v2 * (bR v2 * x2)) with x2 by (field; lra).
      replace (/ x2 * (1 + 2 * (IZR k2 * u64)) * (bR v2 * x2)) with ((1 + 2 * (IZR k2 * u64)) * bR v2) by (field; lra).
      set (q := IZR k2 * u64) in *. apply Rle_trans with ((1 + 2 * q) * (x2 * (1 - q))); [|apply Rmult_le_compat_l; lra].
      replace ((1 + 2 * q) * (x2 * (1 - q))) with (x2 + x2 * (q * (1 - 2 * q))) by ring.
      assert (0 <= x2 * (q * (1 - 2 * q))); [|lra]. apply Rmult_le_pos; [lra|]. apply Rmult_le_pos; lra. }
    rewrite !plus_IZR. pose proof (KM_prod k1 k2 ltac:(lia) ltac:(lia)) as A. pose proof (KM_prod k2 k2 ltac:(lia) ltac:(lia)) as B.
    assert (0 <= u64 * M1 * / x2) as Z.
    { apply Rmult_le_pos; [apply Rmult_le_pos; lra|]. apply Rlt_le, Rinv_0_lt_compat, Hx. }
    pose proof (Rmult_le_compat_r _ _ _ Z A). pose proof (Rmult_le_compat_r _ _ _ Z B). unfold Rdiv. lra.
  - unfold Rdiv. rewrite Rabs_mult, (Rabs_pos_eq (/ x2)) by (apply Rlt_le, Rinv_0_lt_compat, Hx).
    apply Rmult_le_compat_r; [apply Rlt_le, Rinv_0_lt_compat, Hx|exact X1].
  - destruct R2 as [->|R2]; [lra|]. now apply rng_div.
  - intros Ho. apply (div_ok v1 v2 F1); [lra|exact Ho].
Qed.

(* numbers known relatively *)
Lemma rel_of k a b v x : ap k a b v x x -> 0 < x -> (0 <= k <= KM)%Z ->
  fin v /\ Rabs (bR v - x) <= IZR k * u64 * x /\ p2 a <= x <= p2 b /\ 0 <= IZR k * u64 <= 1 / 268435456 /\ 0 < bR v.
Proof.
  intros (F & E & _ & R) Hx K. pose proof u_pos as U. pose proof u_small as U'.
  assert (0 <= IZR k <= 16777216) as K' by (split; apply IZR_le; unfold KM in *; lia).
  assert (0 <= IZR k * u64 <= 1 / 268435456) as Ku.
  { split; [apply Rmult_le_pos; lra|]. apply Rle_trans with (16777216 * (1 / 9007199254740992)); [apply Rmult_le_compat; lra|lra]. }
  split; [exact F|]. split; [exact E|]. split; [destruct R as [->|R]; [lra|exact R]|]. split; [exact Ku|].
  apply Rabs_le_inv in E. assert (0 < x * (1 - IZR k * u64)) by (apply Rmult_lt_0_compat; lra). lra.
Qed.
Lemma ln_le1 y : 0 < y -> ln y <= y - 1.
Proof.
  intros Hy. pose proof (exp_ineq1_le (ln y)). rewrite exp_ln in H by exact Hy. lra.
Qed.
Lemma ln_rel v x q : 0 < x -> 0 <= q <= 1 / 2 -> Rabs (v - x) <= q * x -> Rabs (ln v - ln x) <= q * (1 + 2 * q).
Proof.
  intros Hx Hq H. apply Rabs_le_inv in H. assert (0 < v).
  { assert (0 < x * (1 - q)) by (apply Rmult_lt_0_compat; lra). lra. }
  replace (ln v - ln x) with (ln (v / x)) by (unfold Rdiv; rewrite ln_mult, ln_Rinv by (try assumption; now apply Rinv_0_lt_compat); ring).
  assert (v / x <= 1 + q) as A. { apply (Rmult_le_reg_r x); [assumption|]. unfold Rdiv. rewrite Rmult_assoc, Rinv_l by lra. lra. }
  assert (1 - q <= v / x) as B. { apply (Rmult_le_reg_r x); [assumption|]. unfold Rdiv. rewrite Rmult_assoc, Rinv_l by lra. lra. }
  assert (0 < v / x) as C by (apply Rdiv_lt_0_compat; assumption). apply Rabs_le. split.
  - pose proof (ln_le1 (/ (v / x)) ltac:(now apply Rinv_0_lt_compat)) as D. rewrite ln_Rinv in D by exact C.
    assert (/ (v / x) <= 1 + q * (1 + 2 * q)); [|lra].
    apply (Rmult_le_reg_r (v / x)); [exact C|]. rewrite Rinv_l by lra.
    apply Rle_trans with ((1 + q * (1 + 2 * q)) * (1 - q)); [nra|]. apply Rmult_le_compat_l; [nra|exact B].
  - pose proof (ln_le1 (v / x) C). nra.
Qed.
Lemma exp_rel th h : Rabs th <= h -> h <= 1 / 2 -> Rabs (exp th - 1) <= h + 2 * (h * h).
Proof.
  intros H Hh. pose proof (Rabs_pos th). apply Rabs_le_inv in H. pose proof (exp_ineq1_le th). pose proof (exp_ineq1_le (- th)) as E.
  apply Rabs_le. split; [nra|]. rewrite exp_Ropp in E. pose proof (exp_pos th).
  assert (exp th * (1 - th) <= 1). { apply Rle_trans with (exp th * / exp th); [apply Rmult_le_compat_l; lra|rewrite Rinv_r; lra]. }
  assert (exp th <= 1 + h + 2 * (h * h)); [|lra]. apply (Rmult_le_reg_r (1 - th)); [lra|].
  apply Rle_trans with 1; [assumption|]. apply Rle_trans with ((1 + h + 2 * (h * h)) * (1 - h)); [nra|].
  apply Rmult_le_compat_l; nra.
Qed.
(* a result within 2^-50 of r, where r is y up to a factor exp theta *)
Lemma ap_libm K a b v r y th : close v r -> 0 < y -> r = y * exp th -> Rabs th <= IZR K * u64 -> (0 <= K <= KM)%Z -> rng a b y ->
  ap (K + 10) a b v y y.
Proof.
  intros (F & E) Hy Hr Ht HK R. pose proof u_pos as U. pose proof u_small as U'.
  assert (0 <= IZR K <= 16777216) as K' by (split; apply IZR_le; unfold KM in *; lia).
  pose proof (KM_prod K K HK HK) as KK.
  assert (0 <= IZR K * u64 <= 1 / 268435456) as Ku.
  { split; [apply Rmult_le_pos; lra|]. apply Rle_trans with (16777216 * (1 / 9007199254740992)); [apply Rmult_le_compat; lra|lra]. }
  pose proof (exp_rel th (IZR K * u64) Ht ltac:(lra)) as X.
  assert (IZR K * u64 + 2 * (IZR K * u64 * (IZR K * u64)) <= (IZR K + 1 / 8) * u64) as Y.
  { replace (IZR K * u64 * (IZR K * u64)) with (IZR K * IZR K * u64 * u64) by ring. nra. }
  assert (Rabs (r - y) <= (IZR K + 1 / 8) * u64 * y) as D.
  { subst r. replace (y * exp th - y) with (y * (exp th - 1)) by ring. rewrite Rabs_mult, (Rabs_pos_eq y) by lra.
    rewrite Rmult_comm. apply Rmult_le_compat_r; lra. }
  assert (Rabs r <= (1 + 1 / 32) * y) as Rr.
  { replace r with ((r - y) + y) by ring. eapply Rle_trans; [apply Rabs_triang|]. rewrite (Rabs_pos_eq y) by lra. nra. }
  split; [exact F|]. split; [|split; [rewrite Rabs_pos_eq; lra|exact R]].
  replace (bR v - y) with ((bR v - r) + (r - y)) by ring. eapply Rle_trans; [apply Rabs_triang|]. rewrite plus_IZR.
  replace (p2 (-50)) with (8 * u64) in E by (unfold u64; change 8 with (p2 3); rewrite <- bpow_plus; reflexivity). nra.
Qed.

Section Lib.
Variable m : Libm.
Hypothesis A : accurate m.
Lemma middle_of a b y th : 0 < y -> rng a b y -> (-999 <= a)%Z -> (b <= 999)%Z -> Rabs th <= 1 / 4 -> middle (y * exp th).
Proof.
  intros Hy R Ha Hb Ht. destruct R as [->|[R1 R2]]; [lra|]. pose proof (exp_rel th (1/4) Ht ltac:(lra)) as X. apply Rabs_le_inv in X.
  assert (1 / 2 <= exp th <= 2) as X' by lra. unfold middle. rewrite Rabs_pos_eq by nra.
  pose proof (bpow_le radix2 _ _ Ha). pose proof (bpow_le radix2 _ _ Hb).
  replace (p2 (-1000)) with (p2 (-999) * (1 / 2)) by (change (-1000)%Z with (-999 + -1)%Z; rewrite bpow_plus; simpl; lra).
  replace (p2 1000) with (p2 999 * 2) by (change 1000%Z with (999 + 1)%Z; rewrite bpow_plus; simpl; lra).
  pose proof (bpow_gt_0 radix2 (-999)). split; apply Rmult_le_compat; lra.
Qed.
Lemma small_th K th : (0 <= K <= KM)%Z -> Rabs th <= IZR K * u64 -> Rabs th <= 1 / 4.
Proof.
  intros HK H. pose proof u_small. pose proof u_pos. assert (0 <= IZR K <= 16777216) by (split; apply IZR_le; unfold KM in *; lia).
  eapply Rle_trans; [exact H|]. apply Rle_trans with (16777216 * (1 / 9007199254740992)); [apply Rmult_le_compat; lra|lra].
Qed.
(* powers with an exponent that is a correctly rounded literal *)
Lemma ap_powf k a b v x w y Y Lx K a' b' : ap k a b v x x -> 0 < x -> (0 <= k <= KM)%Z -> fin w -> Rabs (bR w - y) <= u64 * Rabs y ->
  Rabs y <= Y -> Rabs (ln x) <= Lx -> Y * (IZR k + Lx + 2) <= IZR K -> (0 <= K <= KM)%Z ->
  rng a' b' (Rpower x y) -> (-999 <= a')%Z -> (b' <= 999)%Z ->
  ap (K + 10) a' b' (lm_powf m v w) (Rpower x y) (Rpower x y).
Proof.
  intros P Hx Hk Fw Ew HY HL HK HK' R Ha Hb. destruct (rel_of k a b v x P Hx Hk) as (F & E & B & Ku & V). pose proof u_pos as U.
  pose proof (ln_rel (bR v) x (IZR k * u64) Hx ltac:(lra) E) as L. pose proof (KM_prod k k Hk Hk) as KK. pose proof (Rabs_pos y). pose proof (Rabs_pos (ln x)).
  assert (0 <= IZR k) as Hk0 by (apply IZR_le; lia).
  assert (Rabs (ln (bR v) - ln x) <= (IZR k + 1 / 8) * u64) as L'.
  { eapply Rle_trans; [exact L|]. replace (IZR k * u64 * (1 + 2 * (IZR k * u64))) with ((IZR k + 2 * (IZR k * IZR k * u64)) * u64) by ring.
    apply Rmult_le_compat_r; lra. }
  assert (Rabs (ln (bR v)) <= Lx + 1) as Lv.
  { replace (ln (bR v)) with ((ln (bR v) - ln x) + ln x) by ring. eapply Rle_trans; [apply Rabs_triang|]. nra. }
  set (th := bR w * ln (bR v) - y * ln x).
  assert (Rpower (bR v) (bR w) = Rpower x y * exp th) as ER.
  { unfold Rpower, th. rewrite <- exp_plus. f_equal. ring. }
  assert (Rabs th <= IZR K * u64) as T.
  { unfold th. replace (bR w * ln (bR v) - y * ln x) with (y * (ln (bR v) - ln x) + (bR w - y) * ln (bR v)) by ring.
    eapply Rle_trans; [apply Rabs_triang|]. rewrite !Rabs_mult.
    apply Rle_trans with (Y * ((IZR k + 1 / 8) * u64) + u64 * Y * (Lx + 1)).
    - apply Rplus_le_compat; apply Rmult_le_compat; auto using Rabs_pos. eapply Rle_trans; [exact Ew|]. apply Rmult_le_compat_l; lra.
    - apply Rle_trans with (Y * (IZR k + Lx + 2) * u64); [|apply Rmult_le_compat_r; lra].
      replace (Y * ((IZR k + 1 / 8) * u64) + u64 * Y * (Lx + 1)) with (Y * (IZR k + Lx + 9 / 8) * u64) by field.
      apply Rmult_le_compat_r; [lra|]. apply Rmult_le_compat_l; lra. }
  destruct A as (A1 & _). apply (ap_libm K a' b' _ (Rpower (bR v) (bR w)) _ th); try assumption.
  - apply A1; try assumption. rewrite ER. apply (middle_of a' b'); try assumption; [apply exp_pos|now apply (small_th K)].
  - apply exp_pos.
Qed.
Lemma ap_powi n k a b v x K a' b' : (1 <= n <= 6)%nat -> ap k a b v x x -> 0 <= x -> (0 <= k <= KM)%Z ->
  (Z.of_nat n * (k + 1) <= K)%Z -> (0 <= K <= KM)%Z -> rng a' b' (x ^ n) -> (-999 <= a')%Z -> (b' <= 999)%Z ->
  ap (K + 10) a' b' (lm_powi m v (Z.of_nat n)) (x ^ n) (x ^ n).
Proof.
  intros Hn P Hx Hk HK HK' R Ha Hb. destruct A as (_ & A2 & _). destruct (Req_dec x 0) as [->|Hx0].
  - destruct P as (F & E & _). rewrite Rmult_0_r, Rminus_0_r in E.
    assert (bR v = 0) as V. { destruct (Req_dec (bR v) 0); [assumption|]. pose proof (Rabs_pos_lt _ H). lra. }
    destruct (A2 v n F Hn (or_introl V)) as (G & C). rewrite V, pow_i in C by lia. rewrite pow_i in R |- * by lia.
    rewrite Rabs_R0, Rmult_0_r in C. split; [exact G|]. split; [now rewrite Rmult_0_r|]. split; [rewrite Rabs_R0; lra|exact R].
  - assert (0 < x) as Hx' by lra. destruct (rel_of k a b v x P Hx' Hk) as (F & E & B & Ku & V). pose proof u_pos as U.
    pose proof (ln_rel (bR v) x (IZR k * u64) Hx' ltac:(lra) E) as L. pose proof (KM_prod k k Hk Hk) as KK.
    assert (0 <= IZR k) as Hk0 by (apply IZR_le; lia).
    assert (Rabs (ln (bR v) - ln x) <= (IZR k + 1) * u64) as L'.
    { eapply Rle_trans; [exact L|]. replace (IZR k * u64 * (1 + 2 * (IZR k * u64))) with ((IZR k + 2 * (IZR k * IZR k * u64)) * u64) by ring.
      apply Rmult_le_compat_r; lra. }
    set (th := INR n * (ln (bR v) - ln x)).
    assert (bR v ^ n = x ^ n * exp th) as ER.
    { rewrite <- !Rpower_pow by assumption. unfold Rpower, th. rewrite <- exp_plus. f_equal. ring. }
    assert (Rabs th <= IZR K * u64) as T.
    { unfold th. rewrite Rabs_mult, (Rabs_pos_eq (INR n)) by apply pos_INR. apply Rle_trans with (INR n * ((IZR k + 1) * u64)).
      - apply Rmult_le_compat_l; [apply pos_INR|exact L'].
      - rewrite INR_IZR_INZ, <- Rmult_assoc. apply Rmult_le_compat_r; [lra|].
        change (IZR k + 1) with (IZR k + IZR 1). rewrite <- plus_IZR, <- mult_IZR. now apply IZR_le. }
    assert (0 < x ^ n) by now apply pow_lt.
    apply (ap_libm K a' b' _ (bR v ^ n) _ th); try assumption.
    apply A2; try assumption. right. rewrite ER. apply (middle_of a' b'); try assumption. now apply (small_th K).
Qed.
Lemma ap_exp v y K a' b' : fin v -> Rabs (bR v - y) <= IZR K * u64 -> (0 <= K <= KM)%Z -> Rabs y <= 599 -> rng a' b' (exp y) ->
  ap (K + 10) a' b' (lm_exp m v) (exp y) (exp y).
Proof.
  intros F E HK Hy R. destruct A as (_ & _ & A3 & _). pose proof (small_th K _ HK E) as S.
  apply (ap_libm K a' b' _ (exp (bR v)) _ (bR v - y)); try assumption; [|apply exp_pos|rewrite <- exp_plus; f_equal; ring].
  apply A3; [exact F|]. replace (bR v) with ((bR v - y) + y) by ring. eapply Rle_trans; [apply Rabs_triang|]. lra.
Qed.
End Lib.

Lemma ap_sqrt k a b v x a' b' : ap k a b v x x -> 0 < x -> (0 <= k <= KM)%Z -> (2 * a' <= a)%Z -> (b <= 2 * b')%Z -> inr a' b' ->
  ap (k + 2) a' b' (bsqrt v) (sqrt x) (sqrt x).
Proof.
  intros P Hx Hk Ha Hb Hi. destruct (rel_of k a b v x P Hx Hk) as (F & E & B & Ku & V).
  assert (0 < sqrt x) as S by now apply sqrt_lt_R0. assert (0 < sqrt (bR v)) as S' by now apply sqrt_lt_R0.
  apply (ap_round k a' b' (sqrt (bR v))); [exact Hk|exact Hi| |rewrite Rabs_pos_eq; lra| |].
  - assert ((sqrt (bR v) - sqrt x) * (sqrt (bR v) + sqrt x) = bR v - x) as D.
    { replace ((sqrt (bR v) - sqrt x) * (sqrt (bR v) + sqrt x)) with (sqrt (bR v) * sqrt (bR v) - sqrt x * sqrt x) by ring.
      rewrite !sqrt_sqrt by lra. reflexivity. }
    apply (Rmult_le_reg_r (sqrt (bR v) + sqrt x)); [lra|].
    rewrite <- (Rabs_pos_eq (sqrt (bR v) + sqrt x)) at 1 by lra. rewrite <- Rabs_mult, D. eapply Rle_trans; [exact E|].
    rewrite <- (sqrt_sqrt x) at 1 by lra. rewrite <- Rmult_assoc. apply Rmult_le_compat_l; [|lra]. apply Rmult_le_pos; lra.
  - right. assert (forall e, sqrt (p2 (2 * e)) = p2 e) as Q.
    { intros e. replace (2 * e)%Z with (e + e)%Z by lia. rewrite bpow_plus. apply sqrt_square. apply Rlt_le, bpow_gt_0. }
    rewrite <- (Q a'), <- (Q b'). destruct B as [B1 B2]. split; apply sqrt_le_1_alt.
    + apply (Rle_trans _ (p2 a)); [now apply bpow_le|exact B1].
    + apply (Rle_trans _ (p2 b)); [exact B2|now apply bpow_le].
  - intros _. pose proof (Bsqrt_correct 53 1024 _ _ mode_NE v) as (C1 & C2 & _). split; [exact C1|].
    unfold fin, bsqrt. rewrite C2. unfold fin, bR in *. destruct v as [s|s| |s mm e He]; try discriminate; cbn in V; [lra|].
    destruct s; [|reflexivity]. exfalso. revert V. unfold F2R. cbn [Fnum Fexp]. intros V.
    pose proof (bpow_gt_0 radix2 e). assert (IZR (cond_Zopp true (Zpos mm)) < 0) by (apply IZR_lt; reflexivity). nra.
Qed.

(* literals *)
Definition lit_in (a b : Z) (l : lit) : bool :=
  let '(L m e) := l in
  let n := (Z.abs m * 10 ^ Z.max 0 e)%Z in let d := (10 ^ Z.max 0 (- e))%Z in
  ((m =? 0) || ((2 ^ Z.max 0 a * d <=? n * 2 ^ Z.max 0 (- a)) && (n * 2 ^ Z.max 0 (- b) <=? 2 ^ Z.max 0 b * d)))%Z%bool.
Lemma litR_Rlit l : litR l = Rlit l.
Proof.
  destruct l as [m e]. cbn [litR Rlit]. destruct e as [|p|p].
  - cbn. ring.
  - rewrite powerRZ_pos10 by lia. now rewrite <- mult_IZR.
  - change (Zneg p) with (- Zpos p)%Z. rewrite powerRZ_neg' , powerRZ_pos10 by lia. reflexivity.
Qed.
Lemma p2_ratio a : p2 a = IZR (2 ^ Z.max 0 a) / IZR (2 ^ Z.max 0 (- a)).
Proof.
  assert (forall e, (0 <= e)%Z -> IZR (2 ^ e) = p2 e) as Q by (intros e He; apply (IZR_Zpower radix2 e He)).
  rewrite !Q by lia. destruct (Z.le_ge_cases 0 a).
  - rewrite (Z.max_r 0 a), (Z.max_l 0 (- a)) by lia. change (p2 0) with 1. field.
  - rewrite (Z.max_l 0 a), (Z.max_r 0 (- a)) by lia. change (p2 0) with 1. rewrite bpow_opp. field. apply Rgt_not_eq, bpow_gt_0.
Qed.
Lemma lit_ratio m e : Rabs (Rlit (L m e)) = IZR (Z.abs m * 10 ^ Z.max 0 e) / IZR (10 ^ Z.max 0 (- e)).
Proof.
  cbn [Rlit]. destruct e as [|p|p].
  - change (Z.max 0 0) with 0%Z. change (10 ^ 0)%Z with 1%Z. change (Z.max 0 (- 0)) with 0%Z. rewrite Z.mul_1_r, abs_IZR.
    change (IZR (10 ^ 0)) with 1. field.
  - rewrite (Z.max_r 0 (Zpos p)), (Z.max_l 0 (- Zpos p)) by lia. change (IZR (10 ^ 0)) with 1. rewrite <- abs_IZR, Z.abs_mul.
    rewrite (Z.abs_eq (10 ^ Zpos p)) by (apply Z.pow_nonneg; lia). field.
  - rewrite (Z.max_l 0 (Zneg p)), (Z.max_r 0 (- Zneg p)) by lia. change (- Zneg p)%Z with (Zpos p). change (10 ^ 0)%Z with 1%Z.
    rewrite Z.mul_1_r, abs_IZR. unfold Rdiv. rewrite Rabs_mult. f_equal. apply Rabs_pos_eq, Rlt_le, Rinv_0_lt_compat, IZR_lt.
    apply Z.pow_pos_nonneg; lia.
Qed.
Lemma lit_in_ok a b l : lit_in a b l = true -> rng a b (Rabs (Rlit l)).
Proof.
  destruct l as [m e]. intros H. apply orb_true_iff in H. destruct H as [H|H].
  - apply Z.eqb_eq in H. subst m. left. rewrite lit_ratio. change (Z.abs 0) with 0%Z. rewrite Z.mul_0_l. unfold Rdiv. apply Rmult_0_l.
  - apply andb_true_iff in H. destruct H as [H1 H2]. apply Z.leb_le, IZR_le in H1. apply Z.leb_le, IZR_le in H2.
    rewrite !mult_IZR in H1, H2. right. rewrite lit_ratio, !p2_ratio, !mult_IZR.
    assert (forall c, 0 < IZR (2 ^ Z.max 0 c)) as Q by (intros c; apply IZR_lt, Z.pow_pos_nonneg; lia).
    assert (0 < IZR (10 ^ Z.max 0 (- e))) as T by (apply IZR_lt, Z.pow_pos_nonneg; lia).
    pose proof (Q (- a)%Z). pose proof (Q (- b)%Z). split.
    + apply (Rmult_le_reg_r (IZR (2 ^ Z.max 0 (- a)) * IZR (10 ^ Z.max 0 (- e)))); [now apply Rmult_lt_0_compat|].
      field_simplify; [|lra|lra]. lra.
    + apply (Rmult_le_reg_r (IZR (2 ^ Z.max 0 (- b)) * IZR (10 ^ Z.max 0 (- e)))); [now apply Rmult_lt_0_compat|].
      field_simplify; [|lra|lra]. lra.
Qed.
Lemma lit_err l a b : lit_in a b l = true -> inr a b -> fin (blit l) /\ Rabs (bR (blit l) - Rlit l) <= u64 * Rabs (Rlit l).
Proof.
  intros H Hi. pose proof (lit_in_ok a b l H) as R. rewrite <- litR_Rlit in *.
  destruct (round_err 0 a b (litR l) (litR l) (Rabs (litR l)) ltac:(unfold KM; lia) Hi) as [B _]; [|lra|exact R|].
  { replace (litR l - litR l) with 0 by ring. rewrite Rabs_R0. lra. }
  destruct (blit_correct l B) as [E F]. split; [exact F|]. rewrite E. destruct R as [R|[R _]].
  - assert (litR l = 0) as ->. { destruct (Req_dec (litR l) 0); [assumption|]. pose proof (Rabs_pos_lt _ H0). lra. }
    rewrite rnd_0, Rminus_0_r, Rabs_R0. lra.
  - destruct (rnd_rel (litR l)) as (e & He & ->).
    { eapply Rle_trans; [|exact R]. apply bpow_le. destruct Hi. lia. }
    replace (litR l * (1 + e) - litR l) with (e * litR l) by ring. rewrite Rabs_mult. apply Rmult_le_compat_r; [apply Rabs_pos|exact He].
Qed.
Lemma ap_lit l a b : lit_in a b l = true -> inr a b -> ap 1 a b (blit l) (Rlit l) (Rabs (Rlit l)).
Proof.
  intros H Hi. destruct (lit_err l a b H Hi) as [F E]. split; [exact F|]. split; [lra|]. split; [lra|]. now apply lit_in_ok.
Qed.
Lemma ap_nat n : (0 < Z.of_nat n < 256)%Z -> ap 1 0 8 (bofZ (Z.of_nat n)) (INR n) (INR n).
Proof.
  intros H. rewrite INR_IZR_INZ. pose proof (ap_lit (L (Z.of_nat n) 0) 0 8) as P. cbn [lit_in] in P.
  assert (0 < IZR (Z.of_nat n)) by (apply IZR_lt; lia).
  replace (Rabs (Rlit (L (Z.of_nat n) 0))) with (IZR (Z.of_nat n)) in P by (cbn [Rlit]; rewrite Rabs_pos_eq; lra).
  cbn [blit Rlit] in P. change (0 <=? 0)%Z with true in P. cbv iota in P. change (10 ^ 0)%Z with 1%Z in P. rewrite (Z.mul_1_r (Z.of_nat n)) in P.
  apply P; [|split; lia]. apply orb_true_iff. right. apply andb_true_iff. split; apply Z.leb_le; cbn -[Z.mul Z.abs]; rewrite Z.abs_eq; lia.
Qed.

(* ranges of powers *)
Lemma ln_mono x y : 0 < x -> x <= y -> ln x <= ln y.
Proof. intros Hx [H| ->]; [left; now apply ln_increasing|right; reflexivity]. Qed.
Lemma ln_rng a b x n : 0 < x -> rng a b x -> (- n <= a)%Z -> (b <= n)%Z -> Rabs (ln x) <= IZR n * ln 2.
Proof.
  intros Hx [->|[H1 H2]] Ha Hb; [lra|]. assert (0 < ln 2) as L2 by (rewrite <- ln_1; apply ln_increasing; lra).
  assert (forall e, ln (p2 e) = IZR e * ln 2) as Q by (intros e; rewrite bpow_exp; apply ln_exp).
  apply Rabs_le. split.
  - apply (Rle_trans _ (ln (p2 a))); [rewrite Q|apply ln_mono; [apply bpow_gt_0|exact H1]].
    rewrite Ropp_mult_distr_l, <- opp_IZR. apply Rmult_le_compat_r; [lra|now apply IZR_le].
  - apply (Rle_trans _ (ln (p2 b))); [apply ln_mono; [exact Hx|exact H2]|rewrite Q].
    apply Rmult_le_compat_r; [lra|now apply IZR_le].
Qed.
Lemma ln2_le1 : 0 < ln 2 <= 1.
Proof. split; [rewrite <- ln_1; apply ln_increasing; lra|]. pose proof (ln_le1 2). lra. Qed.
Lemma ln_rng1 a b x n : 0 < x -> rng a b x -> (- n <= a)%Z -> (b <= n)%Z -> (0 <= n)%Z -> Rabs (ln x) <= IZR n.
Proof.
  intros. eapply Rle_trans; [eapply (ln_rng a b x n); eassumption|]. pose proof ln2_le1. assert (0 <= IZR n) by (apply IZR_le; lia). nra.
Qed.
Lemma rpow_rng a b x y Y n N : 0 < x -> rng a b x -> (- n <= a)%Z -> (b <= n)%Z -> (0 <= n)%Z -> Rabs y <= Y -> Y * IZR n <= IZR N ->
  rng (- N) N (Rpower x y).
Proof.
  intros Hx R Ha Hb Hn Hy HN. pose proof (ln_rng a b x n Hx R Ha Hb) as L. pose proof ln2_le1 as L2.
  assert (forall e, p2 e = exp (IZR e * ln 2)) as Q by (intros e; apply bpow_exp). right. rewrite !Q. unfold Rpower.
  assert (Rabs (y * ln x) <= IZR N * ln 2) as B.
  { rewrite Rabs_mult. apply Rle_trans with (Y * (IZR n * ln 2)); [apply Rmult_le_compat; auto using Rabs_pos|].
    rewrite <- Rmult_assoc. apply Rmult_le_compat_r; lra. }
  apply Rabs_le_inv in B. rewrite opp_IZR.
  assert (forall s t, s <= t -> exp s <= exp t) as X by (intros s t [H| ->]; [left; now apply exp_increasing|right; reflexivity]).
  split; apply X; lra.
Qed.
