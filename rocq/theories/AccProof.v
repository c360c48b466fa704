(* The DETAIL pressure in double precision is close to the printed equation of state. *)
From Coq Require Import Reals ZArith List Bool Lra Lia Psatz.
From Flocq Require Import Core BinarySingleNaN.
From Verif Require Import FArith Prelude Tab ArithB64 B64Lemmas ArithR RSum SpecDetail SpecStd SpecAcc DetailTables DetailModel DetailPure DetailRefine DetailEval
  DetailEos Api ApiSafe BasicProofs Drift StdDetailProof B64Err AccFold AccMix AccMix2 AccMix3 AccMix4 AccEos.
Import ListNotations.
Local Open Scope R_scope.

(* a first pressure evaluation *)
Section New.
Context {A : Arith}.
Local Opaque ar_of ar00 ar01 ar02 ar03 ar10 ar11 ar20 cTun cBs cCsn cK3 x_diff pa0 pmm tab pressure properties differs.
Lemma press_new_z {P : DParams} x t d s cx ct : wf cx ct s -> d_x s = x -> d_t s = t -> d_d s = d ->
  x_diff x (d_xold s) = true -> differs t (d_told s) = true ->
  exists s', pressure s = Some (s', pp (cache_of (Some x) (Some t)) t d) /\ d_z s' = pz (cache_of (Some x) (Some t)) t d.
Proof.
  intros W <- <- <- Hx Ht.
  assert (E1 : ncx cx s = Some (d_x s)) by (unfold ncx, new_cx; now rewrite Hx).
  assert (E2 : nct ct s = Some (d_t s)) by (unfold nct, new_ct; now rewrite Ht).
  pose proof (pressure_ok _ _ _ W) as E.
  rewrite press_flat in E. unfold ncache in E. rewrite E1, E2 in E.
  eexists. split; [exact E|]. reflexivity.
Qed.
Lemma first_pressure (x : nat -> F) (t d : F) : x_diff (map x (seq 0 21)) (repeat f0 21) = true -> differs t f0 = true ->
  exists s, dexec New [SetX x; Poke PT t; Poke PD d; Pressure]
    = Some (s, [OUnit; OUnit; OUnit; OVal (pp (@cache_of A dp_new (Some (map x (seq 0 21))) (Some t)) t d)]) /\
    dread PZ s = pz (@cache_of A dp_new (Some (map x (seq 0 21))) (Some t)) t d.
Proof.
  intros Hx Ht.
  assert (W : @wf A dp_new None None (set_d_d d (set_d_t t (set_d_x (map x (seq 0 21)) detail_fresh)))).
  { apply (@wf_poke A dp_new PD), (@wf_poke A dp_new PT), wf_set_x; [now rewrite map_length, seq_length|exact wf_fresh]. }
  destruct (@press_new_z dp_new (map x (seq 0 21)) t d _ None None W eq_refl eq_refl eq_refl Hx Ht) as (s & E & Z).
  exists s. split; [|exact Z]. apply dexec_new. cbn [drun dstep dpoke bind]. rewrite E. reflexivity.
Qed.
End New.

(* sizes *)
Definition dsize (y : nat -> R) (T d : R) : R := let D := sizeK y ^ 3 * d in
  1 + d * sum 18 (fun n => Rabs (Bterm y n * Rpower T (- tb D_UN n))) + D * sum 6 (fun m => Rabs (Cstar y (12 + m)) * Rpower T (- tb D_UN (12 + m)))
  + sum 46 (fun m => let n := (12 + m)%nat in Rabs (Cstar y n) * Rpower T (- tb D_UN n) * (INR (bn n) + INR (kn n) * D ^ kn n) * D ^ bn n * expc D n).
Lemma dsize_ext y z T d : (forall i, (i < 21)%nat -> y i = z i) -> dsize y T d = dsize z T d.
Proof.
  intros E. unfold dsize, sizeK. cbv zeta. rewrite (K5_ext y z E). apply f_equal2; [apply f_equal2; [apply f_equal2; [reflexivity|apply f_equal2; [reflexivity|]]|apply f_equal2; [reflexivity|]]|];
    apply sum_ext; intros n _; rewrite ?(Cstar_ext y z E); trivial.
  do 2 f_equal. unfold Bterm. apply sum_ext. intros i Hi. apply sum_ext. intros j Hj. now rewrite !E.
Qed.
Lemma detail_D_std y d : detail_D y d = sizeK y ^ 3 * d.
Proof. unfold detail_D, sizeK. now rewrite K5_std. Qed.
Lemma size_std y T d : detail_size y T d = dsize y T d.
Proof.
  unfold detail_size, dsize. cbv zeta. rewrite detail_D_std. apply f_equal2; [apply f_equal2; [apply f_equal2; [reflexivity|apply f_equal2; [reflexivity|]]|apply f_equal2; [reflexivity|]]|].
  - apply sum_ext. intros n Hn. f_equal. unfold virial_n.
    rewrite a_eq, u_eq. unfold Bterm. rewrite (Rmult_comm (tb D_AN n)), Rmult_assoc, Rmult_comm. apply f_equal2; [|reflexivity].
    change (tot 21) with (sum 21). rewrite <- sum_scal. apply sum_ext. intros i Hi.
    rewrite <- sum_scal. apply sum_ext. intros j Hj. rewrite B_std by assumption. unfold bsym, Eij.
    rewrite (pair_bip 0 D_EIJ _ _ E_checked) by lia. rewrite !E_eq, !K_eq. ring.
  - apply sum_ext. intros m _. now rewrite C_std, u_eq.
  - apply sum_ext. intros m _. cbv zeta. unfold expc. rewrite C_std, u_eq, b_eq, k_eq. reflexivity.
Qed.

Section Final.
Variable m : Libm.
Hypothesis A : accurate m.
Local Notation B := (ArithB64 m).
Variables (x : nat -> b64) (t d : b64).
Let r i := bR (x i).
Hypothesis Hx : forall i, (i < 21)%nat -> fin (x i) /\ (r i = 0 \/ p2 (-50) <= r i).
Hypothesis Hs : 99 / 100 <= tot 21 r <= 101 / 100.
Hypothesis HT : fin t /\ 32 <= bR t <= 2048.
Hypothesis Hd : fin d /\ (bR d = 0 \/ p2 (-20) <= bR d).
Hypothesis HD : detail_D r (bR d) <= 3.
Let X := @xf B (map x (seq 0 21)).
Lemma X_i i : (i < 21)%nat -> X i = x i.
Proof. intros H. unfold X, xf. rewrite (nth_indep _ _ (x 0%nat)) by (now rewrite map_length, seq_length). rewrite map_nth, seq_nth by exact H. reflexivity. Qed.
Lemma r_ge0 i : (i < 21)%nat -> 0 <= r i.
Proof. intros H. destruct (Hx i H) as [_ [E|E]]; [lra|]. eapply Rle_trans; [apply Rlt_le, (bpow_gt_0 radix2)|exact E]. Qed.
Lemma r_le i : (i < 21)%nat -> r i <= 101 / 100.
Proof.
  intros H. eapply Rle_trans; [|apply Hs]. assert (forall n, (i < n <= 21)%nat -> r i <= tot n r) as G.
  { induction n as [|n IH]; intros Hn; [lia|]. cbn [tot]. destruct (Nat.eq_dec i n) as [->|].
    - assert (0 <= tot n r); [|lra]. change (tot n r) with (sum n r). apply sum_ge0. intros. apply r_ge0. lia.
    - pose proof (IH ltac:(lia)). pose proof (r_ge0 n ltac:(lia)). lra. }
  apply G. lia.
Qed.
Lemma HX' : forall i, (i < 21)%nat -> fin (X i) /\ rng (-50) 1 (bR (X i)).
Proof.
  intros i H. rewrite X_i by exact H. destruct (Hx i H) as [F [E|E]]; split; trivial; [now left|right]. split; [exact E|].
  change (p2 1) with 2. fold (r i). pose proof (r_le i H). lra.
Qed.
Lemma xr_r i : (i < 21)%nat -> xr X i = r i.
Proof. intros H. unfold xr. now rewrite X_i. Qed.
Lemma Hs' : 99 / 100 <= sum 21 (xr X) <= 101 / 100.
Proof. rewrite (sum_ext 21 (xr X) r xr_r). exact Hs. Qed.
Lemma HT' : fin t /\ p2 5 <= bR t <= p2 11.
Proof. exact HT. Qed.
Lemma HD' : sizeK (xr X) ^ 3 * bR d <= 3.
Proof. rewrite detail_D_std in HD. unfold sizeK in *. rewrite (K5_ext (xr X) r xr_r). exact HD. Qed.
Lemma big_x : exists i, (i < 21)%nat /\ 1 / 100 <= r i.
Proof.
  assert (forall n, (n <= 21)%nat -> INR n * (1 / 100) < tot n r -> exists i, (i < n)%nat /\ 1 / 100 <= r i) as G.
  { induction n as [|n IH]; intros Hn H; [cbn in H; lra|]. cbn [tot] in H. rewrite S_INR in H.
    destruct (Rle_lt_dec (1 / 100) (r n)) as [L|L]; [exists n; split; [lia|exact L]|].
    destruct IH as (i & Hi & Hp); [lia|lra|]. exists i. split; [lia|exact Hp]. }
  apply G; [lia|]. rewrite INR_IZR_INZ. cbn [Z.of_nat Pos.of_succ_nat Pos.succ]. lra.
Qed.
Lemma differs_0 (v : b64) : fin v -> 1 / 100 <= bR v <= 2048 -> @differs B v (@f0 B) = true.
Proof.
  intros F H. unfold differs. cbn [fabs fsub flt ArithB64 flit].
  assert (ap 0 (-7) 11 v (bR v) (bR v)) as Q.
  { eapply ap_eq; [apply ap_exact; [exact F|]|reflexivity|]; rewrite Rabs_pos_eq by lra; [|reflexivity]. right.
    change (p2 (-7)) with (/ 128). change (p2 11) with 2048. lra. }
  pose proof (ap_sub _ _ _ _ _ _ _ _ _ _ _ _ (-7) 11 Q (ap_0 (-7) 11) ltac:(zc) ltac:(zc) ltac:(zc)) as S.
  rewrite Rplus_0_r in S. specialize (S (proj2 (proj2 (proj2 Q)))). rewrite Rminus_0_r in S. change (@f0 B) with B0.
  destruct S as (S1 & S2 & _). destruct (lit_err (L 1 (-7)) (-24) (-23) eq_refl ltac:(zc)) as [L1 L2].
  rewrite lt_fin; [|exact L1|]. 2: { unfold fin. rewrite is_finite_Babs. exact S1. }
  apply Rlt_bool_true. unfold bR at 2. rewrite B2R_Babs. fold (bR (bsub v B0)).
  pose proof u_small. pose proof u_pos. change (IZR (Z.max 0 0 + 2)) with 2 in S2. replace (Rlit (L 1 (-7))) with (1 / 10000000) in L2 by (cbn; lra).
  rewrite (Rabs_pos_eq (1 / 10000000)) in L2 by lra. apply Rabs_le_inv in L2, S2. apply Rlt_le_trans with (bR (bsub v B0)); [|apply Rle_abs]. nra.
Qed.
Lemma diff_x : @x_diff B (map x (seq 0 21)) (repeat (@f0 B) 21) = true.
Proof.
  destruct big_x as (i & Hi & H). unfold x_diff. apply existsb_exists. exists i. split; [apply in_seq; lia|].
  unfold xf at 2. rewrite nth_repeat. change (@xf B (map x (seq 0 21)) i) with (X i). rewrite X_i by exact Hi.
  apply differs_0; [apply Hx, Hi|]. fold (r i). pose proof (r_le i Hi). lra.
Qed.
Lemma diff_t : @differs B t (@f0 B) = true.
Proof. apply differs_0; [apply HT|]. lra. Qed.

Lemma p_eq : bR d * (831451 / 100000) * bR t * (1 + sum 58 (tx X t d)) = detail_p r (bR t) (bR d).
Proof. rewrite p_std, <- (eos_ext (xr X) r xr_r). unfold eos. now rewrite tx_Z. Qed.
Lemma z_eq : 1 + sum 58 (tx X t d) = detail_Z r (bR t) (bR d).
Proof. rewrite Z_std, <- (Zfactor_ext (xr X) r xr_r). now rewrite tx_Z. Qed.
Lemma s_eq : 1 + sum 58 (tM X t d) = detail_size r (bR t) (bR d).
Proof. rewrite size_std, <- (dsize_ext (xr X) r _ _ xr_r). exact (tM_size X t d). Qed.
Lemma eps : IZR 1202380 * u64 <= 3 / 20000000000.
Proof. rewrite u64_val. lra. Qed.
(* powers cached for t, evaluation at T2 *)
Lemma pp_held T2 : fin T2 /\ 32 <= bR T2 <= 2048 -> let v := @pp B (@cache_of B dp_new (Some (map x (seq 0 21))) (Some t)) T2 d in
  fin v /\ Rabs (bR v - bR d * (831451 / 100000) * bR T2 * detail_Z r (bR t) (bR d)) <= 3 / 20000000000 * (bR d * (831451 / 100000) * bR T2 * detail_size r (bR t) (bR d)).
Proof.
  intros H2. pose proof (app m A X HX' Hs' t d HT' Hd HD' T2 H2) as Q1. rewrite z_eq, s_eq in Q1. destruct Q1 as (F1 & E1 & _ & R1).
  cbv zeta. split; [exact F1|]. eapply Rle_trans; [exact E1|]. apply Rmult_le_compat_r; [exact (rng_ge0 _ _ _ R1)|exact eps].
Qed.
Lemma pressure_accurate : exists s v, @dexec B New [SetX (A := B) x; Poke (A := B) PT t; Poke (A := B) PD d; Pressure] = Some (s, [OUnit; OUnit; OUnit; OVal (A := B) v]) /\
  fin v /\ Rabs (bR v - detail_p r (bR t) (bR d)) <= 3 / 20000000000 * (bR d * (831451 / 100000) * bR t * detail_size r (bR t) (bR d)) /\
  fin (dread (A := B) PZ s) /\ Rabs (bR (dread (A := B) PZ s) - detail_Z r (bR t) (bR d)) <= 3 / 20000000000 * detail_size r (bR t) (bR d).
Proof.
  destruct (@first_pressure B x t d diff_x diff_t) as (s & E & Z).
  pose proof (app m A X HX' Hs' t d HT' Hd HD' t HT') as Q1. pose proof (apz m A X HX' Hs' t d HT' Hd HD' t HT') as Q2.
  rewrite p_eq, s_eq in Q1. rewrite z_eq, s_eq in Q2.
  do 2 eexists. split; [exact E|]. rewrite Z. destruct Q1 as (F1 & E1 & _ & R1). destruct Q2 as (F2 & E2 & _ & R2).
  pose proof eps as EP. pose proof (rng_ge0 _ _ _ R1) as G1. pose proof (rng_ge0 _ _ _ R2) as G2.
  split; [exact F1|]. split; [|split; [exact F2|]].
  - eapply Rle_trans; [exact E1|]. apply Rmult_le_compat_r; [exact G1|exact EP].
  - eapply Rle_trans; [exact E2|]. apply Rmult_le_compat_r; [exact G2|]. eapply Rle_trans; [|exact EP].
    apply Rmult_le_compat_r; [apply Rlt_le, u_pos|]. apply IZR_le. lia.
Qed.
End Final.
