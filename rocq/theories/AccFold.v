(* Error analysis of the accumulation loops of the DETAIL equation. *)
From Coq Require Import Reals ZArith List Bool Lra Lia Psatz.
From Flocq Require Import Core BinarySingleNaN.
From Verif Require Import FArith Prelude ArithB64 B64Lemmas ArithR RSum SpecDetail SpecAcc DetailTables DetailPure DetailEos B64Err.
Import ListNotations.
Local Open Scope R_scope.

Lemma ap_fold {T} (c : T -> bool) (g : T -> b64) (h hM : T -> R) (k a b e : Z) l : forall v x M k0 (n0 : Z),
  (forall i, In i l -> c i = true -> ap k a b (g i) (h i) (hM i)) ->
  (forall i, In i l -> c i = false -> h i = 0 /\ hM i = 0) ->
  ap k0 a (b + e) v x M -> M <= IZR n0 * p2 b -> (0 <= k <= k0)%Z -> (k0 + 2 * Z.of_nat (length l) <= KM)%Z ->
  (n0 + Z.of_nat (length l) <= 2 ^ e)%Z -> (0 <= e)%Z -> inr a (b + e) ->
  ap (k0 + 2 * Z.of_nat (length l)) a (b + e) (fold_left (fun s i => if c i then badd s (g i) else s) l v)
     (x + rsum h l) (M + rsum hM l).
Proof.
  induction l as [|i l IH]; intros v x M k0 n0 H1 H0 P HM Hk HK Hn He Hi.
  - cbn. eapply ap_eq; [eapply ap_weak; [exact P|lia|lia|lia]| |]; unfold rsum; cbn; ring.
  - cbn [fold_left length] in *. rewrite Nat2Z.inj_succ in *.
    assert (Ex : forall f : T -> R, rsum f (i :: l) = f i + rsum f l) by reflexivity. rewrite !Ex.
    destruct (c i) eqn:C.
    + pose proof (H1 i ltac:(now left) C) as Q.
      assert (M + hM i <= IZR (n0 + 1) * p2 b) as HM'.
      { rewrite plus_IZR. destruct Q as (_ & _ & _ & R). pose proof (rng_le _ _ _ R). lra. }
      eapply ap_eq; [apply (ap_weak (k0 + 2 + 2 * Z.of_nat (length l)) a (b + e)); [|lia|lia|lia]|rewrite <- Rplus_assoc; reflexivity|
        rewrite <- Rplus_assoc; reflexivity].
      apply (IH _ _ _ _ (n0 + 1)%Z); try assumption; try lia.
      * intros j Hj. apply H1. now right.
      * intros j Hj. apply H0. now right.
      * replace (k0 + 2)%Z with (Z.max k0 k + 2)%Z by lia. eapply ap_add; [exact P|exact Q|lia|lia|exact Hi|].
        pose proof (ap_M _ _ _ _ _ _ P). pose proof (ap_M _ _ _ _ _ _ Q).
        destruct P as (_ & _ & _ & RP). destruct Q as (_ & _ & _ & RQ).
        destruct RP as [->|[L1 _]].
        { rewrite Rplus_0_l. apply (rng_weak a b); [exact RQ|lia|lia]. }
        right. split; [lra|]. eapply Rle_trans; [exact HM'|]. rewrite bpow_plus, Rmult_comm.
        apply Rmult_le_compat_l; [apply Rlt_le, bpow_gt_0|]. rewrite <- (IZR_Zpower radix2 e He). apply IZR_le.
        change (Z.pow 2 e) with (Zaux.radix2 ^ e)%Z in Hn. lia.
    + destruct (H0 i ltac:(now left) C) as [-> ->]. rewrite !Rplus_0_l.
      apply (ap_weak (k0 + 2 * Z.of_nat (length l)) a (b + e)); [|lia|lia|lia].
      apply (IH _ _ _ _ n0); try assumption; try lia.
      * intros j Hj. apply H1. now right.
      * intros j Hj. apply H0. now right.
Qed.

(* the double loop as one loop over the pairs *)
Definition prs : list (nat * nat) := flat_map (fun i => map (pair i) (seq (S i) (21 - S i))) (seq 0 21).
Lemma in_prs i j : In (i, j) prs -> (i < j < 21)%nat.
Proof.
  intros H. apply in_flat_map in H. destruct H as (a & Ha & H). apply in_map_iff in H. destruct H as (b & E & Hb).
  injection E as <- <-. apply in_seq in Ha. apply in_seq in Hb. lia.
Qed.
Lemma prs_length : length prs = 210%nat. Proof. reflexivity. Qed.
Lemma fold_flat {S T U} (f : U -> T -> U) (h : S -> list T) l a :
  fold_left f (flat_map h l) a = fold_left (fun a i => fold_left f (h i) a) l a.
Proof. revert a. induction l as [|i l IH]; intros a; [reflexivity|]. cbn [flat_map fold_left]. now rewrite fold_left_app, IH. Qed.
Lemma fold_map {S T U} (f : U -> T -> U) (h : S -> T) l a : fold_left f (map h l) a = fold_left (fun a i => f a (h i)) l a.
Proof. revert a. induction l as [|i l IH]; intros a; [reflexivity|]. cbn [map fold_left]. apply IH. Qed.
Lemma accpp_flat {A : Arith} (X : nat -> F) g a : accpp X g a
  = fold_left (fun s p => if (pos (X (fst p)) && pos (X (snd p)))%bool
                          then fadd s (fmul (fmul (fmul f2 (X (fst p))) (X (snd p))) (g (fst p) (snd p))) else s) prs a.
Proof.
  unfold accpp, prs. rewrite fold_flat. generalize (seq 0 21) as l. intros l. revert a.
  induction l as [|i l IH]; intros a; [reflexivity|]. cbn [fold_left]. rewrite <- IH. f_equal. rewrite fold_map. cbn [fst snd].
  destruct (pos (X i)); [reflexivity|]. cbn [andb]. generalize (seq (S i) (21 - S i)) as r. intros r.
  induction r as [|j r IHr]; [reflexivity|exact IHr].
Qed.
Lemma rsum_prs (f : nat -> nat -> R) : rsum (fun p => f (fst p) (snd p)) prs = pairs 21 f.
Proof.
  rewrite <- pairs_rows. unfold prs. generalize (seq 0 21) as l. intros l. induction l as [|i l IH]; [reflexivity|].
  cbn [flat_map]. rewrite rsum_app, rsum_map, IH. reflexivity.
Qed.
