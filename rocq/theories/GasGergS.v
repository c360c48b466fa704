(* The size of the residual terms of GERG-2008 for a natural gas at moderate density. *)
From Coq Require Import Reals ZArith List Bool Lra Lia Psatz.
From Verif Require Import FArith ArithR StdDetail StdGerg SpecStd SpecGas SpecConv SlopeReal ConvDetail FixUp GasDetail GasVirial GasThird GasRed GasRed2 GasGerg.
Import ListNotations.
Local Open Scope R_scope.

Definition delM : Z := litU (L 8697 (-5)).
Definition pureU2 (r : lit * nat * lit * nat) : Z := let '(n, d, t, c) := r in
  let dc := powU delM c in
  mulU (mulU (mulU (litU n) (tU t)) (powU (nU d + mulU (nU c) dc) 2 + mulU (powU (nU c) 2) dc)) (powU delM d).
Definition depU2 (r : lit * nat * lit * list lit) : Z := let '(n, d, t, w) := r in
  let p c := litU (nth c w (L 0 0)) in
  let e := (mulU (mulU (mulU (nU 2) (p 0%nat)) delM) (delM + p 1%nat) + mulU (p 2%nat) delM)%Z in
  mulU (mulU (mulU (mulU (litU n) (tU t)) (powU (nU d + e) 2 + e + mulU (mulU (nU 2) (p 0%nat)) (powU delM 2))) (expyU (mulU (p 2%nat) (p 3%nat)))) (powU delM d).
Definition gsprU2 : Z := (linU (fun m => lsumU pureU2 (nth (S m) PURE []))
  + lsumU (fun r => let '(i, j, f, m) := r in mulU (mulU (mulU (limU (Nat.pred i)) (limU (Nat.pred j))) (litU f)) (lsumU depU2 (dep_rows m))) DEPARTS)%Z.
Lemma gspr_num2 : (gsprU2 <=? 469000000)%Z = true. Proof. vm_compute. reflexivity. Qed.
Section S.
Variable delta tau : R.
Hypothesis Hd : 0 <= delta <= 8697 / 100000.
Hypothesis Ht : 38 / 350 <= tau <= 93964 / 100000.
Lemma del_up2 : up delM delta. Proof. apply lit_le; [lra|cbn; lra]. Qed.
Lemma pure_up2 r : (let '(n, d, t, c) := r in tok t) = true -> up (pureU2 r) (pure_size delta tau r).
Proof.
  destruct r as [[[n d] t] c]. intros H. unfold pureU2, pure_size. apply up_mul; [apply up_mul; [apply up_mul; [apply up_lit|now apply tau_up]|]|apply up_pow; exact del_up2].
  apply up_add; [apply up_pow; apply up_add; [apply up_INR|apply up_mul; [apply up_INR|]]|apply up_mul; [apply up_pow; apply up_INR|]]; apply up_pow; exact del_up2.
Qed.
Lemma dep_up2 r : (let '(n, d, t, w) := r in tok t && forallb nn_lit w) = true -> up (depU2 r) (dep_size delta tau r).
Proof.
  destruct r as [[[n d] t] w]. intros H. apply andb_true_iff in H as [H1 H2]. unfold depU2, dep_size.
  assert (P : forall c, up (litU (nth c w (L 0 0))) (Rlit (nth c w (L 0 0)))).
  { intros c. apply pos_up. destruct (nth_in_or_default c w (L 0 0)) as [K|K]; [apply nn_ok; exact (proj1 (forallb_forall _ _) H2 _ K)|rewrite K; cbn; lra]. }
  pose proof (up_INR 2) as I2. change (INR 2) with 2 in I2.
  assert (E : up (mulU (mulU (mulU (nU 2) (litU (nth 0 w (L 0 0)))) delM) (delM + litU (nth 1 w (L 0 0))) + mulU (litU (nth 2 w (L 0 0))) delM)%Z
    (2 * Rlit (nth 0 w (L 0 0)) * delta * (delta + Rlit (nth 1 w (L 0 0))) + Rlit (nth 2 w (L 0 0)) * delta)).
  { apply up_add; [apply up_mul; [apply up_mul; [apply up_mul; [exact I2|apply P]|exact del_up2]|apply up_add; [exact del_up2|apply P]]|apply up_mul; [apply P|exact del_up2]]. }
  apply up_mul; [|apply up_pow; exact del_up2]. apply up_mul; [|apply up_expy; apply up_mul; apply P]. apply up_mul; [apply up_mul; [apply up_lit|now apply tau_up]|].
  apply up_add; [apply up_add; [apply up_pow; apply up_add; [apply up_INR|exact E]|exact E]|]. apply up_mul; [apply up_mul; [exact I2|apply P]|apply up_pow; exact del_up2].
Qed.
Variable x : nat -> R.
Hypothesis Hx : natural_gas (fun i => x (S i)).
Lemma gspread2_le : gerg_spread x delta tau <= 7 / 4.
Proof.
  apply Rle_trans with (fx gsprU2); [|apply Rle_trans with (1 := leU _ _ gspr_num2); unfold fx; change SC with 268435456%Z; lra].
  refine (proj2 (up_add _ _ _ _ (up_lin (fun i => x (S i)) Hx (fun m => lsumU pureU2 (nth (S m) PURE [])) (fun m => lsum (pure_size delta tau) (nth (S m) PURE [])) _) _)).
  - intros i _. apply up_lsum. intros r Hr. apply pure_up2. destruct (nth_in_or_default (S i) PURE []) as [K|K]; [|rewrite K in Hr; destruct Hr].
    pose proof (proj1 (forallb_forall _ _) pure_ok _ K) as F. exact (proj1 (forallb_forall _ _) F r Hr).
  - apply up_lsum. intros [[[i j] f] m] Hr. pose proof (proj1 (forallb_forall _ _) departs_ok _ Hr) as K. cbv beta iota in K. rewrite !andb_true_iff, !Nat.ltb_lt in K. destruct K as (((I1 & J1) & I2) & J2).
    apply up_mul; [apply up_mul; [|apply up_lit]|].
    + apply up_mul; [replace (x i) with (x (S (Nat.pred i))) by (f_equal; lia); apply (x_lim _ Hx (Nat.pred i)); lia|replace (x j) with (x (S (Nat.pred j))) by (f_equal; lia); apply (x_lim _ Hx (Nat.pred j)); lia].
    + apply up_lsum. intros r Hr'. apply dep_up2. unfold dep_rows in Hr'. destruct (find _ DEPARTURE) as [q|] eqn:F; [|destruct Hr']. apply find_some in F. destruct F as [F _].
      pose proof (proj1 (forallb_forall _ _) dep_ok _ F) as G. exact (proj1 (forallb_forall _ _) G r Hr').
Qed.
End S.
