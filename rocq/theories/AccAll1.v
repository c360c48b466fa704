(* Error analysis of the remaining DETAIL residual sums in double precision. *)
From Coq Require Import Reals ZArith List Bool Lra Lia Psatz.
From Flocq Require Import Core BinarySingleNaN.
From Verif Require Import FArith Prelude ArithB64 B64Lemmas ArithR RSum SpecDetail SpecAcc DetailTables DetailModel DetailPure DetailEos B64Err AccFold AccMix AccMix2 AccMix3 AccMix4 AccEos AccSlope.
Import ListNotations.
Local Open Scope R_scope.
Local Notation RR := (831451 / 100000).

Section T.
Variable m : Libm.
Hypothesis A : accurate m.
Local Notation B := (ArithB64 m).
Variable X : nat -> b64.
Hypothesis HX : forall i, (i < 21)%nat -> fin (X i) /\ rng (-50) 1 (bR (X i)).
Local Notation x := (xr X).
Hypothesis Hs : 99 / 100 <= sum 21 x <= 101 / 100.
Let P : @DParams B := dp_new.
Local Existing Instance P.
Variables T d : b64.
Hypothesis HT : fin T /\ p2 5 <= bR T <= p2 11.
Hypothesis Hd : fin d /\ (bR d = 0 \/ p2 (-20) <= bR d).
Local Notation t := (bR T).
Local Notation D := (sizeK x ^ 3 * bR d).
Hypothesis HD : D <= 3.
Local Notation Dv := (bmul (@pK3 B P X) d).
Local Notation kB := (AccEos.kB m X T).
Local Notation tu n := (Rpower t (- tb D_UN n)).

Definition g0x n := (if Nat.leb 12 n then s0x X T d n else 0) + tbx X T d n.
Definition g0M n := (if Nat.leb 12 n then s0M X T d n else 0) + tbM X T d n.
Lemma ag0 n : (n < 58)%nat -> ap 1193948 (-935) 433 (@ts0 B kB Dv d n) (g0x n) (g0M n).
Proof.
  intros H. pose proof (atb m A X HX Hs T d HT Hd HD n H) as Q2. unfold ts0, g0x, g0M.
  assert (ap 1193946 (-935) 432 (@tsum0 B kB Dv n) (if Nat.leb 12 n then s0x X T d n else 0) (if Nat.leb 12 n then s0M X T d n else 0)) as Q1.
  { destruct (Nat.leb 12 n) eqn:E; [apply Nat.leb_le in E; exact (as0 m A X HX Hs T d HT Hd HD n ltac:(lia))|].
    unfold tsum0. rewrite E. eapply ap_weak; [apply (ap_0 0 0)|zc|zc|zc]. }
  change 1193948%Z with (Z.max 1193946 506610 + 2)%Z. eapply ap_add; [exact Q1|exact Q2|zc|zc|zc|].
  eapply rng_weak; [eapply rng_add; [apply Q1|apply Q2]|lia|lia].
Qed.
(* the powers of the temperature *)
Lemma un_chk : forallb (lit_in (-2) 5) D_UN = true. Proof. vm_compute. reflexivity. Qed.
Lemma aun n : ap 1 (-2) 5 (@lv B D_UN n) (tb D_UN n) (Rabs (tb D_UN n)).
Proof.
  assert (lit_in (-2) 5 (nth n D_UN (L 0 0)) = true) as H.
  { destruct (Nat.lt_ge_cases n (length D_UN)) as [H|H]; [|rewrite nth_overflow by exact H; reflexivity]. exact (proj1 (forallb_forall _ _) un_chk _ (nth_In _ _ H)). }
  exact (ap_lit _ _ _ H ltac:(zc)).
Qed.
Lemma aw1 n : ap 7 3 10 (@ct1 B n) (RR * (tb D_UN n - 1)) (RR * (Rabs (tb D_UN n) + 1)).
Proof.
  unfold ct1. cbn [fmul fsub ArithB64]. pose proof (Rabs_pos (tb D_UN n)) as H.
  assert (ap 3 0 6 (bsub (@lv B D_UN n) (@f1 B)) (tb D_UN n - 1) (Rabs (tb D_UN n) + 1)) as Q.
  { change 3%Z with (Z.max 1 1 + 2)%Z. eapply ap_sub; [exact (aun n)|exact (a1 m)|zc|zc|zc|].
    apply (rng_one (-2)); [eapply rng_weak; [eapply rng_add; [apply (aun n)|apply (a1 m)]|zc|zc]|lra]. }
  eapply ap_weak; [eapply ap_mul; [exact (aR m)|exact Q|zc|zc|zc|zc]|zc|zc|zc].
Qed.
Lemma aw2 n : ap 11 1 15 (@ct2 B n) (RR * ((tb D_UN n - 1) * tb D_UN n)) (RR * ((Rabs (tb D_UN n) + 1) * Rabs (tb D_UN n))).
Proof.
  unfold ct2. cbn [fmul ArithB64].
  eapply ap_eq; [eapply ap_weak; [eapply ap_mul; [exact (aw1 n)|exact (aun n)|zc|zc|zc|zc]|zc|zc|zc]|ring|ring].
Qed.
(* the sums *)
Lemma asub (f : nat -> b64) (fx fM : nat -> R) k a b : (forall n, (n < 58)%nat -> ap k a b (f n) (fx n) (fM n)) -> (0 <= k <= 2000000)%Z -> inr a (b + 6) ->
  ap (k + 2 * 58) a (b + 6) (fold_left (fun s n => bsub s (f n)) (seq 0 58) B0) (- sum 58 fx) (sum 58 fM).
Proof.
  intros H Hk Hi.
  assert (E : forall l s, (forall n, In n l -> fin (f n)) -> fold_left (fun s n => bsub s (f n)) l s = fold_left (fun s n => badd s (Bopp (f n))) l s).
  { induction l as [|n l IH]; intros s Hl; [reflexivity|]. cbn [fold_left]. rewrite <- IH by (intros; apply Hl; now right). f_equal.
    unfold bsub, badd. destruct s, (f n); reflexivity. }
  rewrite E. 2: { intros n Hn. apply in_seq in Hn. apply (ap_fin _ _ _ _ _ _ (H n ltac:(lia))). }
  eapply ap_eq; [apply (asum (fun n => Bopp (f n)) (fun n => - 1 * fx n) fM k a b); [|exact Hk|exact Hi]|rewrite sum_scal; ring|reflexivity].
  intros n Hn. eapply ap_eq; [exact (ap_neg _ _ _ _ _ _ (H n Hn))|ring|reflexivity].
Qed.
Lemma aar0 : ap 1194071 (-927) 454 (@ar00 B kB T d) (RR * t * sum 58 g0x) (RR * t * sum 58 g0M).
Proof.
  unfold ar00, facc. change (@dr B kB d) with Dv. cbn [fadd fmul ArithB64]. rewrite <- !sum_scal. change (@f0 B) with B0.
  apply (asum (fun n => bmul (bmul (@RDETAIL B) T) (@ts0 B kB Dv d n)) _ _ 1193955 (-927) 448); [|lia|zc].
  intros n Hn. eapply ap_weak; [eapply ap_mul; [exact (aRT1 m T HT)|apply ag0; lia|zc|zc|zc|zc]|zc|zc|zc].
Qed.
Local Notation w1x n := (tb D_UN n - 1). Local Notation w1M n := (Rabs (tb D_UN n) + 1).
Lemma aar10 : ap 1194074 (-932) 449 (@ar10 B kB d) (- (RR * sum 58 (fun n => w1x n * g0x n))) (RR * sum 58 (fun n => w1M n * g0M n)).
Proof.
  unfold ar10, fdec. change (@dr B kB d) with Dv. cbn [fsub fmul ArithB64]. rewrite <- !sum_scal. change (@f0 B) with B0.
  apply (asub (fun n => bmul (@ct1 B n) (@ts0 B kB Dv d n)) _ _ 1193958 (-932) 443); [|lia|zc].
  intros n Hn. eapply ap_eq; [eapply ap_weak; [eapply ap_mul; [exact (aw1 n)|apply ag0; lia|zc|zc|zc|zc]|zc|zc|zc]|ring|ring].
Qed.
Lemma aar11 : ap 1202364 (-932) 466 (@ar11 B kB d) (- (RR * sum 58 (fun n => w1x n * tx X T d n))) (RR * sum 58 (fun n => w1M n * tM X T d n)).
Proof.
  unfold ar11, fdec. change (@dr B kB d) with Dv. cbn [fsub fmul ArithB64]. rewrite <- !sum_scal. change (@f0 B) with B0.
  apply (asub (fun n => bmul (@ct1 B n) (@ts1 B kB Dv d n)) _ _ 1202248 (-932) 460); [|lia|zc].
  intros n Hn. eapply ap_eq; [eapply ap_weak; [eapply ap_mul; [exact (aw1 n)|exact (at1 m A X HX Hs T d HT Hd HD n Hn)|zc|zc|zc|zc]|zc|zc|zc]|ring|ring].
Qed.
Lemma aar20 : ap 1194078 (-934) 454 (@ar20 B kB d) (RR * sum 58 (fun n => w1x n * tb D_UN n * g0x n)) (RR * sum 58 (fun n => w1M n * Rabs (tb D_UN n) * g0M n)).
Proof.
  unfold ar20, facc. change (@dr B kB d) with Dv. cbn [fadd fmul ArithB64]. rewrite <- !sum_scal. change (@f0 B) with B0.
  apply (asum (fun n => bmul (@ct2 B n) (@ts0 B kB Dv d n)) _ _ 1193962 (-934) 448); [|lia|zc].
  intros n Hn. eapply ap_eq; [eapply ap_weak; [eapply ap_mul; [exact (aw2 n)|apply ag0; lia|zc|zc|zc|zc]|zc|zc|zc]|ring|ring].
Qed.
End T.
