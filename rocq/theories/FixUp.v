(* Upper bounds in fixed point, and their use for sums over the components of a natural gas. *)
From Coq Require Import Reals ZArith List Bool Lra Lia Psatz.
From Verif Require Import FArith ArithR SpecStd SpecGas SlopeReal ConvDetail.
Import ListNotations.
Local Open Scope R_scope.

Definition SC : Z := (2 ^ 28)%Z.
Definition fx (v : Z) : R := IZR v / IZR SC.
Definition up (v : Z) (r : R) : Prop := 0 <= r <= fx v.
Lemma SC_pos : 0 < IZR SC. Proof. apply IZR_lt. reflexivity. Qed.
Lemma SC_n0 : IZR SC <> 0. Proof. pose proof SC_pos. lra. Qed.
Lemma fx_add a b : fx (a + b) = fx a + fx b. Proof. unfold fx. rewrite plus_IZR. field. exact SC_n0. Qed.
Lemma fx_le a b : (a <= b)%Z -> fx a <= fx b.
Proof. intros H. apply IZR_le in H. unfold fx, Rdiv. apply Rmult_le_compat_r; [|exact H]. left. apply Rinv_0_lt_compat, SC_pos. Qed.
Lemma fx_0 : fx 0 = 0. Proof. unfold fx. field. exact SC_n0. Qed.
Lemma fx_1 : fx SC = 1. Proof. unfold fx. field. exact SC_n0. Qed.
Lemma up_nn v r : up v r -> (0 <= v)%Z.
Proof. intros [A B]. apply le_IZR. assert (H : 0 <= fx v) by lra. unfold fx in H. apply (Rmult_le_compat_r (IZR SC)) in H; [|left; exact SC_pos].
  replace (IZR v / IZR SC * IZR SC) with (IZR v) in H by (field; exact SC_n0). lra. Qed.
Lemma up_le v w r s : up v r -> 0 <= s <= r -> (v <= w)%Z -> up w s.
Proof. intros [A B] C D. apply fx_le in D. split; lra. Qed.
Lemma up_add a b r s : up a r -> up b s -> up (a + b) (r + s).
Proof. intros [A B] [C D]. unfold up. rewrite fx_add. lra. Qed.
Lemma up_0 : up 0 0. Proof. unfold up. rewrite fx_0. lra. Qed.
Lemma up_1 : up SC 1. Proof. unfold up. rewrite fx_1. lra. Qed.
Definition mulU (a b : Z) : Z := (Z.shiftr (a * b) 28 + 1)%Z.
Lemma up_mul a b r s : up a r -> up b s -> up (mulU a b) (r * s).
Proof.
  intros [A B] [C D]. split; [now apply Rmult_le_pos|]. apply Rle_trans with (fx a * fx b); [now apply Rmult_le_compat|].
  unfold mulU. rewrite Z.shiftr_div_pow2 by lia. fold SC. unfold fx. pose proof SC_pos as P.
  pose proof (Z.mul_succ_div_gt (a * b) SC ltac:(reflexivity)) as H. apply IZR_lt in H. unfold Z.succ in H. rewrite (mult_IZR SC), (mult_IZR a) in H.
  set (q := IZR (a * b / SC + 1)) in *. apply (Rmult_le_reg_r (IZR SC * IZR SC)); [now apply Rmult_lt_0_compat|].
  replace (IZR a / IZR SC * (IZR b / IZR SC) * (IZR SC * IZR SC)) with (IZR a * IZR b) by (field; lra).
  replace (q / IZR SC * (IZR SC * IZR SC)) with (IZR SC * q) by (field; lra). lra.
Qed.
Fixpoint powU (a : Z) (n : nat) : Z := match n with O => SC | S m => mulU a (powU a m) end.
Lemma up_pow a r n : up a r -> up (powU a n) (r ^ n).
Proof. intros H. induction n as [|n IH]; [exact up_1|]. cbn [powU pow]. now apply up_mul. Qed.
(* a literal, its size *)
Definition litU (l : lit) : Z := let '(L m e) := l in
  match e with Zneg p => (Z.abs m * SC / 10 ^ Zpos p + 1)%Z | _ => (Z.abs m * 10 ^ e * SC)%Z end.
Lemma up_lit l : up (litU l) (Rabs (Rlit l)).
Proof.
  destruct l as [m [|p|p]]; cbn [litU Rlit]; split; try apply Rabs_pos; unfold fx.
  - rewrite Z.pow_0_r, Z.mul_1_r, mult_IZR, abs_IZR. right. field. exact SC_n0.
  - rewrite !mult_IZR, Rabs_mult, abs_IZR, (Rabs_pos_eq (IZR (10 ^ _))) by (apply IZR_le; apply Z.pow_nonneg; lia). right. field. exact SC_n0.
  - assert (0 < 10 ^ Zpos p)%Z as Hp by (apply Z.pow_pos_nonneg; lia). set (t := (10 ^ Zpos p)%Z) in *.
    pose proof (Z.mul_succ_div_gt (Z.abs m * SC) t Hp) as H. apply IZR_lt in H, Hp. unfold Z.succ in H. rewrite (mult_IZR t), (mult_IZR (Z.abs m)), abs_IZR in H.
    set (q := IZR (_ / t + 1)) in *. pose proof SC_pos as P.
    unfold Rdiv at 1. rewrite Rabs_mult, Rabs_inv, (Rabs_pos_eq (IZR t)) by lra.
    apply (Rmult_le_reg_r (IZR SC * IZR t)); [now apply Rmult_lt_0_compat|].
    replace (Rabs (IZR m) * / IZR t * (IZR SC * IZR t)) with (Rabs (IZR m) * IZR SC) by (field; lra).
    replace (q / IZR SC * (IZR SC * IZR t)) with (IZR t * q) by (field; lra). lra.
Qed.
Fixpoint totU (n : nat) (f : nat -> Z) : Z := match n with O => 0%Z | S m => (totU m f + f m)%Z end.
Lemma up_tot n f g : (forall i, (i < n)%nat -> up (f i) (g i)) -> up (totU n f) (tot n g).
Proof. induction n as [|n IH]; intros H; [exact up_0|]. cbn [totU tot]. apply up_add; [apply IH; intros; apply H; lia|apply H; lia]. Qed.
Definition lsumU {T} (f : T -> Z) (l : list T) : Z := fold_right (fun a s => (f a + s)%Z) 0%Z l.
Lemma up_lsum {T} (f : T -> Z) g l : (forall r, In r l -> up (f r) (g r)) -> up (lsumU f l) (lsum g l).
Proof.
  induction l as [|r l IH]; intros H; [exact up_0|]. cbn [lsumU lsum fold_right]. apply up_add; [apply H; now left|]. apply IH. intros q Hq. apply H. now right.
Qed.

(* over the components of a natural gas *)
Definition limU (i : nat) : Z := litU (nth i GAS_LIMITS (L 0 0)).
Definition linU (s : nat -> Z) : Z := let s0 := s 0%nat in
  (mulU (litU (L 101 (-2))) s0 + totU 20 (fun j => mulU (limU (S j)) (Z.max 0 (s (S j) - s0))))%Z.
Lemma limit_pos i : 0 <= gas_limit i.
Proof.
  unfold gas_limit. do 21 (destruct i as [|i]; [cbn; lra|]). cbn. destruct i; cbn; lra.
Qed.
Lemma up_lim i : up (limU i) (gas_limit i).
Proof. pose proof (up_lit (nth i GAS_LIMITS (L 0 0))) as H. fold (gas_limit i) (limU i) in H. now rewrite Rabs_pos_eq in H by apply limit_pos. Qed.
Lemma tot_first n f : tot (S n) f = f 0%nat + tot n (fun i => f (S i)).
Proof. induction n as [|n IH]; [cbn; ring|]. change (tot (S (S n)) f) with (tot (S n) f + f (S n)). rewrite IH. cbn [tot]. ring. Qed.

Section Gas.
Variable x : nat -> R.
Hypothesis Hx : natural_gas x.
Lemma x_lim i : (i < 21)%nat -> up (limU i) (x i).
Proof. destruct Hx as (_ & H & _). intros Hi. specialize (H i Hi). destruct (up_lim i). split; lra. Qed.
Lemma x_ge0 i : (i < 21)%nat -> 0 <= x i. Proof. intros Hi. exact (proj1 (x_lim i Hi)). Qed.
Lemma up_lin q s : (forall i, (i < 21)%nat -> up (q i) (s i)) -> up (linU q) (tot 21 (fun i => x i * s i)).
Proof.
  intros H. split; [apply tot_ge0; intros i Hi; apply Rmult_le_pos; [now apply x_ge0|exact (proj1 (H i Hi))]|].
  assert (H0 := H 0%nat ltac:(lia)). set (s' i := Rmax 0 (fx (q i) - fx (q 0%nat))).
  apply Rle_trans with (tot 21 (fun i => x i * fx (q 0%nat) + x i * s' i)).
  - apply tot_le. intros i Hi. rewrite <- Rmult_plus_distr_l. apply Rmult_le_compat_l; [now apply x_ge0|]. destruct (H i Hi). unfold s'.
    pose proof (Rmax_r 0 (fx (q i) - fx (q 0%nat))). lra.
  - rewrite tot_plus, (tot_first 20 (fun i => x i * s' i)). assert (E : s' 0%nat = 0) by (unfold s'; rewrite Rminus_diag_eq, Rmax_left; lra). rewrite E, Rmult_0_r.
    unfold linU. rewrite fx_add. rewrite (tot_ext 21 _ (fun i => fx (q 0%nat) * x i)) by (intros; ring). rewrite tot_scal.
    destruct Hx as (_ & _ & Ht). assert (Q0 : up (q 0%nat) (fx (q 0%nat))) by (destruct H0; split; lra).
    apply Rplus_le_compat.
    + assert (T1 : up (litU (L 101 (-2))) (tot 21 x)).
      { apply (up_le (litU (L 101 (-2))) _ (Rabs (Rlit (L 101 (-2))))); [apply up_lit| |lia]. change (Rlit (L 101 (-2))) with (101 / 100). rewrite Rabs_pos_eq; lra. }
      destruct (up_mul _ _ _ _ T1 Q0) as [_ B]. lra.
    + rewrite Rplus_0_l.
      apply (up_tot 20 (fun j => mulU (limU (S j)) (Z.max 0 (q (S j) - q 0%nat))) (fun i => x (S i) * s' (S i))). intros i Hi. apply up_mul; [apply x_lim; lia|].
      unfold s'. split; [apply Rmax_l|]. apply Rmax_lub; [rewrite <- fx_0; apply fx_le; lia|].
      replace (fx (q (S i)) - fx (q 0%nat)) with (fx (q (S i) - q 0%nat)) by (unfold Z.sub; rewrite fx_add; unfold fx; rewrite opp_IZR; field; exact SC_n0).
      apply fx_le. lia.
Qed.
Lemma up_rows q s : (forall i j, (i < 21)%nat -> (j < 21)%nat -> up (q i j) (s i j)) ->
  up (linU (fun i => linU (q i))) (tot 21 (fun i => tot 21 (fun j => x i * x j * s i j))).
Proof.
  intros H. rewrite (tot_ext 21 _ (fun i => x i * tot 21 (fun j => x j * s i j))).
  - apply up_lin. intros i Hi. apply up_lin. intros j Hj. now apply H.
  - intros i _. rewrite <- tot_scal. apply tot_ext. intros j _. ring.
Qed.
End Gas.

(* a quadratic form written over pairs *)
Lemma tot_add n f g : tot n (fun i => f i + g i) = tot n f + tot n g. Proof. apply tot_plus. Qed.
Lemma form_rows n (a : nat -> R) (p : nat -> nat -> R) : (forall i j, p i j = p j i) ->
  tot n (fun i => tot n (fun j => a i * a j * p i j)) = tot n (fun i => a i ^ 2 * p i i) + 2 * tot n (fun j => tot j (fun i => a i * a j * p i j)).
Proof.
  intros S. induction n as [|n IH]; [cbn; ring|]. cbn [tot]. rewrite tot_add, IH.
  rewrite (tot_ext n (fun j => a n * a j * p n j) (fun i => a i * a n * p i n)) by (intros; rewrite (S n i); ring). ring.
Qed.
Lemma square_rows n (a : nat -> R) : tot n a ^ 2 = tot n (fun i => a i ^ 2) + 2 * tot n (fun j => tot j (fun i => a i * a j)).
Proof.
  induction n as [|n IH]; [cbn; ring|]. cbn [tot]. replace ((tot n a + a n) ^ 2) with (tot n a ^ 2 + a n ^ 2 + 2 * (tot n a * a n)) by ring. rewrite IH.
  replace (tot n a * a n) with (tot n (fun i => a i * a n)) by (rewrite Rmult_comm, <- tot_scal; apply tot_ext; intros; ring). ring.
Qed.
Lemma form_one n (a : nat -> R) (p : nat -> nat -> R) : (forall i j, p i j = p j i) -> (forall i, p i i = 1) ->
  tot n a ^ 2 + 2 * tot n (fun j => tot j (fun i => a i * a j * (p i j - 1))) = tot n (fun i => tot n (fun j => a i * a j * p i j)).
Proof.
  intros S D. rewrite (form_rows n a p S), square_rows.
  rewrite (tot_ext n (fun i => a i ^ 2 * p i i) (fun i => a i ^ 2)) by (intros; rewrite D; ring).
  rewrite Rplus_assoc, <- Rmult_plus_distr_l, <- tot_add. f_equal. f_equal. apply tot_ext. intros j _. rewrite <- tot_add. apply tot_ext. intros i _. ring.
Qed.
