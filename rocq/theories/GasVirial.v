(* The second virial coefficient of a natural gas, counted by size. *)
From Coq Require Import Reals ZArith List Bool Lra Lia Psatz.
From Verif Require Import FArith ArithR StdDetail SpecStd SpecGas SpecAcc SpecSlope SpecConv SlopeReal ConvDetail FixUp GasDetail.
Import ListNotations.
Local Open Scope R_scope.

Definition thU (i j : nat) : Z := mulU (pairU 0 i j) (mulU (zn SE i) (zn SE j)).
Definition yU (i j : nat) : Z := mulU (litU (L 188 (-2))) (mulU (zn IE i) (zn IE j)).
Definition BU (fl : list nat) (i j : nat) : Z :=
  let g k := nth k fl 0%nat in
  whenU (g 6%nat) (mulU (compU 6 i) (compU 6 j)) (whenU (g 5%nat) (mulU (compU 5 i) (compU 5 j)) (whenU (g 4%nat) (mulU (compU 4 i) (compU 4 j))
  (whenU (g 3%nat) (mulU (compU 3 i) (compU 3 j)) (whenU (g 2%nat) (mulU (pairU 3 i j) (mulU (litU (L 5 (-1))) (compU 2 i + compU 2 j))) SC)))).
(* a, 2 u and the flags of the first 18 terms *)
Definition VT : list (Z * Z * list nat) := Eval vm_compute in map (fun n => (aU n, hu n, snd (term n))) (seq 0 18).
Lemma VT_ok : map (fun n => (aU n, hu n, snd (term n))) (seq 0 18) = VT. Proof. vm_compute. reflexivity. Qed.
Definition virU (i j : nat) : Z :=
  let th := thU i j in let y := yU i j in
  let tz := pt th SC 13 in let ty := pt y SC 6 in let zr := sqU (L 6945 (-4)) (L 36 (-2)) th in let yr := sqU (L 2632 (-4)) (L 95 (-2)) y in
  mulU (powU (mulU (zn SK i) (zn SK j)) 3) (lsumU (fun r => let '(a, h, fl) := r in mulU a (mulU (BU fl i j) (expU tz ty zr yr h))) VT).
Lemma lsum_seq f n : lsum f (seq 0 n) = tot n f.
Proof.
  induction n as [|n IH]; [reflexivity|]. rewrite seq_S. cbn [tot]. rewrite <- IH. generalize (seq 0 n). intros l. induction l as [|a l IL]; unfold lsum in *; cbn [app fold_right Nat.add] in *; [ring|]. rewrite IL. ring.
Qed.
Lemma tot_swap n m f : tot n (fun i => tot m (f i)) = tot m (fun j => tot n (fun i => f i j)).
Proof. induction n as [|n IH]; cbn [tot]; [induction m as [|m IM]; cbn [tot]; [ring|rewrite <- IM; ring]|]. rewrite IH, <- tot_plus. reflexivity. Qed.
Lemma K32 a b : 0 < a -> 0 < b -> Rpower (a * b) (3 / 2) = (sqrt a * sqrt b) ^ 3.
Proof.
  intros A B. rewrite <- sqrt_mult by lra. replace (3 / 2) with (INR 3 / 2) by (cbn; lra). apply Rpower_half. now apply Rmult_lt_0_compat.
Qed.

Lemma inv_sqrt' a : 0 < a -> / sqrt a = sqrt (/ a).
Proof. intros A. symmetry. apply sqrt_inv. Qed.

Section V.
Variable x : nat -> R.
Hypothesis Hx : natural_gas x.
Variable T : R.
Hypothesis HT : 270 <= T <= 350.
Let th i j : R := pair 0 i j * sqrt (E_ i * E_ j) / T.
Lemma th_ok i j : (i < 21)%nat -> (j < 21)%nat -> 0 < th i j /\ up (thU i j) (th i j) /\ up (yU i j) (/ th i j).
Proof.
  intros Hi Hj. destruct (roots i Hi) as (Ei & _ & si & _ & qi). destruct (roots j Hj) as (Ej & _ & sj & _ & qj). destruct (pairU_ok 0 i j) as [pu pp]. pose proof (pair0_low i j) as pl.
  assert (S : sqrt (E_ i * E_ j) = 270 * (sqrt (E_ i / 270) * sqrt (E_ j / 270))).
  { rewrite <- sqrt_mult by (apply div0; lra). transitivity (sqrt (270 * 270) * sqrt (E_ i / 270 * (E_ j / 270))); [|rewrite (sqrt_square 270) by lra; reflexivity]. rewrite <- sqrt_mult; [f_equal; field|lra|apply Rmult_le_pos; apply div0; lra]. }
  assert (S' : / sqrt (E_ i * E_ j) = / 270 * (sqrt (270 / E_ i) * sqrt (270 / E_ j))).
  { rewrite <- sqrt_mult by (apply div0; lra). transitivity (sqrt (/ 270 * / 270) * sqrt (270 / E_ i * (270 / E_ j))); [|rewrite (sqrt_square (/ 270)) by lra; reflexivity]. rewrite <- sqrt_mult; [|lra|apply Rmult_le_pos; apply div0; lra].
    rewrite inv_sqrt' by now apply Rmult_lt_0_compat. f_equal. field. lra. }
  assert (P : 0 < sqrt (E_ i * E_ j)) by (apply sqrt_lt_R0; now apply Rmult_lt_0_compat).
  assert (0 < th i j) as Q by (unfold th; apply Rdiv_lt_0_compat; [now apply Rmult_lt_0_compat|lra]). split; [exact Q|].
  assert (iT : 0 < / T <= / 270) by (split; [apply Rinv_0_lt_compat; lra|apply Rinv_le_contravar; lra]). split.
  - apply (up_le _ (thU i j) _ (th i j) (up_mul _ _ _ _ pu (up_mul _ _ _ _ si sj))); [|apply Z.le_refl]. split; [lra|]. unfold th. rewrite S. unfold Rdiv at 1. rewrite Rmult_assoc. apply Rmult_le_compat_l; [lra|].
    assert (0 <= sqrt (E_ i / 270) * sqrt (E_ j / 270)) as N by (apply Rmult_le_pos; apply sqrt_pos). replace (270 * (sqrt (E_ i / 270) * sqrt (E_ j / 270)) * / T) with ((270 * / T) * (sqrt (E_ i / 270) * sqrt (E_ j / 270))) by ring.
    set (z := sqrt (E_ i / 270) * sqrt (E_ j / 270)) in *. clearbody z. assert (W : 270 * / T <= 1) by (destruct iT; lra). apply Rle_trans with (1 * z); [now apply Rmult_le_compat_r|lra].
  - apply (up_le _ (yU i j) _ (/ th i j) (up_mul _ _ _ _ (up_lit (L 188 (-2))) (up_mul _ _ _ _ qi qj))); [|apply Z.le_refl]. split; [left; now apply Rinv_0_lt_compat|].
    assert (N : 0 <= sqrt (270 / E_ i) * sqrt (270 / E_ j)) by (apply Rmult_le_pos; apply sqrt_pos).
    replace (/ th i j) with (T * / 270 * / pair 0 i j * (sqrt (270 / E_ i) * sqrt (270 / E_ j))).
    + apply Rmult_le_compat_r; [exact N|]. replace (Rabs (Rlit (L 188 (-2)))) with (188 / 100) by (change (Rlit (L 188 (-2))) with (188 / 100); rewrite Rabs_pos_eq; lra).
      assert (ip : 0 < / pair 0 i j <= / (69 / 100)) by (split; [now apply Rinv_0_lt_compat|apply Rinv_le_contravar; lra]).
      apply Rle_trans with (350 / 270 * / (69 / 100)); [|lra]. apply Rmult_le_compat; [lra|lra|lra|apply ip].
    + replace (/ th i j) with (T * / pair 0 i j * / sqrt (E_ i * E_ j)) by (unfold th; field; repeat split; lra). rewrite S'. ring.
Qed.
Lemma exp_th n i j : (n < 18)%nat -> (i < 21)%nat -> (j < 21)%nat ->
  up (expU (pt (thU i j) SC 13) (pt (yU i j) SC 6) (sqU (L 6945 (-4)) (L 36 (-2)) (thU i j)) (sqU (L 2632 (-4)) (L 95 (-2)) (yU i j)) (hu n)) (Rpower (th i j) (u_ n)).
Proof.
  intros Hn Hi Hj. destruct (th_ok i j Hi Hj) as (P & U & V). assert (0 < / th i j) by now apply Rinv_0_lt_compat. rewrite u_half by lia. apply up_exp; trivial.
  - apply (up_sq _ _ _ _ (72 / 100)); trivial; [lra|lra|cbn; lra|cbn; lra].
  - apply (up_sq _ _ _ _ (19 / 10)); trivial; [lra|lra|cbn; lra|cbn; lra].
  - pose proof (hu_range18 n Hn). lia.
Qed.
Lemma B_up n i j : (n < 18)%nat -> up (BU (snd (term n)) i j) (B_n n i j).
Proof.
  intros Hn. destruct (flags n ltac:(lia)) as (G & Q & F & S & W). unfold BU, B_n. rewrite !F_sqrt.
  change (nth 6 (snd (term n)) 0%nat) with (w_ n). change (nth 5 (snd (term n)) 0%nat) with (s_ n). change (nth 4 (snd (term n)) 0%nat) with (f_ n).
  change (nth 3 (snd (term n)) 0%nat) with (q_ n). change (nth 2 (snd (term n)) 0%nat) with (g_ n).
  apply up_when; [exact W|apply up_mul; apply up_comp|]. apply up_when; [exact S|apply up_mul; apply up_comp|]. apply up_when; [exact F|apply up_mul; apply up_comp|].
  apply up_when; [exact Q|apply up_mul; apply up_comp|]. rewrite <- (Rmult_1_l (when (g_ n) _)). apply up_when; [exact G| |exact up_1].
  replace (pair 3 i j * (G_ i + G_ j) / 2) with (pair 3 i j * (Rabs (Rlit (L 5 (-1))) * (G_ i + G_ j))) by (replace (Rabs (Rlit (L 5 (-1)))) with (/ 2) by (change (Rlit (L 5 (-1))) with (5 / 10); rewrite Rabs_pos_eq; lra); field).
  apply up_mul; [apply pairU_ok|]. apply up_mul; [apply up_lit|]. apply up_add; apply up_comp.
Qed.
Let m n i j : R := Rabs (a_ n) * (B_n n i j * Rpower (th i j) (u_ n)).
Lemma vir_up i j : (i < 21)%nat -> (j < 21)%nat -> up (virU i j) (Rpower (K_ i * K_ j) (3 / 2) * tot 18 (fun n => m n i j)).
Proof.
  intros Hi Hj. destruct (roots i Hi) as (_ & Ki & _ & ki & _). destruct (roots j Hj) as (_ & Kj & _ & kj & _). unfold virU. rewrite K32 by assumption. apply up_mul.
  - apply up_pow. now apply up_mul.
  - rewrite <- lsum_seq, <- VT_ok. unfold lsumU at 1.
    assert (E : forall l, fold_right (fun (a : Z * Z * list nat) s => (let '(a0, h, fl) := a in mulU a0 (mulU (BU fl i j) (expU (pt (thU i j) SC 13) (pt (yU i j) SC 6) (sqU (L 6945 (-4)) (L 36 (-2)) (thU i j)) (sqU (L 2632 (-4)) (L 95 (-2)) (yU i j)) h))) + s)%Z 0%Z
              (map (fun n => (aU n, hu n, snd (term n))) l) = lsumU (fun n => mulU (aU n) (mulU (BU (snd (term n)) i j) (expU (pt (thU i j) SC 13) (pt (yU i j) SC 6) (sqU (L 6945 (-4)) (L 36 (-2)) (thU i j)) (sqU (L 2632 (-4)) (L 95 (-2)) (yU i j)) (hu n)))) l).
    { induction l as [|a l IL]; [reflexivity|]. cbn [map fold_right lsumU]. f_equal. exact IL. }
    rewrite E. apply up_lsum. intros n Hn. apply in_seq in Hn. unfold m. apply up_mul; [apply up_a|]. apply up_mul; [apply B_up; lia|]. apply exp_th; trivial; lia.
Qed.
Lemma vir_one n : (n < 18)%nat -> Rabs (virial_n x T n) <= tot 21 (fun i => tot 21 (fun j => x i * x j * (Rpower (K_ i * K_ j) (3 / 2) * m n i j))).
Proof.
  intros Hn. unfold virial_n. rewrite !Rabs_mult, (Rabs_pos_eq (Rpower T _)) by (left; apply exp_pos).
  assert (N : forall i j, (i < 21)%nat -> (j < 21)%nat -> 0 <= x i * x j * B_n n i j * Rpower (pair 0 i j * sqrt (E_ i * E_ j)) (u_ n) * Rpower (K_ i * K_ j) (3 / 2)).
  { intros i j Hi Hj. pose proof (proj1 (B_up n i j Hn)) as PB. set (w := B_n n i j) in *. clearbody w. repeat apply Rmult_le_pos; try exact PB; try (left; apply exp_pos); apply (x_ge0 x Hx); assumption. }
  rewrite (Rabs_pos_eq (tot 21 _)) by (apply tot_ge0; intros i Hi; apply tot_ge0; intros j Hj; now apply N).
  rewrite <- tot_scal. apply tot_le. intros i Hi. rewrite <- tot_scal. apply tot_le. intros j Hj. right. unfold m.
  destruct (th_ok i j Hi Hj) as (P & _). assert (E : Rpower (th i j) (u_ n) = Rpower T (- u_ n) * Rpower (pair 0 i j * sqrt (E_ i * E_ j)) (u_ n)).
  { replace (th i j) with (pair 0 i j * sqrt (E_ i * E_ j) * / T) by reflexivity. destruct (roots i Hi) as (Ei & _). destruct (roots j Hj) as (Ej & _). destruct (pairU_ok 0 i j) as [_ pp].
    rewrite <- Rpower_mult_distr; [| apply Rmult_lt_0_compat; [exact pp|apply sqrt_lt_R0; now apply Rmult_lt_0_compat] | apply Rinv_0_lt_compat; lra].
    rewrite Rmult_comm. f_equal. unfold Rpower. rewrite ln_Rinv by lra. f_equal. ring. }
  rewrite E. ring.
Qed.
Lemma vir_sum : tot 18 (fun n => Rabs (virial_n x T n)) <= fx (linU (fun i => linU (virU i))).
Proof.
  apply Rle_trans with (tot 21 (fun i => tot 21 (fun j => x i * x j * (Rpower (K_ i * K_ j) (3 / 2) * tot 18 (fun n => m n i j))))).
  - apply Rle_trans with (tot 18 (fun n => tot 21 (fun i => tot 21 (fun j => x i * x j * (Rpower (K_ i * K_ j) (3 / 2) * m n i j))))); [apply tot_le; intros n Hn; now apply vir_one|].
    rewrite tot_swap. apply tot_le. intros i Hi. rewrite tot_swap. apply tot_le. intros j Hj. right. rewrite <- !tot_scal. apply tot_ext. intros n _. ring.
  - apply (up_rows x Hx virU (fun i j => Rpower (K_ i * K_ j) (3 / 2) * tot 18 (fun n => m n i j))). intros i j Hi Hj. now apply vir_up.
Qed.
End V.
Lemma virU_le : (linU (fun i => linU (virU i)) <=? 117680000)%Z = true. Proof. vm_compute. reflexivity. Qed.
Lemma vir_bound x T : natural_gas x -> 270 <= T <= 350 -> tot 18 (fun n => Rabs (virial_n x T n)) <= 4384 / 10000.
Proof.
  intros Hx HT. apply Rle_trans with (1 := vir_sum x Hx T HT). pose proof virU_le as H. apply Z.leb_le in H. apply fx_le in H. apply Rle_trans with (1 := H).
  unfold fx. change SC with 268435456%Z. lra.
Qed.
