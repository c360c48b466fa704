(* The sums of SpecAllD for a natural gas at low density. *)
From Coq Require Import Reals ZArith List Bool Lra Lia Psatz.
From Verif Require Import FArith ArithR StdDetail SpecStd SpecGas SpecAcc SpecSlope SpecConv SpecAllD SlopeReal ConvDetail FixUp GasDetail GasVirial GasThird.
Import ListNotations.
Local Open Scope R_scope.

Lemma tot_split a b f : tot (a + b) f = tot a f + tot b (fun m => f (a + m)%nat).
Proof.
  induction b as [|b IH]; [rewrite Nat.add_0_r; cbn [tot]; ring|]. rewrite Nat.add_succ_r. cbn [tot]. rewrite IH. ring.
Qed.
Lemma tot_z n f : (forall i, (i < n)%nat -> f i = 0) -> tot n f = 0.
Proof. induction n as [|n IH]; intros H; [reflexivity|]. cbn [tot]. rewrite IH, (H n) by (intros; try apply H; lia). ring. Qed.

(* the weights of the temperature derivatives; h is twice the exponent *)
Definition wU (w : nat) (h : Z) : Z := match w with 0%nat => SC | 1%nat => ((Z.abs h + 2) * 134217728)%Z | 2%nat => ((Z.abs h + 2) * Z.abs h * 67108864)%Z
  | _ => ((Z.abs h + 2) * (Z.abs h + 2) * 67108864)%Z end.
Definition weight (w n : nat) : R := match w with 0%nat => 1 | 1%nat => Rabs (u_ n) + 1 | 2%nat => (Rabs (u_ n) + 1) * Rabs (u_ n) | _ => (Rabs (u_ n) + 1) ^ 2 end.
Lemma w_up w n : (n < 58)%nat -> up (wU w (hu n)) (weight w n).
Proof.
  intros Hn. unfold weight. assert (E : Rabs (u_ n) = IZR (Z.abs (hu n)) / 2) by (rewrite (u_half n Hn); unfold Rdiv; rewrite Rabs_mult, (Rabs_pos_eq (/ 2)) by lra; now rewrite abs_IZR).
  rewrite E. assert (P : 0 <= IZR (Z.abs (hu n))) by (apply IZR_le; lia). set (h := Z.abs (hu n)) in *. unfold up, fx.
  destruct w as [|[|[|w]]]; cbn [wU]; fold h; clearbody h; change SC with 268435456%Z; rewrite ?mult_IZR, ?plus_IZR; (split; [nra|]); right; field.
Qed.

Definition vir2U (i j : nat) : Z :=
  let th := thU i j in let y := yU i j in
  let tz := pt th SC 13 in let ty := pt y SC 6 in let zr := sqU (L 6945 (-4)) (L 36 (-2)) th in let yr := sqU (L 2632 (-4)) (L 95 (-2)) y in
  mulU (powU (mulU (zn SK i) (zn SK j)) 3) (lsumU (fun r => let '(a, h, fl) := r in mulU (wU 3 h) (mulU a (mulU (BU fl i j) (expU tz ty zr yr h)))) VT).
Section V.
Variable x : nat -> R.
Hypothesis Hx : natural_gas x.
Variable T : R.
Hypothesis HT : 270 <= T <= 350.
Let th i j : R := pair 0 i j * sqrt (E_ i * E_ j) / T.
Let m n i j : R := Rabs (a_ n) * (B_n n i j * Rpower (th i j) (u_ n)).
Lemma vir2_up i j : (i < 21)%nat -> (j < 21)%nat -> up (vir2U i j) (Rpower (K_ i * K_ j) (3 / 2) * tot 18 (fun n => weight 3 n * m n i j)).
Proof.
  intros Hi Hj. destruct (roots i Hi) as (_ & Ki & _ & ki & _). destruct (roots j Hj) as (_ & Kj & _ & kj & _). unfold vir2U. rewrite K32 by assumption. apply up_mul.
  - apply up_pow. now apply up_mul.
  - rewrite <- lsum_seq, <- VT_ok, lsum_map. apply up_lsum. intros n Hn. apply in_seq in Hn. apply up_mul; [apply w_up; lia|]. unfold m. apply up_mul; [apply up_a|]. apply up_mul; [apply B_up; lia|].
    apply (exp_th T HT); trivial; lia.
Qed.
Lemma vir2_sum : tot 18 (fun n => weight 3 n * Rabs (virial_n x T n)) <= fx (linU (fun i => linU (vir2U i))).
Proof.
  apply Rle_trans with (tot 21 (fun i => tot 21 (fun j => x i * x j * (Rpower (K_ i * K_ j) (3 / 2) * tot 18 (fun n => weight 3 n * m n i j))))).
  - apply Rle_trans with (tot 18 (fun n => tot 21 (fun i => tot 21 (fun j => x i * x j * (Rpower (K_ i * K_ j) (3 / 2) * (weight 3 n * m n i j)))))).
    + apply tot_le. intros n Hn. apply Rle_trans with (weight 3 n * tot 21 (fun i => tot 21 (fun j => x i * x j * (Rpower (K_ i * K_ j) (3 / 2) * m n i j)))).
      * apply Rmult_le_compat_l; [exact (proj1 (w_up 3 n ltac:(lia)))|]. exact (vir_one x Hx T HT n Hn).
      * right. rewrite <- tot_scal. apply tot_ext. intros i _. rewrite <- tot_scal. apply tot_ext. intros j _. ring.
    + rewrite tot_swap. apply tot_le. intros i Hi. rewrite tot_swap. apply tot_le. intros j Hj. right. rewrite <- !tot_scal. apply tot_ext. intros n _. ring.
  - apply (up_rows x Hx vir2U (fun i j => Rpower (K_ i * K_ j) (3 / 2) * tot 18 (fun n => weight 3 n * m n i j))). intros i j Hi Hj. now apply vir2_up.
Qed.
End V.
Lemma vir2U_le : (linU (fun i => linU (vir2U i)) <=? 583840000)%Z = true. Proof. vm_compute. reflexivity. Qed.
Lemma vir2_bound x T : natural_gas x -> 270 <= T <= 350 -> tot 18 (fun n => weight 3 n * Rabs (virial_n x T n)) <= 2175 / 1000.
Proof.
  intros Hx HT. apply Rle_trans with (1 := vir2_sum x Hx T HT). apply Rle_trans with (1 := leU _ _ vir2U_le). unfold fx. change SC with 268435456%Z. lra.
Qed.

Definition dq : lit := L 573 (-4).
Definition D2 : Z := Eval vm_compute in mulU (powU (litU kq) 3) (litU dq).
Lemma D2_num : D2 = mulU (powU (litU kq) 3) (litU dq). Proof. vm_compute. reflexivity. Qed.
Definition CH : list (Z * nat * nat * Z) := Eval vm_compute in combine CT (map hu (seq 12 46)).
Lemma CH_num : CH = map (fun n => (mulU (aU n) (whenU (f_ n) (litU fq) (whenU (q_ n) (litU qq) (whenU (g_ n) (litU gq) (expU tzC tyC zrC yrC (hu n))))), b_ n, k_ n, hu n)) (seq 12 46).
Proof. vm_compute. reflexivity. Qed.
Definition dfU (e b k : nat) : Z :=
  let g := (nU b + mulU (nU k) (powU D2 k))%Z in let c := mulU (mulU (nU k) (nU k)) (powU D2 k) in
  match e with 0%nat => SC | 1%nat => g | _ => (mulU g (g + SC) + c)%Z end.
Definition sixU (w : nat) : Z := lsumU (fun r => let '(c, b, k, h) := r in mulU (wU w h) (mulU c D2)) (firstn 6 CH).
Definition restU (w e : nat) : Z := lsumU (fun r => let '(c, b, k, h) := r in mulU (wU w h) (mulU (mulU c (powU D2 b)) (dfU e b k))) CH.
Definition sumU (w e : nat) : Z :=
  ((match e with 0%nat | 1%nat => mulU (litU dq) (match w with 0%nat => litU (L 4384 (-4)) | _ => litU (L 2175 (-3)) end) + sixU w | _ => 0 end) + restU w e)%Z.

Section S.
Variable x : nat -> R.
Hypothesis Hx : natural_gas x.
Variable T : R.
Hypothesis HT : 270 <= T <= 350.
Variable d : R.
Hypothesis Hd : 0 < d <= 573 / 10000.
Local Notation cT n := (GasThird.cT x T n).
Local Notation D := (detail_D x d).
Lemma D2_up : up D2 D.
Proof.
  rewrite D2_num. unfold detail_D. pose proof (kap_le x Hx) as KL. apply up_mul; [apply up_pow|]; apply lit_le; [left; apply exp_pos|exact KL|lra|cbn; lra].
Qed.
Lemma df_up e n : (e <= 2)%nat -> up (dfU e (b_ n) (k_ n)) (dfactor (b_ n) (k_ n) D e).
Proof.
  intros He. pose proof (up_pow _ _ (k_ n) D2_up) as P. assert (G : up (nU (b_ n) + mulU (nU (k_ n)) (powU D2 (k_ n)))%Z (INR (b_ n) + INR (k_ n) * D ^ k_ n)) by (apply up_add; [apply up_INR|apply up_mul; [apply up_INR|exact P]]).
  destruct e as [|[|[|e]]]; [exact up_1|exact G| |lia]. unfold dfU, dfactor. apply up_add; [apply up_mul; [exact G|apply up_add; [exact G|exact up_1]]|]. apply up_mul; [apply up_mul; apply up_INR|exact P].
Qed.
Lemma wt_eq w n : (w <= 2)%nat -> dweight w n = weight w n.
Proof. intros Hw. destruct w as [|[|[|w]]]; [reflexivity..|lia]. Qed.
Lemma six2_up w : up (sixU w) (tot 6 (fun m => weight w (12 + m) * (cT (12 + m)%nat * D))).
Proof.
  unfold sixU. rewrite CH_num, firstn_map. change (firstn 6 (seq 12 46)) with (seq 12 6). rewrite lsum_map, <- (lsum_from (fun n => weight w n * (cT n * D))). apply up_lsum. intros n Hn. apply in_seq in Hn.
  apply up_mul; [apply w_up; lia|]. apply up_mul; [apply (C_up x Hx T HT); lia|exact D2_up].
Qed.
Lemma rest_up w e : (e <= 2)%nat -> up (restU w e) (tot 46 (fun m => let n := (12 + m)%nat in weight w n * (cT n * D ^ b_ n * dfactor (b_ n) (k_ n) D e))).
Proof.
  intros He. unfold restU. rewrite CH_num, lsum_map, <- (lsum_from (fun n => weight w n * (cT n * D ^ b_ n * dfactor (b_ n) (k_ n) D e))). apply up_lsum. intros n Hn. apply in_seq in Hn.
  apply up_mul; [apply w_up; lia|]. apply up_mul; [apply up_mul|]; [apply (C_up x Hx T HT); lia|apply up_pow; exact D2_up|now apply df_up].
Qed.
Lemma virw_up w : (w <= 2)%nat -> up (match w with 0%nat => litU (L 4384 (-4)) | _ => litU (L 2175 (-3)) end) (tot 18 (fun n => weight w n * Rabs (virial_n x T n))).
Proof.
  intros Hw. assert (P : 0 <= tot 18 (fun n => weight w n * Rabs (virial_n x T n))) by (apply tot_ge0; intros n Hn; apply Rmult_le_pos; [exact (proj1 (w_up w n ltac:(lia)))|apply Rabs_pos]).
  assert (Q : (1 <= w)%nat -> tot 18 (fun n => weight w n * Rabs (virial_n x T n)) <= 2175 / 1000).
  { intros W1. apply Rle_trans with (2 := vir2_bound x T Hx HT). apply tot_le. intros n Hn. apply Rmult_le_compat_r; [apply Rabs_pos|]. pose proof (Rabs_pos (u_ n)). destruct w as [|[|[|w]]]; cbn [weight]; try lia; nra. }
  destruct w as [|w]; [|apply lit_le; [exact P|]; destruct w as [|[|w]]; [| |lia]; apply Rle_trans with (1 := Q ltac:(lia)); cbn; lra].
  apply (v_up x Hx T HT). split; [exact P|]. right. apply tot_ext. intros n _. cbn [weight]. ring.
Qed.
Lemma e_le k : 0 <= match k with O => 1 | S n0 => exp (- D ^ S n0) end <= 1.
Proof.
  destruct k as [|k]; [lra|]. split; [left; apply exp_pos|]. rewrite <- exp_0. destruct (Rle_lt_or_eq_dec 0 (D ^ S k)) as [H|H]; [apply pow_le; apply D2_up|left; apply exp_increasing; lra|right; f_equal; lra].
Qed.
Lemma dsum_le w e : (w <= 2)%nat -> (e <= 2)%nat -> 0 <= dsum w e x T d <= fx (sumU w e).
Proof.
  intros Hw He.
  assert (PC : forall n, (n < 58)%nat -> 0 <= cT n) by (intros n Hn; exact (proj1 (C_up x Hx T HT n Hn))).
  assert (PD : 0 <= D) by apply D2_up.
  assert (PW : forall n, (n < 58)%nat -> 0 <= weight w n) by (intros n Hn; exact (proj1 (w_up w n Hn))).
  assert (PF : forall n, 0 <= dfactor (b_ n) (k_ n) D e) by (intros n; exact (proj1 (df_up e n He))).
  set (A n := if (n <? 18)%nat then match e with 0%nat | 1%nat => d * Rabs (virial_n x T n) + (if (n <? 12)%nat then 0 else cT n * D) | _ => 0 end else 0).
  set (Bn n := if (n <? 12)%nat then 0 else cT n * D ^ b_ n * match k_ n with O => 1 | k => exp (- D ^ k) end * dfactor (b_ n) (k_ n) D e).
  assert (PA : forall n, (n < 58)%nat -> 0 <= A n).
  { intros n Hn. unfold A. destruct (n <? 18)%nat; [|lra]. assert (0 <= d * Rabs (virial_n x T n)) by (apply Rmult_le_pos; [lra|apply Rabs_pos]). pose proof (Rmult_le_pos _ _ (PC n Hn) PD). destruct e as [|[|e]]; [| |lra]; destruct (n <? 12)%nat; lra. }
  assert (PB : forall n, (n < 58)%nat -> 0 <= Bn n).
  { intros n Hn. unfold Bn. destruct (n <? 12)%nat; [lra|]. apply Rmult_le_pos; [apply Rmult_le_pos; [apply Rmult_le_pos; [now apply PC|now apply pow_le]|apply (e_le (k_ n))]|apply PF]. }
  assert (E : dsum w e x T d = tot 58 (fun n => weight w n * A n) + tot 58 (fun n => weight w n * Bn n)).
  { rewrite <- tot_plus. unfold dsum. apply tot_ext. intros n _. rewrite (wt_eq w n Hw). unfold dterm, A, Bn. cbv zeta. fold (GasThird.cT x T n). rewrite <- Rmult_plus_distr_l. reflexivity. }
  rewrite E. split; [apply Rplus_le_le_0_compat; apply tot_ge0; intros n Hn; apply Rmult_le_pos; auto|].
  unfold sumU. rewrite fx_add. apply Rplus_le_compat.
  - rewrite (tot_split 18 40). rewrite (tot_z 40) by (intros i _; unfold A; replace (18 + i <? 18)%nat with false by (symmetry; apply Nat.ltb_ge; lia); ring). rewrite Rplus_0_r.
    assert (G : (e <= 1)%nat -> tot 18 (fun n => weight w n * A n) <= fx (mulU (litU dq) (match w with 0%nat => litU (L 4384 (-4)) | _ => litU (L 2175 (-3)) end) + sixU w)).
    { intros E1. apply Rle_trans with (d * tot 18 (fun n => weight w n * Rabs (virial_n x T n)) + tot 18 (fun n => if (n <? 12)%nat then 0 else weight w n * (cT n * D))).
      - right. rewrite <- tot_scal, <- tot_plus. apply tot_ext. intros n Hn. unfold A. replace (n <? 18)%nat with true by (symmetry; apply Nat.ltb_lt; exact Hn). destruct e as [|[|e]]; [| |lia]; destruct (n <? 12)%nat; ring.
      - rewrite fx_add. apply Rplus_le_compat.
        + apply up_mul; [apply lit_le; [lra|cbn; lra]|now apply virw_up].
        + rewrite (tot_split 12 6). rewrite tot_z by (intros i Hi; replace (i <? 12)%nat with true by (symmetry; apply Nat.ltb_lt; exact Hi); reflexivity). rewrite Rplus_0_l.
          apply Rle_trans with (2 := proj2 (six2_up w)). right. apply tot_ext. intros i Hi. replace (12 + i <? 12)%nat with false by (symmetry; apply Nat.ltb_ge; lia). reflexivity. }
    destruct e as [|[|e]]; [apply G; lia..|]. rewrite fx_0. right. apply tot_z. intros n _. unfold A. destruct (n <? 18)%nat; ring.
  - rewrite (tot_split 12 46). rewrite tot_z by (intros i Hi; unfold Bn; replace (i <? 12)%nat with true by (symmetry; apply Nat.ltb_lt; exact Hi); ring). rewrite Rplus_0_l.
    apply Rle_trans with (2 := proj2 (rest_up w e He)). apply tot_le. intros i Hi. cbv zeta. apply Rmult_le_compat_l; [apply PW; lia|]. unfold Bn. replace (12 + i <? 12)%nat with false by (symmetry; apply Nat.ltb_ge; lia).
    apply Rmult_le_compat_r; [apply PF|]. pose proof (e_le (k_ (12 + i))) as Ee. assert (0 <= cT (12 + i)%nat * D ^ b_ (12 + i)) by (apply Rmult_le_pos; [apply PC; lia|now apply pow_le]).
    set (q := match k_ (12 + i) with O => 1 | S _ => _ end) in *. clearbody q. nra.
Qed.
End S.
