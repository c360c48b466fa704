(* The DETAIL pressure of a natural gas near base conditions is nearly that of an ideal gas, with its slopes. *)
From Coq Require Import Reals ZArith List Bool Lra Lia Psatz.
From Coquelicot Require Import Coquelicot.
From Verif Require Import FArith ArithR StdDetail SpecStd SpecGas SpecAcc SpecConv SpecAll SpecAllD ConvDetail FixUp GasVirial GasThird SlopeReal GasSum GasProps SensCore.
Local Open Scope R_scope.
Local Notation RR := (831451 / 100000).

Section Z.
Variable x : nat -> R.
Let kappa := Rpower (sizeK5 x) (1/5) ^ 3.
Lemma kap_pos : 0 < kappa.
Proof. apply pow_lt. unfold Rpower. apply exp_pos. Qed.
Definition vco (n : nat) : R := a_ n * tot 21 (fun i => tot 21 (fun j =>
      x i * x j * B_n n i j * Rpower (pair 0 i j * sqrt (E_ i * E_ j)) (u_ n) * Rpower (K_ i * K_ j) (3/2))).
(* term n of Z - 1 is qco n d * T^(-u n) *)
Definition qco (n : nat) (d : R) : R :=
  (if (n <? 18)%nat then vco n - (if (n <? 12)%nat then 0 else kappa * C_n x n) else 0) * d
  + (if (n <? 12)%nat then 0 else C_n x n * hb (b_ n) (k_ n) (kappa * d)).
Definition qco1 (n : nat) (d : R) : R :=
  (if (n <? 18)%nat then vco n - (if (n <? 12)%nat then 0 else kappa * C_n x n) else 0) * d
  + (if (n <? 12)%nat then 0 else C_n x n * hb1 (b_ n) (k_ n) (kappa * d)).
Lemma Z_sum T d : detail_Z x T d = 1 + tot 58 (fun n => qco n d * Rpower T (- u_ n)).
Proof.
  rewrite Z_eq. fold kappa. rewrite Rplus_assoc. f_equal. unfold qco.
  rewrite (tot_ext 58 _ (fun n => (if (n <? 18)%nat then vco n - (if (n <? 12)%nat then 0 else kappa * C_n x n) else 0) * d * Rpower T (- u_ n)
    + (if (n <? 12)%nat then 0 else C_n x n * hb (b_ n) (k_ n) (kappa * d)) * Rpower T (- u_ n))) by (intros n _; ring).
  rewrite tot_plus. f_equal.
  - rewrite (tot_split 18 40). rewrite (tot_z 40) by (intros i _; replace (18 + i <? 18)%nat with false by (symmetry; apply Nat.ltb_ge; lia); ring).
    rewrite Rplus_0_r. unfold lin. fold kappa. unfold second_virial. rewrite Rmult_minus_distr_r.
    transitivity (tot 18 (fun n => vco n * d * Rpower T (- u_ n)) + tot 18 (fun n => (if (n <? 12)%nat then 0 else - kappa * C_n x n) * d * Rpower T (- u_ n))).
    + unfold Rminus. f_equal.
      * rewrite Rmult_comm, <- tot_scal. apply tot_ext. intros n _. unfold vco. ring.
      * rewrite (tot_split 12 6). rewrite (tot_z 12) by (intros i Hi; replace (i <? 12)%nat with true by (symmetry; apply Nat.ltb_lt; exact Hi); ring). rewrite Rplus_0_l.
        match goal with |- - (kappa * ?s * d) = _ => transitivity ((- kappa * d) * s); [ring|] end. rewrite <- tot_scal. apply tot_ext. intros m _. replace (12 + m <? 12)%nat with false by (symmetry; apply Nat.ltb_ge; lia). ring.
    + rewrite <- tot_plus. apply tot_ext. intros n Hn. replace (n <? 18)%nat with true by (symmetry; apply Nat.ltb_lt; exact Hn). destruct (n <? 12)%nat; ring.
  - rewrite (tot_split 12 46). rewrite (tot_z 12) by (intros i Hi; replace (i <? 12)%nat with true by (symmetry; apply Nat.ltb_lt; exact Hi); ring). rewrite Rplus_0_l.
    apply tot_ext. intros m _. replace (12 + m <? 12)%nat with false by (symmetry; apply Nat.ltb_ge; lia). ring.
Qed.

Lemma qco_derive n d : 0 < d -> is_derive (qco n) d (qco1 n d / d).
Proof.
  intros Hd. pose proof kap_pos as Kp. unfold qco, qco1. rewrite Rdiv_plus_distr.
  apply (@is_derive_plus R_AbsRing R_NormedModule).
  - evar_last; [apply is_derive_scal, is_derive_id|]. unfold one; cbn -[Nat.ltb]. field. lra.
  - destruct (n <? 12)%nat; [unfold Rdiv; rewrite Rmult_0_l; apply (@is_derive_const R_AbsRing R_NormedModule)|].
    evar_last; [apply is_derive_scal, (is_derive_comp (hb _ _) (fun d => kappa * d)); [apply hb_derive; now apply Rmult_lt_0_compat|apply is_derive_scal, is_derive_id]|].
    unfold scal, mult, one; cbn -[hb1 pow]. clearbody kappa. field. lra.
Qed.
Variables T d : R.
Hypothesis HT : 0 < T.
Hypothesis Hd : 0 < d.
Lemma D_eq : detail_D x d = kappa * d. Proof. reflexivity. Qed.
Lemma hb_le2 b k D : 0 <= D -> Rabs (hb b k D) <= D ^ b * ek k D * dfactor b k D 1 /\
  Rabs (hb1 b k D) <= D ^ b * ek k D * dfactor b k D 1 + D ^ b * ek k D * dfactor b k D 2.
Proof.
  intros HD. destruct (ek_box k D HD) as [E0 E1]. assert (K0 : 0 <= D ^ k) by now apply pow_le. assert (B0 : 0 <= D ^ b) by now apply pow_le.
  pose proof (pos_INR b) as Pb. pose proof (pos_INR k) as Pk. unfold hb, hb1, dfactor. set (Dk := D ^ k) in *. set (Db := D ^ b) in *. set (E := ek k D) in *. clearbody Dk Db E.
  assert (Y : 0 <= INR k * Dk) by now apply Rmult_le_pos. assert (Y2 : 0 <= INR k * INR k * Dk) by (apply Rmult_le_pos; [apply Rmult_le_pos|]; assumption).
  assert (W : 0 <= Db * E) by (apply Rmult_le_pos; lra). replace (INR k ^ 2 * Dk) with (INR k * INR k * Dk) by ring.
  set (y := INR k * Dk) in *. set (y2 := INR k * INR k * Dk) in *. set (bb := INR b) in *. clearbody y y2 bb. split.
  - rewrite Rmult_assoc, Rabs_mult, (Rabs_pos_eq (Db * E)), Rmult_comm by exact W. apply Rmult_le_compat_l; [exact W|]. apply Rabs_le. lra.
  - rewrite Rmult_assoc, Rabs_mult, (Rabs_pos_eq (Db * E)), Rmult_comm, <- Rmult_plus_distr_l by exact W. apply Rmult_le_compat_l; [exact W|].
    assert (0 <= bb * y) by now apply Rmult_le_pos. pose proof (pow2_ge_0 (bb - y)). apply Rabs_le. split; nra.
Qed.
Lemma head n : Rabs ((if (n <? 18)%nat then vco n - (if (n <? 12)%nat then 0 else kappa * C_n x n) else 0) * d * Rpower T (- u_ n))
  <= if (n <? 18)%nat then d * Rabs (virial_n x T n) + (if (n <? 12)%nat then 0 else Rabs (C_n x n) * Rpower T (- u_ n) * (kappa * d)) else 0.
Proof.
  pose proof kap_pos as Kp. assert (PT : 0 < Rpower T (- u_ n)) by apply exp_pos. assert (V : virial_n x T n = vco n * Rpower T (- u_ n)) by (unfold virial_n, vco; ring). rewrite V.
  destruct (n <? 18)%nat; [|rewrite !Rmult_0_l, Rabs_R0; lra]. set (v := vco n). set (c := C_n x n). set (t := Rpower T (- u_ n)) in *. clearbody v c t. clearbody kappa.
  rewrite (Rabs_mult v), (Rabs_pos_eq t) by lra. rewrite !Rabs_mult, (Rabs_pos_eq t), (Rabs_pos_eq d) by lra.
  destruct (n <? 12)%nat; [rewrite Rminus_0_r; lra|].
  assert (Rabs (v - kappa * c) <= Rabs v + kappa * Rabs c) by (unfold Rminus; eapply Rle_trans; [apply Rabs_triang|]; rewrite Rabs_Ropp, Rabs_mult, (Rabs_pos_eq kappa); lra).
  replace (d * (Rabs v * t) + Rabs c * t * (kappa * d)) with ((Rabs v + kappa * Rabs c) * d * t) by ring. apply Rmult_le_compat_r; [lra|]. apply Rmult_le_compat_r; lra.
Qed.
Lemma term_le n : Rabs (qco n d * Rpower T (- u_ n)) <= dterm 1 x T d n /\ Rabs (qco1 n d * Rpower T (- u_ n)) <= dterm 1 x T d n + dterm 2 x T d n.
Proof.
  pose proof (head n) as H. pose proof kap_pos as Kp. assert (PT : 0 < Rpower T (- u_ n)) by apply exp_pos. assert (KD : 0 <= kappa * d) by (apply Rmult_le_pos; lra).
  destruct (hb_le2 (b_ n) (k_ n) (kappa * d) KD) as [B1 B2].
  unfold qco, qco1, dterm. cbv zeta. rewrite D_eq. assert (EK : match k_ n with O => 1 | S k => exp (- (kappa * d) ^ S k) end = ek (k_ n) (kappa * d)) by now destruct (k_ n). rewrite EK. rewrite !Rmult_plus_distr_r.
  set (h := (if (n <? 18)%nat then vco n - _ else 0) * d * Rpower T (- u_ n)) in *. clearbody h.
  assert (E0 : (if (n <? 18)%nat then 0 else 0) = 0) by now destruct (n <? 18)%nat. rewrite E0.
  set (hh := if (n <? 18)%nat then d * _ + _ else 0) in *. clearbody hh.
  set (t := Rpower T (- u_ n)) in *. set (c := C_n x n) in *. set (Db := (kappa * d) ^ b_ n) in *. set (E := ek _ _) in *.
  set (f1 := dfactor (b_ n) (k_ n) (kappa * d) 1) in *. set (f2 := dfactor (b_ n) (k_ n) (kappa * d) 2) in *. set (g1 := hb _ _ _) in *. set (g2 := hb1 _ _ _) in *. clearbody t c Db E f1 f2 g1 g2.
  assert (Pc := Rabs_pos c). split; eapply Rle_trans; try apply Rabs_triang.
  - apply Rplus_le_compat; [exact H|]. destruct (n <? 12)%nat; [rewrite Rmult_0_l, Rabs_R0; lra|]. rewrite !Rabs_mult, (Rabs_pos_eq t) by lra.
    apply Rle_trans with (Rabs c * (Db * E * f1) * t); [apply Rmult_le_compat_r; [lra|]; now apply Rmult_le_compat_l|]. right. ring.
  - assert (U : Rabs ((if (n <? 12)%nat then 0 else c * g2) * t) <= (if (n <? 12)%nat then 0 else Rabs c * t * Db * E * f1) + (if (n <? 12)%nat then 0 else Rabs c * t * Db * E * f2)).
    { destruct (n <? 12)%nat; [rewrite Rmult_0_l, Rabs_R0; lra|]. rewrite !Rabs_mult, (Rabs_pos_eq t) by lra.
      apply Rle_trans with (Rabs c * (Db * E * f1 + Db * E * f2) * t); [apply Rmult_le_compat_r; [lra|]; now apply Rmult_le_compat_l|]. right. ring. }
    lra.
Qed.
Definition z0 := tot 58 (fun n => qco n d * Rpower T (- u_ n)).
Definition z1 := tot 58 (fun n => qco1 n d * Rpower T (- u_ n)).
Definition zt := tot 58 (fun n => - u_ n * (qco n d * Rpower T (- u_ n))).
Lemma dterm_pos n : 0 <= dterm 1 x T d n. Proof. eapply Rle_trans; [apply Rabs_pos|apply term_le]. Qed.
Lemma z0_le : Rabs z0 <= dsum 0 1 x T d.
Proof. unfold z0, dsum. apply tot_abs. intros n _. cbn [dweight]. rewrite Rmult_1_l. apply term_le. Qed.
Lemma z1_le : Rabs z1 <= dsum 0 1 x T d + dsum 0 2 x T d.
Proof. unfold z1, dsum. rewrite <- tot_plus. apply tot_abs. intros n _. cbn [dweight]. rewrite !Rmult_1_l. apply term_le. Qed.
Lemma zt_le : Rabs zt <= dsum 1 1 x T d.
Proof.
  unfold zt, dsum. apply tot_abs. intros n _. cbn [dweight]. rewrite Rabs_mult, Rabs_Ropp. pose proof (dterm_pos n). pose proof (proj1 (term_le n)). pose proof (Rabs_pos (u_ n)).
  apply Rle_trans with (Rabs (u_ n) * dterm 1 x T d n); [now apply Rmult_le_compat_l|]. lra.
Qed.
Lemma p_eq T' d' : detail_p x T' d' = RR * T' * (d' * (1 + tot 58 (fun n => qco n d' * Rpower T' (- u_ n)))).
Proof. unfold detail_p. rewrite Z_sum. ring. Qed.
Lemma p_d : is_derive (detail_p x T) d (RR * T * (1 + z0 + z1)).
Proof.
  eapply is_derive_ext; [intros e; symmetry; apply p_eq|]. apply is_derive_scal.
  assert (W : is_derive (fun e => 1 + tot 58 (fun n => qco n e * Rpower T (- u_ n))) d (z1 / d)).
  { evar_last; [apply (@is_derive_plus R_AbsRing R_NormedModule); [apply is_derive_const|]|].
    - apply (tot_derive 58 (fun n e => qco n e * Rpower T (- u_ n)) (fun n e => qco1 n e / e * Rpower T (- u_ n))). intros n _.
      apply (is_derive_ext (fun e => Rpower T (- u_ n) * qco n e)); [intros e; toR; ring|]. evar_last; [apply is_derive_scal, qco_derive, Hd|]. toR; ring.
    - unfold plus, zero; cbn -[tot]. rewrite Rplus_0_l. unfold z1, Rdiv. rewrite (Rmult_comm _ (/ d)), <- tot_scal. apply tot_ext. intros n _. ring. }
  evar_last; [apply (@is_derive_mult R_AbsRing); [apply is_derive_id|exact W|intros; apply Rmult_comm]|].
  unfold plus, mult, one; cbn -[tot]. fold z0. toR. field. lra.
Qed.
Lemma p_T : is_derive (fun T => detail_p x T d) T (RR * d * (1 + z0 + zt)).
Proof.
  apply (is_derive_ext (fun T' => RR * d * (T' * (1 + tot 58 (fun n => qco n d * Rpower T' (- u_ n)))))); [intros e; rewrite p_eq; toR; ring|]. apply is_derive_scal.
  assert (W : is_derive (fun T' => 1 + tot 58 (fun n => qco n d * Rpower T' (- u_ n))) T (zt / T)).
  { evar_last; [apply (@is_derive_plus R_AbsRing R_NormedModule); [apply is_derive_const|]|].
    - apply (tot_derive 58 (fun n e => qco n d * Rpower e (- u_ n)) (fun n e => qco n d * (- u_ n * Rpower e (- u_ n) / e))). intros n _. apply is_derive_scal.
      unfold Rpower. evar_last; [apply (is_derive_comp exp (fun e => - u_ n * ln e)); [apply is_derive_exp|apply is_derive_scal, is_derive_ln, HT]|].
      unfold scal, mult; cbn. toR. field. lra.
    - unfold plus, zero; cbn -[tot]. rewrite Rplus_0_l. unfold zt, Rdiv. rewrite (Rmult_comm _ (/ T)), <- tot_scal. apply tot_ext. intros n _. ring. }
  evar_last; [apply (@is_derive_mult R_AbsRing); [apply is_derive_id|exact W|intros; apply Rmult_comm]|].
  unfold plus, mult, one; cbn -[tot]. fold z0. toR. field. lra.
Qed.
End Z.

Lemma slope_le g c z w e : 0 < g -> Rabs z <= c -> c < 1 -> Rabs w <= e * (1 - c) -> 0 <= e -> 0 < g * (1 + z) /\ Rabs (g * (1 + z + w) - g * (1 + z)) <= e * (g * (1 + z)).
Proof.
  intros G Z C W E. apply Rabs_le_between in Z. split; [apply Rmult_lt_0_compat; lra|]. replace (g * (1 + z + w) - g * (1 + z)) with (g * w) by ring. rewrite Rabs_mult, (Rabs_pos_eq g) by lra.
  replace (e * (g * (1 + z))) with (g * (e * (1 + z))) by ring. apply Rmult_le_compat_l; [lra|]. apply Rle_trans with (1 := W). apply Rmult_le_compat_l; lra.
Qed.
Lemma detail_sens x T1 T2 d1 d2 : natural_gas x -> 270 <= T1 <= 350 -> 270 <= T2 <= 350 -> 0 < d1 <= 573 / 10000 -> 0 < d2 <= 573 / 10000 ->
  0 < detail_p x T1 d1 /\ 0 < detail_p x T2 d2 /\
  Rabs (ln d2 - ln d1 - (ln (detail_p x T2 d2) - ln (detail_p x T1 d1) - (ln T2 - ln T1))) <= 348 / 10000 * Rabs (ln d2 - ln d1) + 145 / 1000 * Rabs (ln T2 - ln T1).
Proof.
  intros Hx H1 H2 G1 G2.
  assert (Q : forall T d, 270 <= T <= 350 -> 0 < d <= 573 / 10000 -> 0 < detail_p x T d /\
    (exists q, is_derive (detail_p x T) d q /\ Rabs (d * q - detail_p x T d) <= 348 / 10000 * detail_p x T d) /\
    (exists q, is_derive (fun T => detail_p x T d) T q /\ Rabs (T * q - detail_p x T d) <= 145 / 1000 * detail_p x T d)).
  { intros T d HT Hd. pose proof (S01_le x Hx T d HT Hd) as A1. pose proof (S02_le x Hx T d HT Hd) as A2. pose proof (S11_le x Hx T d HT Hd) as A3.
    pose proof (z0_le x T d ltac:(lra)) as B0. pose proof (z1_le x T d ltac:(lra)) as B1. pose proof (zt_le x T d ltac:(lra)) as B2.
    pose proof (p_d x T d ltac:(lra)) as P1. pose proof (p_T x T d ltac:(lra)) as P2. pose proof (p_eq x T d) as E. change (tot 58 _) with (z0 x T d) in E.
    set (z := z0 x T d) in *. set (w := z1 x T d) in *. set (v := zt x T d) in *. clearbody z w v.
    assert (G : 0 < RR * T * d) by (apply Rmult_lt_0_compat; lra). replace (RR * T * (d * (1 + z))) with (RR * T * d * (1 + z)) in E by ring.
    destruct (slope_le (RR * T * d) (2938 / 100000) z w (348 / 10000) G) as [S1 S2]; [lra..|]. destruct (slope_le (RR * T * d) (2938 / 100000) z v (145 / 1000) G) as [_ S3]; [lra..|].
    rewrite E. split; [exact S1|]. split.
    - exists (RR * T * (1 + z + w)). split; [exact P1|]. replace (d * (RR * T * (1 + z + w))) with (RR * T * d * (1 + z + w)) by ring. exact S2.
    - exists (RR * d * (1 + z + v)). split; [exact P2|]. replace (T * (RR * d * (1 + z + v))) with (RR * T * d * (1 + z + v)) by ring. exact S3. }
  split; [exact (proj1 (Q T1 d1 H1 G1))|]. split; [exact (proj1 (Q T2 d2 H2 G2))|].
  exact (sens (detail_p x) 270 350 (573 / 10000) (348 / 10000) (145 / 1000) ltac:(lra)
    (fun T d HT Hd => proj1 (Q T d HT Hd)) (fun T d HT Hd => proj1 (proj2 (Q T d HT Hd))) (fun T d HT Hd => proj2 (proj2 (Q T d HT Hd))) T1 T2 d1 d2 H1 H2 G1 G2).
Qed.
