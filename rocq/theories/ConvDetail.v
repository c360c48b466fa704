(* When the DETAIL equation is nearly ideal. *)
From Coq Require Import Reals ZArith List Bool Lra Lia Psatz.
From Coquelicot Require Import Coquelicot.
From Verif Require Import FArith ArithR StdDetail SpecStd SpecAcc SpecConv.
Local Open Scope R_scope.

Ltac toR := match goal with |- @eq _ ?a ?b => change (@eq R a b) end.
Definition ek (k : nat) (D : R) : R := match k with O => 1 | _ => exp (- D ^ k) end.
Definition hb (b k : nat) (D : R) : R := (INR b - INR k * D ^ k) * D ^ b * ek k D.
Definition hb1 (b k : nat) (D : R) : R := ((INR b - INR k * D ^ k) ^ 2 - INR k ^ 2 * D ^ k) * D ^ b * ek k D.
Lemma pow_step n D : D * (INR n * D ^ pred n) = INR n * D ^ n.
Proof. destruct n; [cbn; ring|]. rewrite <- tech_pow_Rmult. cbn [pred]. ring. Qed.
Lemma is_pow n D : is_derive (fun D => D ^ n) D (INR n * D ^ pred n).
Proof. evar_last; [apply is_derive_pow, is_derive_id|]. cbn. ring. Qed.
Lemma is_ek k D : is_derive (ek k) D (- (INR k * D ^ pred k) * ek k D).
Proof.
  destruct k; [cbn; evar_last; [apply is_derive_const|]; unfold zero; cbn; toR; ring|]. unfold ek.
  evar_last; [apply (is_derive_comp exp (fun D => - D ^ S k)); [apply is_derive_exp|apply (@is_derive_opp R_AbsRing R_NormedModule), is_pow]|].
  unfold scal, mult, opp; cbn -[INR pow]. toR. ring.
Qed.
Lemma hb_derive b k D : 0 < D -> is_derive (hb b k) D (hb1 b k D / D).
Proof.
  intros HD. unfold hb. evar_last.
  - apply (@is_derive_mult R_AbsRing); [apply (@is_derive_mult R_AbsRing); [|apply is_pow|intros; apply Rmult_comm]|apply is_ek|intros; apply Rmult_comm].
    apply (@is_derive_minus R_AbsRing R_NormedModule); [apply is_derive_const|]. apply is_derive_scal, is_pow.
  - unfold plus, mult, minus, opp, plus, zero; cbn -[INR pow]. apply (Rmult_eq_reg_l D); [|lra]. unfold hb1.
    replace (D * ((((INR b - INR k * D ^ k) ^ 2 - INR k ^ 2 * D ^ k) * D ^ b * ek k D) / D)) with (((INR b - INR k * D ^ k) ^ 2 - INR k ^ 2 * D ^ k) * D ^ b * ek k D) by (field; lra).
    transitivity (((0 + - (INR k * (D * (INR k * D ^ pred k)))) * D ^ b + (INR b + - (INR k * D ^ k)) * (D * (INR b * D ^ pred b))) * ek k D
      + (INR b + - (INR k * D ^ k)) * D ^ b * (- (D * (INR k * D ^ pred k)) * ek k D)); [unfold scal, mult; cbn -[INR pow]; ring|].
    rewrite !pow_step. ring.
Qed.
Lemma ek_box k D : 0 <= D -> 0 < ek k D <= 1.
Proof.
  intros HD. destruct k; [cbn; lra|]. unfold ek. split; [apply exp_pos|]. rewrite <- exp_0. assert (0 <= D ^ S k) by now apply pow_le.
  destruct (Rle_lt_or_eq_dec 0 (D ^ S k)) as [L|L]; [assumption| |rewrite <- L, Ropp_0; lra]. left. apply exp_increasing. lra.
Qed.
Lemma pow_le1 k D : 0 <= D <= 1 -> 0 <= D ^ k <= 1.
Proof. intros HD. split; [apply pow_le; lra|]. induction k; cbn [pow]; [lra|]. assert (0 <= D ^ k) by (apply pow_le; lra). nra. Qed.
Definition wt b k D : R := (INR b + INR k * D ^ k) ^ 2 + INR k ^ 2 * D ^ k.
Lemma wt_mono b k D D' : 0 <= D <= D' -> 0 <= wt b k D <= wt b k D'.
Proof.
  intros HD. unfold wt. pose proof (pos_INR b) as Pb. pose proof (pos_INR k) as Pk. assert (0 <= D ^ k) by (apply pow_le; lra). pose proof (pow_incr D D' k HD).
  assert (0 <= INR k * D ^ k <= INR k * D' ^ k) by nra. assert (0 <= INR k ^ 2 * D ^ k <= INR k ^ 2 * D' ^ k) by nra. nra.
Qed.
Lemma hb1_le b k D : 0 <= D <= 1 -> Rabs (hb1 b k D) <= wt b k D * D ^ b.
Proof.
  intros HD. unfold hb1, wt. rewrite !Rabs_mult. destruct (ek_box k D (proj1 HD)) as [E0 E1]. destruct (pow_le1 k D HD) as [K0 K1].
  destruct (pow_le1 b D HD) as [B0 B1]. rewrite (Rabs_pos_eq (ek k D)), (Rabs_pos_eq (D ^ b)) by lra.
  pose proof (pos_INR b) as Pb. pose proof (pos_INR k) as Pk. set (Dk := D ^ k) in *.
  assert (Rabs ((INR b - INR k * Dk) ^ 2 - INR k ^ 2 * Dk) <= (INR b + INR k * Dk) ^ 2 + INR k ^ 2 * Dk) as Q.
  { assert (0 <= INR k * Dk) by nra. assert (0 <= (INR b - INR k * Dk) ^ 2 <= (INR b + INR k * Dk) ^ 2).
    { set (y := INR k * Dk) in *. split; [apply pow2_ge_0|]. nra. }
    assert (0 <= INR k ^ 2 * Dk) by nra. apply Rabs_le. lra. }
  set (q := Rabs _) in *. assert (0 <= q) by apply Rabs_pos. apply Rle_trans with (q * D ^ b * 1); [apply Rmult_le_compat_l; nra|]. nra.
Qed.
Lemma hb_le b k D : 0 <= D <= 1 -> (1 <= b)%nat -> Rabs (hb b k D) <= wt b k D * D ^ b.
Proof.
  intros HD Hb. unfold hb, wt. rewrite !Rabs_mult. destruct (ek_box k D (proj1 HD)) as [E0 E1]. destruct (pow_le1 k D HD) as [K0 K1].
  destruct (pow_le1 b D HD) as [B0 B1]. rewrite (Rabs_pos_eq (ek k D)), (Rabs_pos_eq (D ^ b)) by lra.
  assert (1 <= INR b) as Pb by (apply (le_INR 1); exact Hb). pose proof (pos_INR k) as Pk. set (Dk := D ^ k) in *.
  assert (Rabs (INR b - INR k * Dk) <= (INR b + INR k * Dk) ^ 2 + INR k ^ 2 * Dk) as Q.
  { assert (0 <= INR k * Dk) by nra. assert (0 <= INR k ^ 2 * Dk) by nra. apply Rabs_le. nra. }
  set (q := Rabs _) in *. assert (0 <= q) by apply Rabs_pos. apply Rle_trans with (q * D ^ b * 1); [apply Rmult_le_compat_l; nra|]. nra.
Qed.

Lemma tot_ext n f g : (forall i, (i < n)%nat -> f i = g i) -> tot n f = tot n g.
Proof. intros E. induction n as [|n IH]; [reflexivity|]. cbn [tot]. rewrite IH, E; trivial; [lia|]. intros. apply E. lia. Qed.
Lemma tot_abs n f g : (forall i, (i < n)%nat -> Rabs (f i) <= g i) -> Rabs (tot n f) <= tot n g.
Proof.
  intros E. induction n as [|n IH]; cbn [tot]; [rewrite Rabs_R0; lra|]. eapply Rle_trans; [apply Rabs_triang|].
  apply Rplus_le_compat; [apply IH; intros; apply E; lia|apply E; lia].
Qed.
Lemma tot_scal n c f : tot n (fun i => c * f i) = c * tot n f.
Proof. induction n as [|n IH]; cbn [tot]; [ring|]. rewrite IH. ring. Qed.
Lemma tot_derive n (f f1 : nat -> R -> R) z : (forall i, (i < n)%nat -> is_derive (f i) z (f1 i z)) ->
  is_derive (fun z => tot n (fun i => f i z)) z (tot n (fun i => f1 i z)).
Proof.
  induction n as [|n IH]; intros E; cbn [tot]; [apply (@is_derive_const R_AbsRing R_NormedModule)|].
  apply (@is_derive_plus R_AbsRing R_NormedModule); [apply IH; intros; apply E; lia|apply E; lia].
Qed.

Section Z.
Variables (x : nat -> R) (T : R).
Let kappa := Rpower (sizeK5 x) (1/5) ^ 3.
Let c n := C_n x n * Rpower T (- u_ n).
Lemma kappa_pos : 0 < kappa.
Proof. apply pow_lt. unfold Rpower. apply exp_pos. Qed.
Definition lin := second_virial x T - kappa * tot 6 (fun m => c (12 + m)).
Lemma Z_eq d : detail_Z x T d = 1 + lin * d + tot 46 (fun m => c (12 + m) * hb (b_ (12 + m)) (k_ (12 + m)) (kappa * d)).
Proof.
  unfold detail_Z, lin. cbv zeta. fold kappa. f_equal; [unfold c; ring|]. apply tot_ext. intros m _. unfold hb, c, ek. destruct (k_ (12 + m)); ring.
Qed.
Definition Z1 d := lin + tot 46 (fun m => c (12 + m) * (hb1 (b_ (12 + m)) (k_ (12 + m)) (kappa * d) / d)).
Lemma Z_derive d : 0 < d -> is_derive (detail_Z x T) d (Z1 d).
Proof.
  intros Hd. eapply is_derive_ext; [intros e; symmetry; apply Z_eq|]. unfold Z1. pose proof kappa_pos as Kp.
  apply (@is_derive_plus R_AbsRing R_NormedModule).
  - evar_last; [apply (@is_derive_plus R_AbsRing R_NormedModule); [apply is_derive_const|apply is_derive_scal, is_derive_id]|].
    unfold plus, zero, one; cbn. ring.
  - apply (tot_derive 46 (fun m d => c (12 + m) * hb (b_ (12 + m)) (k_ (12 + m)) (kappa * d)) (fun m d => c (12 + m) * (hb1 (b_ (12 + m)) (k_ (12 + m)) (kappa * d) / d))). intros m _. apply is_derive_scal.
    evar_last; [apply (is_derive_comp (hb _ _) (fun d => kappa * d)); [apply hb_derive; nra|apply is_derive_scal, is_derive_id]|].
    unfold scal, mult, one; cbn -[hb1 Nat.add pow]. clearbody kappa. field. lra.
Qed.
Lemma b_ge1 m : (m < 46)%nat -> (1 <= b_ (12 + m))%nat.
Proof.
  assert (forallb (fun m => Nat.leb 1 (b_ (12 + m))) (seq 0 46) = true) as C by reflexivity.
  intros H. apply Nat.leb_le. apply (proj1 (forallb_forall _ _) C). apply in_seq. lia.
Qed.
Lemma spread_eq d : spread x T d = d * Rabs (second_virial x T) + kappa * d * Rabs (tot 6 (fun m => c (12 + m)))
  + tot 46 (fun m => Rabs (c (12 + m)) * (wt (b_ (12 + m)) (k_ (12 + m)) (kappa * d) * (kappa * d) ^ b_ (12 + m))).
Proof.
  unfold spread, detail_D. cbv zeta. fold kappa. f_equal. apply tot_ext. intros m _. unfold c, wt. rewrite Rabs_mult.
  rewrite (Rabs_pos_eq (Rpower T _)) by (apply Rlt_le, exp_pos). ring.
Qed.
Lemma lin_le : Rabs lin <= Rabs (second_virial x T) + kappa * Rabs (tot 6 (fun m => c (12 + m))).
Proof.
  unfold lin, Rminus. eapply Rle_trans; [apply Rabs_triang|]. rewrite Rabs_Ropp, Rabs_mult, (Rabs_pos_eq kappa); [lra|]. apply Rlt_le, kappa_pos.
Qed.
Lemma spread_Z d : 0 <= d -> kappa * d <= 1 -> Rabs (detail_Z x T d - 1) <= spread x T d.
Proof.
  intros Hd Hk. pose proof kappa_pos as Kp. rewrite Z_eq, spread_eq. replace (1 + lin * d + _ - 1) with (lin * d + tot 46 (fun m => c (12 + m) * hb (b_ (12 + m)) (k_ (12 + m)) (kappa * d))) by ring.
  eapply Rle_trans; [apply Rabs_triang|]. apply Rplus_le_compat.
  - rewrite Rabs_mult, (Rabs_pos_eq d) by lra. pose proof lin_le. nra.
  - apply tot_abs. intros m Hm. rewrite Rabs_mult. apply Rmult_le_compat_l; [apply Rabs_pos|]. apply hb_le; [split; [nra|exact Hk]|now apply b_ge1].
Qed.
Lemma spread_Z1 d : 0 < d -> kappa * d <= 1 -> Rabs (d * Z1 d) <= spread x T d.
Proof.
  intros Hd Hk. pose proof kappa_pos as Kp. unfold Z1. rewrite Rmult_plus_distr_l, <- tot_scal, spread_eq.
  eapply Rle_trans; [apply Rabs_triang|]. apply Rplus_le_compat.
  - rewrite Rabs_mult, (Rabs_pos_eq d) by lra. pose proof lin_le. nra.
  - apply tot_abs. intros m Hm. replace (d * (c (12 + m) * (hb1 (b_ (12 + m)) (k_ (12 + m)) (kappa * d) / d))) with (c (12 + m) * hb1 (b_ (12 + m)) (k_ (12 + m)) (kappa * d)) by (field; lra).
    rewrite Rabs_mult. apply Rmult_le_compat_l; [apply Rabs_pos|]. apply hb1_le. split; [nra|exact Hk].
Qed.
Lemma spread_mono d e : 0 <= d <= e -> spread x T d <= spread x T e.
Proof.
  intros Hd. pose proof kappa_pos as Kp. rewrite !spread_eq.
  apply Rplus_le_compat; [apply Rplus_le_compat|].
  - apply Rmult_le_compat_r; [apply Rabs_pos|lra].
  - apply Rmult_le_compat_r; [apply Rabs_pos|nra].
  - set (n := 46%nat). induction n as [|n IH]; cbn [tot]; [lra|]. apply Rplus_le_compat; [exact IH|].
    apply Rmult_le_compat_l; [apply Rabs_pos|]. assert (0 <= kappa * d <= kappa * e) as Q by nra. destruct (wt_mono (b_ (12 + n)) (k_ (12 + n)) _ _ Q). apply Rmult_le_compat; trivial; [apply pow_le; lra|]. now apply pow_incr.
Qed.
Lemma p_derive d : 0 < d -> is_derive (detail_p x T) d (831451 / 100000 * T * (detail_Z x T d + d * Z1 d)).
Proof.
  intros Hd. apply (is_derive_ext (fun e => 831451 / 100000 * T * (e * detail_Z x T e))); [intros e; unfold detail_p; toR; ring|].
  apply is_derive_scal. evar_last; [apply (@is_derive_mult R_AbsRing); [apply is_derive_id|apply Z_derive, Hd|intros; apply Rmult_comm]|].
  unfold plus, mult, one; cbn. toR. ring.
Qed.
Lemma low_ideal d0 : 0 < T -> 0 < d0 -> kappa * (3 * d0) <= 1 -> spread x T (3 * d0) <= 1 / 7 ->
  nearly_ideal (detail_p x T) d0 (d0 * (831451 / 100000) * T).
Proof.
  intros HT Hd Hk HS. pose proof kappa_pos as Kp.
  assert (forall d, 0 < d <= 3 * d0 -> Rabs (detail_Z x T d - 1) <= 1 / 7 /\ Rabs (d * Z1 d) <= 1 / 7) as G.
  { intros d Hd'. assert (kappa * d <= 1) by nra. pose proof (spread_mono d (3 * d0) ltac:(lra)).
    pose proof (spread_Z d ltac:(lra) H). pose proof (spread_Z1 d ltac:(lra) H). lra. }
  split.
  - destruct (G d0 ltac:(lra)) as [A _]. apply Rabs_le_between in A. unfold detail_p. set (z := detail_Z x T d0) in *.
    assert (0 < d0 * (831451 / 100000) * T) by (apply Rmult_lt_0_compat; lra). nra.
  - intros d Hd'. destruct (G d ltac:(lra)) as [A B]. rewrite (is_derive_unique _ _ _ (p_derive d ltac:(lra))).
    apply Rabs_le_between in A, B. unfold detail_p. set (z := detail_Z x T d) in *. set (w := d * Z1 d) in *.
    assert (0 < d * (831451 / 100000) * T) as Q by (apply Rmult_lt_0_compat; lra). set (r := d * (831451 / 100000) * T) in *.
    replace (d * (831451 / 100000 * T * (z + w))) with (r * (z + w)) by (unfold r; ring). split; [nra|]. split; nra.
Qed.
End Z.
