(* The low pressure condition for methane at 300 K, GERG. *)
From Coq Require Import Reals ZArith List Bool Lra Lia.
From Interval Require Import Tactic.
From Verif Require Import FArith ArithR SpecGerg StdGerg SpecStd SpecConv Converge ConvDetail ConvCase GergEos.
Import ListNotations.
Local Open Scope R_scope.

Definition ch4g (i : nat) : R := match i with 1%nat => 1 | _ => 0 end.
Lemma ac1 : ac ch4g 1 = 1. Proof. unfold ac, ch4g. destruct (Rlt_dec _ _); lra. Qed.
Lemma ac0 i : i <> 1%nat -> ac ch4g i = 0.
Proof. intros H. unfold ac, ch4g. destruct i as [|[|i]]; [|lia|]; destruct (Rlt_dec _ _); lra. Qed.
Lemma tot_zero n f : (forall i, (i < n)%nat -> f i = 0) -> tot n f = 0.
Proof. intros H. induction n as [|n IH]; [reflexivity|]. cbn [tot]. rewrite IH, H; [ring|lia|intros; apply H; lia]. Qed.
Lemma pair0 f : (forall i j, (i < j)%nat -> ac ch4g i * ac ch4g j = 0 -> f i j = 0) -> pair_sum f = 0.
Proof.
  intros H. unfold pair_sum. apply tot_zero. intros j _. apply tot_zero. intros i Hi. apply H; [lia|]. rewrite (ac0 (S j)) by lia. ring.
Qed.
Lemma vol1 gv : red_volume (ac ch4g) gv = gv 1%nat 1%nat.
Proof.
  unfold red_volume. rewrite (tot_one 20), ac1, pair0; [ring| |].
  - intros i j _ H. replace (2 * ac ch4g i * ac ch4g j) with (2 * (ac ch4g i * ac ch4g j)) by ring. rewrite H. unfold Rdiv. ring.
  - intros i Hi. rewrite ac0 by lia. ring.
Qed.
Lemma temp1 gt bt : red_temp (ac ch4g) gt bt = gt 1%nat 1%nat.
Proof.
  unfold red_temp. rewrite (tot_one 20), ac1, pair0; [ring| |].
  - intros i j _ H. replace (2 * ac ch4g i * ac ch4g j) with (2 * (ac ch4g i * ac ch4g j)) by ring. rewrite H. unfold Rdiv. ring.
  - intros i Hi. rewrite ac0 by lia. ring.
Qed.
Definition two_of (r : nat * nat * lit * nat) : bool := let '(i, j, _, _) := r in negb (Nat.eqb i j).
Lemma departs_two : forallb two_of DEPARTS = true. Proof. reflexivity. Qed.
Lemma lsum_zero {T} (f : T -> R) l : (forall r, In r l -> f r = 0) -> lsum f l = 0.
Proof. intros H. induction l as [|r l IH]; [reflexivity|]. unfold lsum in *. cbn [fold_right]. rewrite IH, (H r); [ring|now left|intros; apply H; now right]. Qed.
Lemma spread1 delta tau : gerg_spread (ac ch4g) delta tau = lsum (pure_size delta tau) (nth 1 PURE []).
Proof.
  unfold gerg_spread. rewrite (tot_one 20), ac1, (lsum_zero _ DEPARTS); [ring| |].
  - intros [[[i j] f] m] Hr. pose proof (proj1 (forallb_forall _ _) departs_two _ Hr) as E. cbn [two_of] in E.
    destruct (Nat.eqb_spec i j) as [|E']; [discriminate E|]. destruct (Nat.eq_dec i 1) as [-> |Hi]; [rewrite (ac0 j) by lia|rewrite (ac0 i) by exact Hi]; ring.
  - intros i Hi. rewrite ac0 by lia. ring.
Qed.
Definition dg : R := 200 / Rg / 300.
Lemma case_g v w : near v (v_red 1 1) -> near w (t_red 1 1) -> 3 * dg * v <= 1 /\ gerg_spread (ac ch4g) (3 * dg * v) (w / 300) <= 1 / 7.
Proof.
  unfold near, v_red, t_red. rewrite Nat.eqb_refl. unfold rho_c, T_c. cbn [CRIT nth fst snd Rlit]. cbv [Z.pow Z.pow_pos Pos.iter Z.mul Pos.mul Pos.add Pos.succ Pos.add_carry].
  intros Hv Hw. assert (986256 / 10000000 <= v <= 986259 / 10000000) as Bv.
  { apply Rabs_le_inv in Hv. set (c := 1 / (10139342719 / 1000000000)) in *. assert (9862570 / 100000000 <= c <= 9862579 / 100000000) by (unfold c; split; interval). clearbody c. lra. }
  assert (63521 / 100000 <= w / 300 <= 63522 / 100000) as Bt by (apply Rabs_le_inv in Hw; lra).
  set (tau := w / 300) in *. clearbody tau. assert (237 / 10000 <= 3 * dg * v <= 238 / 10000) as Bd by (unfold dg, Rg; split; interval).
  set (delta := 3 * dg * v) in *. clearbody delta. split; [lra|]. rewrite spread1.
  cbn [nth PURE lsum fold_right pure_size Rlit]. cbv [Z.pow Z.pow_pos Pos.iter Z.mul Pos.mul Pos.add Pos.succ Pos.add_carry INR]. unfold Rpower. interval with (i_prec 40).
Qed.
