(* Methane at 150 K near the density where the GERG pressure vanishes: bounds for the double-precision run. *)
From Coq Require Import Reals Ranalysis5 ZArith List Bool Lra Lia Psatz FunctionalExtensionality.
From Coquelicot Require Import Coquelicot.
From Flocq Require Import Core BinarySingleNaN.
From Interval Require Import Tactic.
From Verif Require Import FArith Prelude ArithB64 B64Lemmas ArithR RSum SpecGerg StdGerg SpecStd SpecAccG SpecAll SpecSlopeG GergTables GergModel Api SpecReal GergEos StdGergProof ConvDetail ConvCase ConvGerg ConvCaseG GAllCase GDriftWit FalseConvCaseG.
Import ListNotations.
Local Open Scope R_scope.
Lemma ac_id : ac ConvCaseG.ch4g = ConvCaseG.ch4g.
Proof. apply functional_extensionality. intros i. unfold ac. destruct (Rlt_dec _ _) as [|N]; [reflexivity|]. unfold ConvCaseG.ch4g in *. destruct i as [|[|i]]; lra. Qed.
Lemma gsum_1 e delta tau : gerg_sum e (ac ConvCaseG.ch4g) delta tau = lsum (SpecAll.pure_w e delta tau) (nth 1 PURE []).
Proof.
  unfold gerg_sum. rewrite (tot_one 20), ac1, (lsum_zero _ DEPARTS); [ring| |].
  - intros [[[i j] f] m] Hr. pose proof (proj1 (forallb_forall _ _) departs_two _ Hr) as E. cbn [two_of] in E.
    destruct (Nat.eqb_spec i j) as [|E']; [discriminate E|]. destruct (Nat.eq_dec i 1) as [-> |Hi]; [rewrite (ac0 j) by lia|rewrite (ac0 i) by exact Hi]; ring.
  - intros i Hi. rewrite ac0 by lia. ring.
Qed.
Ltac gnum := cbn [nth PURE lsum fold_right pure_slope pure_slope2 SpecAll.pure_w pure_factor Rlit]; unfold hb, hb1, ek, Rg;
  cbv [Z.pow Z.pow_pos Pos.iter Z.mul Pos.mul Pos.add Pos.succ Pos.add_carry INR Rpower]; change R0 with 0; change R1 with 1.
Lemma g_lo3 : gp (22139 / 1000) <= -1.
Proof. unfold gp. pose proof vm_box. pose proof tm_box. set (v := vm) in *. set (t := tm) in *. clearbody v t. gnum. interval with (i_prec 60). Qed.
Section B.
Variable d : R.
Hypothesis Hd : 22139 / 1000 <= d <= 22140 / 1000.
Lemma del_box : 22139 / 1000 * (9862572236 / 100000000000) <= d * vm <= 22140 / 1000 * (9862572238 / 100000000000).
Proof. pose proof vm_box. split; apply Rmult_le_compat; lra. Qed.
Lemma gslope_lo : 5000 <= gp1 d.
Proof. unfold gp1. pose proof tm_box. pose proof del_box. set (D := d * vm) in *. set (t := tm) in *. clearbody D t. gnum. interval with (i_prec 60). Qed.
Lemma gsum1_hi : gerg_sum 1 (ac ConvCaseG.ch4g) (d * vm) tm <= 30.
Proof. rewrite gsum_1. pose proof tm_box. pose proof del_box. set (D := d * vm) in *. set (t := tm) in *. clearbody D t. gnum. interval with (i_prec 30). Qed.
Lemma gsum2_hi : gerg_sum 2 (ac ConvCaseG.ch4g) (d * vm) tm <= 150.
Proof. rewrite gsum_1. pose proof tm_box. pose proof del_box. set (D := d * vm) in *. set (t := tm) in *. clearbody D t. gnum. interval with (i_prec 30). Qed.
End B.
Lemma gp_at : exists d, 22139 / 1000 <= d <= 221395 / 10000 /\ gp d = 3 / 10000.
Proof.
  assert (Ct : forall d, 0 < d -> continuity_pt gp d) by (intros d H; apply continuity_pt_filterlim, @ex_derive_continuous; eexists; exact (gp_d d H)).
  assert (Hh : 1 <= gp (221395 / 10000)).
  { unfold gp. pose proof vm_box. pose proof tm_box. set (v := vm) in *. set (t := tm) in *. clearbody v t. gnum. interval with (i_prec 60). }
  destruct (IVT_interv (fun d => gp d - 3 / 10000) (22139 / 1000) (221395 / 10000)) as (d & H & E).
  - intros d H. apply continuity_pt_minus; [apply Ct; lra|]. apply continuity_pt_const. now intros ? ?.
  - lra.
  - pose proof g_lo3. lra.
  - lra.
  - exists d. split; lra.
Qed.
