(* Enthalpy and entropy of every component vanish at the reference state. *)
From Coq Require Import Reals ZArith List Bool Lra Lia Psatz.
From Coquelicot Require Import Coquelicot.
From Interval Require Import Tactic.
From Verif Require Import FArith Prelude Tab Composition DetailTables GergTables DetailModel GergModel Api ApiSafe
  ArithR RSum SpecReal SpecDetail SpecGerg SpecIdeal DetailPure DetailEval DetailReal DetailThermo DetailEos DetailLimit
  GergPure GergEval GergReal GergIdeal GergThermo GergEos GergLimit MassReal IdealGas.
Import ListNotations.
Local Open Scope R_scope.
Local Existing Instance ArithR.

(* the reference state *)
Ltac numbers := cbv [ig nth IG Rlit Z.pow Z.pow_pos Pos.iter Z.mul Pos.mul Pos.add Pos.succ Pos.add_carry].
Lemma h_ref i : (i < 21)%nat -> Rabs (h0 i T0) <= 1 / 100000.
Proof.
  intros Hi. unfold h0, coth, tanh, sinh, cosh, T0.
  do 21 (destruct i as [|i]; [numbers; rewrite ?Rmult_0_l, ?Rplus_0_r, ?Rminus_0_r; interval with (i_prec 80)|]). lia.
Qed.
Lemma s_ref i : (i < 21)%nat -> Rabs (s0 i T0) <= 1 / 100000000.
Proof.
  intros Hi. unfold s0, coth, tanh, sinh, cosh, T0.
  do 21 (destruct i as [|i]; [numbers; rewrite ?Rmult_0_l, ?Rplus_0_r, ?Rminus_0_r; interval with (i_prec 80)|]). lia.
Qed.

