(* Methane at 300 K and 150 kPa in double precision, GERG. *)
From Coq Require Import Reals ZArith List Bool Lra Lia Psatz.
From Flocq Require Import Core BinarySingleNaN.
From Interval Require Import Tactic.
From Verif Require Import FArith Prelude ArithB64 B64Lemmas ArithR SpecDetail SpecGerg StdGerg SpecStd SpecAcc SpecAccG SpecAll SpecSlopeG SpecConv SpecHistory DetailModel GergTables GergModel Api SpecReal StdGergProof ConvCase ConvCaseG GergEos B64Err AccLibm AccProof AccDens AccDensProof GAccProof GDensProof GAllCase GConvLow.
Import ListNotations.
Local Open Scope R_scope.
Local Notation r := (fun i => bR (ch4d i)).
Lemma r1 : bR (ch4d 1) = 1. Proof. now rewrite ch4d_R. Qed.
Lemma r0 i : i <> 1%nat -> bR (ch4d i) = 0. Proof. intros H. rewrite ch4d_R. destruct i as [|[|i]]; [reflexivity|lia|reflexivity]. Qed.
Lemma vol_r gv : red_volume r gv = gv 1%nat 1%nat.
Proof.
  unfold red_volume. rewrite (tot_one 20), r1.
  - unfold pair_sum. rewrite tot_zero; [ring|]. intros j _. apply tot_zero. intros i Hi. rewrite (r0 (S j)) by lia. unfold Rdiv. ring.
  - intros i Hi. rewrite r0 by lia. ring.
Qed.
Lemma temp_r gt bt : red_temp r gt bt = gt 1%nat 1%nat.
Proof.
  unfold red_temp. rewrite (tot_one 20), r1.
  - unfold pair_sum. rewrite tot_zero; [ring|]. intros j _. apply tot_zero. intros i Hi. rewrite (r0 (S j)) by lia. unfold Rdiv. ring.
  - intros i Hi. rewrite r0 by lia. ring.
Qed.
Lemma spread_r delta tau : gerg_spread r delta tau = gerg_spread (ac ch4g) delta tau.
Proof.
  rewrite spread1. unfold gerg_spread. rewrite (tot_one 20), r1, (lsum_zero _ DEPARTS); [ring| |].
  - intros [[[i j] f] m] Hr. pose proof (proj1 (forallb_forall _ _) departs_two _ Hr) as E. cbn [two_of] in E.
    destruct (Nat.eqb_spec i j) as [|E']; [discriminate E|]. destruct (Nat.eq_dec i 1) as [-> |Hi]; [rewrite (r0 j) by lia|rewrite (r0 i) by exact Hi]; ring.
  - intros i Hi. rewrite r0 by lia. ring.
Qed.
Lemma v11 : 98 / 1000 <= v_red 1 1 <= 99 / 1000.
Proof.
  unfold v_red. rewrite Nat.eqb_refl. unfold rho_c. cbn [CRIT nth fst snd Rlit]. cbv [Z.pow Z.pow_pos Pos.iter Z.mul Pos.mul Pos.add Pos.succ Pos.add_carry]. split; interval.
Qed.
Lemma gcase_low gv gt bt : near (gv 1%nat 1%nat) (v_red 1 1) -> near (gt 1%nat 1%nat) (t_red 1 1) ->
  let T := bR (bofZ 300) in let d0 := bR (bofZ 150) / Rg / T in let v := red_volume r gv in
  (forall j, (1 <= j < 22)%nat -> fin (ch4d j) /\ (bR (ch4d j) = 0 \/ bpow radix2 (-49) <= bR (ch4d j))) /\
  99 / 100 <= tot 21 (fun j => bR (ch4d (S j))) <= 101 / 100 /\ (fin (bofZ 300) /\ 32 <= bR (bofZ 300) <= 2048) /\ fin (bofZ 150) /\
  bpow radix2 (-17) <= d0 <= 290 /\ 4 * d0 * v <= 1 /\ gerg_spread r (4 * d0 * v) (red_temp r gt bt / T) <= 1 / 7.
Proof.
  intros Hv Ht. cbv zeta. rewrite (ofZ_R 300), (ofZ_R 150) by lia. split.
  { intros j _. split; [destruct j as [|[|j]]; reflexivity|]. destruct (Nat.eq_dec j 1) as [->|H]; [right|left; now apply r0]. rewrite r1. change 1 with (bpow radix2 0). apply bpow_le. lia. }
  split. { rewrite (tot_one 20); [rewrite r1; lra|]. intros j Hj. apply r0. lia. }
  split; [split; [reflexivity|lra]|]. split; [reflexivity|].
  split. { change (bpow radix2 (-17)) with (/ 131072). unfold Rg. lra. }
  rewrite vol_r, temp_r, spread_r. replace (4 * (150 / Rg / 300)) with (3 * dg) by (unfold dg, Rg; lra). exact (case_g _ _ Hv Ht).
Qed.
Lemma gcase_ok : let B := ArithB64 best in exists s s',
  @gexec B New [SetX (A := B) ch4d; Poke (A := B) PT (bofZ 300); Poke (A := B) PP (bofZ 150)] = Some (s, [OUnit; OUnit; OUnit]) /\
  separated (A := B) 1 (gasked (A := B) ([SetX (A := B) ch4d; Poke (A := B) PT (bofZ 300); Poke (A := B) PP (bofZ 150)] ++ [Density (A := B) 0])) /\
  gstep (A := B) (Density 0) s = Some (s', ODens (A := B) ROk) /\ g_x s = map ch4d (seq 0 22) /\
  gread (A := B) PT s = bofZ 300 /\ gread (A := B) PP s = bofZ 150 /\
  bpow radix2 (-50) <= bR (bofZ 150) /\ bpow radix2 (-19) <= bR (gread (A := B) PD s') /\ bR (gread (A := B) PD s') * red_volume r v_red <= 248 / 100.
Proof.
  cbv zeta. destruct (gcase_low (tb2 G_GVIJ) (tb2 G_GTIJ) (tb2 G_BTIJ) (v_std 1 1 ltac:(lia) ltac:(lia)) (t_std 1 1 ltac:(lia) ltac:(lia))) as (H1 & H2 & H3 & H4 & H5 & H6 & H7).
  rewrite vred_std in H6, H7. rewrite tred_std in H7.
  destruct (glow_bstep best best_accurate ch4d (bofZ 300) (bofZ 150) 0 (Z.le_refl 0) H1 H2 H3 H4 H5 H6 H7 _ eq_refl) as (s' & e & E & _ & Fd & _ & Ne & Re & _).
  eexists. exists s'. split; [exact (gbrun1 best ch4d (bofZ 300) (bofZ 150))|]. split; [exact (gbsep1 best ch4d (bofZ 300) (bofZ 150) 0 H1 H2 H3)|].
  split; [exact E|]. split; [reflexivity|]. split; [reflexivity|]. split; [reflexivity|].
  split. { rewrite (ofZ_R 150) by lia. apply Rle_trans with (bpow radix2 0); [apply bpow_le; lia|change (bpow radix2 0) with 1; lra]. }
  match type of Fd with fin ?x => set (dq := bR x) in *; change (gread (A := ArithB64 best) PD s') with x; fold dq end. clear E Fd. clearbody dq.
  rewrite (ofZ_R 300), (ofZ_R 150) in Re by lia. assert (5 / 100 <= dq <= 8 / 100) by (apply Rabs_le_inv in Ne; unfold Rg in Re; lra).
  split. { change (bpow radix2 (-19)) with (/ 524288). lra. }
  rewrite vol_r. pose proof v11. nra.
Qed.
