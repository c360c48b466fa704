(* Natural gas near base conditions: density() in double precision converges (from ConvFinLow and GConvLow). *)
From Coq Require Import Reals ZArith List Lra Lia.
From Coquelicot Require Import Coquelicot.
From Flocq Require Import Core BinarySingleNaN.
From Verif Require Import FArith Prelude ArithB64 B64Lemmas ArithR GergModel SpecDetail StdDetail SpecStd SpecGas SpecAcc SpecSlope SpecConv SpecHistory SpecGeneric DetailModel Api SpecReal SpecAccG SpecAll SpecSlopeG SpecGerg AccLibm
  ConvFinLow GConvLow AccDensProof DriftWit FixUp GasThird GasRed2 GasGerg.
Import ListNotations.
Local Open Scope R_scope.
Local Notation RR := (831451 / 100000).

Lemma start_range R0 P T : 831 / 100 <= R0 <= 832 / 100 -> 1 / 10 <= P <= 110 -> 270 <= T <= 350 -> bpow radix2 (-17) <= P / R0 / T <= 290.
Proof.
  intros HR HP HT. assert (0 < / R0) by (apply Rinv_0_lt_compat; lra). assert (0 < / T) by (apply Rinv_0_lt_compat; lra). assert (E : P / R0 / T * (R0 * T) = P) by (field; lra).
  set (d := P / R0 / T) in *. assert (2000 <= R0 * T <= 3000) by nra. assert (0 < d) by (unfold d, Rdiv; repeat apply Rmult_lt_0_compat; lra). split.
  - apply (Rmult_le_reg_r (R0 * T)); [lra|]. rewrite E. replace (bpow radix2 (-17)) with (/ 131072) by (cbn; lra). lra.
  - apply (Rmult_le_reg_r (R0 * T)); [lra|]. rewrite E. lra.
Qed.
Lemma start_top R0 P T : 8314471 / 1000000 <= R0 -> 0 < P <= 110 -> 270 <= T -> 0 < 4 * (P / R0 / T) <= 196 / 1000.
Proof.
  intros HR HP HT. assert (0 < / R0) by (apply Rinv_0_lt_compat; lra). assert (0 < / T) by (apply Rinv_0_lt_compat; lra).
  assert (E : P / R0 / T * (R0 * T) = P) by (field; lra). set (d := P / R0 / T) in *. assert (0 < d) by (unfold d, Rdiv; repeat apply Rmult_lt_0_compat; lra).
  assert (22449071 / 10000 <= R0 * T) by nra. split; [lra|]. nra.
Qed.

Lemma gas_detail : forall m, accurate m -> forall (x : nat -> b64) (t P : b64) i, let r j := bR (x j) in
  (forall j, (j < 21)%nat -> fin (x j) /\ (r j = 0 \/ bpow radix2 (-50) <= r j)) -> natural_gas r ->
  fin t /\ 270 <= bR t <= 350 -> fin P /\ 1 / 10 <= bR P <= 110 ->
  let T := bR t in let d0 := bR P / RR / T in
  exists s e, @dexec (ArithB64 m) New [SetX (A := ArithB64 m) x; Poke (A := ArithB64 m) PT t; Poke (A := ArithB64 m) PP P; Density (A := ArithB64 m) i]
      = Some (s, [OUnit; OUnit; OUnit; ODens (A := ArithB64 m) ROk]) /\
    let d := dread (A := ArithB64 m) PD s in
    fin d /\ Rabs (detail_p r T (bR d) - bR P) <= 1 / 10000000 * bR P /\ Rabs (bR d - e) <= 1 / 10000000 * e /\
    7 / 8 * d0 <= e <= 7 / 6 * d0 /\ detail_p r T e = bR P /\ forall e', 0 < e' <= 2 * d0 -> detail_p r T e' = bR P -> e' = e.
Proof.
  intros m Hm x t P i r Hx Hg [Ft Ht] [FP HP] T d0. pose proof (start_range RR (bR P) T ltac:(lra) HP Ht) as S1. pose proof (start_top RR (bR P) T ltac:(lra) ltac:(lra) (proj1 Ht)) as S2.
  apply (low_double m Hm x t P i Hx); trivial.
  - apply Hg.
  - split; [exact Ft|]. lra.
  - apply Rle_trans with (1 / 40); [|lra]. exact (D_le r Hg (4 * d0) S2).
  - exact (spread_le r Hg T Ht (4 * d0) S2).
  - exact (top_le r Hg T Ht (4 * d0) S2).
Qed.

Lemma gas_gerg : forall m, accurate m -> forall (x : nat -> b64) (t P : b64) i, (i <= 0)%Z -> let r j := bR (x j) in
  (forall j, (1 <= j < 22)%nat -> fin (x j) /\ (r j = 0 \/ bpow radix2 (-49) <= r j)) -> natural_gas (fun j => r (S j)) ->
  fin t /\ 270 <= bR t <= 350 -> fin P /\ 1 / 10 <= bR P <= 110 ->
  let T := bR t in let d0 := bR P / Rg / T in
  exists s e, @gexec (ArithB64 m) New [SetX (A := ArithB64 m) x; Poke (A := ArithB64 m) PT t; Poke (A := ArithB64 m) PP P; Density (A := ArithB64 m) i]
      = Some (s, [OUnit; OUnit; OUnit; ODens (A := ArithB64 m) ROk]) /\
    let d := gread (A := ArithB64 m) PD s in
    fin d /\ Rabs (gpres New r T (bR d) - bR P) <= 1 / 10000000 * bR P /\ Rabs (bR d - e) <= 1 / 10000000 * e /\
    7 / 8 * d0 <= e <= 7 / 6 * d0 /\ gpres New r T e = bR P /\ forall e', 0 < e' <= 2 * d0 -> gpres New r T e' = bR P -> e' = e.
Proof.
  destruct gdensity_low as (gv & gt & bt & Nr & G). intros m Hm x t P i Hi r Hx Hg [Ft Ht] [FP HP] T d0. assert (PRg : Rg = 8314472 / 1000000) by reflexivity.
  pose proof (start_range Rg (bR P) T ltac:(lra) HP Ht) as S1. pose proof (start_top Rg (bR P) T ltac:(lra) ltac:(lra) (proj1 Ht)) as S2. fold d0 in S1, S2.
  pose proof (vol_le r Hg gv gt bt Nr) as Vr. pose proof (tmp_le r Hg gv gt bt Nr) as Tr.
  assert (Dl : 0 <= 4 * d0 * red_volume r gv <= 22776 / 1000000) by (clearbody d0; split; [apply Rmult_le_pos; lra|]; apply Rle_trans with (196 / 1000 * (1162 / 10000)); [apply Rmult_le_compat; lra|lra]).
  apply (G m Hm x t P i Hi Hx); trivial.
  - apply Hg.
  - split; [exact Ft|]. lra.
  - apply Rle_trans with (1 := proj2 Dl). lra.
  - apply gspread_le; trivial. assert (PT : 0 < / T) by (apply Rinv_0_lt_compat; unfold T; lra). fold T. fold T in Ht. clearbody T. split.
    + apply Rle_trans with (38 * / T); [|unfold Rdiv; apply Rmult_le_compat_r; [lra|exact (proj1 Tr)]]. unfold Rdiv. apply Rmult_le_compat_l; [lra|]. apply Rinv_le_contravar; lra.
    + apply (Rmult_le_reg_r T); [lra|]. unfold Rdiv at 1. rewrite Rmult_assoc, Rinv_l by lra. rewrite Rmult_1_r. apply Rle_trans with (1 := proj2 Tr). lra.
Qed.

Definition gas5 (j : nat) : b64 := match j with 0%nat => bdy 57 (-6) | 1%nat => bdy 2 (-6) | 2%nat => bdy 1 (-6) | 3%nat => bdy 3 (-6) | 4%nat => bdy 1 (-6) | _ => B0 end.
Definition part5 (j : nat) : Z := match j with 0%nat => 57 | 1%nat => 2 | 2%nat => 1 | 3%nat => 3 | 4%nat => 1 | _ => 0 end%Z.
Lemma gas5_R j : fin (gas5 j) /\ bR (gas5 j) = IZR (part5 j) / 64.
Proof.
  assert (H : forall z, (Z.abs z < 100)%Z -> fin (bdy z (-6)) /\ bR (bdy z (-6)) = IZR z / 64).
  { intros z Hz. destruct (bdy_R z (-6) ltac:(lia) ltac:(lia)) as [F E]. split; [exact F|]. rewrite E. replace (bpow radix2 (-6)) with (/ 64) by (cbn; lra). reflexivity. }
  do 5 (destruct j as [|j]; [apply H; reflexivity|]). split; [reflexivity|]. cbn. lra.
Qed.
Lemma gas5_gas : natural_gas (fun j => bR (gas5 j)).
Proof.
  split; [|split].
  - rewrite (proj2 (gas5_R 0)). cbn. lra.
  - intros i _. rewrite (proj2 (gas5_R i)). unfold gas_limit. do 21 (destruct i as [|i]; [cbn; lra|]). cbn. destruct i; cbn; lra.
  - cbn [tot]. rewrite !(proj2 (gas5_R _)). cbn [part5]. lra.
Qed.
Lemma gas5_big k j : (-50 <= k <= -49)%Z -> bR (gas5 j) = 0 \/ bpow radix2 k <= bR (gas5 j).
Proof.
  intros Hk. rewrite (proj2 (gas5_R j)). assert (B : bpow radix2 k <= / 64) by (replace (/ 64) with (bpow radix2 (-6)) by (cbn; lra); apply bpow_le; lia).
  do 5 (destruct j as [|j]; [right; cbn [part5]; lra|]). left. cbn [part5]. lra.
Qed.
Lemma base_ok : (fin (bofZ 288) /\ 270 <= bR (bofZ 288) <= 350) /\ (fin (bofZ 101) /\ 1 / 10 <= bR (bofZ 101) <= 110).
Proof. rewrite !ofZ_R by reflexivity. repeat split; try reflexivity; lra. Qed.
Lemma gas5_ok : let r j := bR (gas5 j) in
  (forall j, (j < 21)%nat -> fin (gas5 j) /\ (r j = 0 \/ bpow radix2 (-50) <= r j)) /\ natural_gas r /\
  (fin (bofZ 288) /\ 270 <= bR (bofZ 288) <= 350) /\ (fin (bofZ 101) /\ 1 / 10 <= bR (bofZ 101) <= 110).
Proof. split; [intros j _; split; [apply gas5_R|apply gas5_big; lia]|]. split; [exact gas5_gas|exact base_ok]. Qed.
Lemma gas5g_ok : let r j := bR (match j with O => B0 | S k => gas5 k end) in
  (forall j, (1 <= j < 22)%nat -> fin (match j with O => B0 | S k => gas5 k end) /\ (r j = 0 \/ bpow radix2 (-49) <= r j)) /\ natural_gas (fun j => r (S j)) /\
  (fin (bofZ 288) /\ 270 <= bR (bofZ 288) <= 350) /\ (fin (bofZ 101) /\ 1 / 10 <= bR (bofZ 101) <= 110).
Proof. split; [intros [|j] Hj; [lia|]; split; [apply gas5_R|apply gas5_big; lia]|]. split; [exact gas5_gas|exact base_ok]. Qed.
