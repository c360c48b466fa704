(* Accuracy in double precision.  Specifications: SpecAcc, and SpecStd for the equation of state. *)
From Coq Require Import Reals ZArith List Bool Lra Lia.
From Coquelicot Require Import Coquelicot.
From Flocq Require Import Core BinarySingleNaN.
From Interval Require Import Tactic.
From Verif Require Import FArith Prelude ArithB64 B64Lemmas ArithR StdDetail StdGerg SpecGerg SpecStd SpecAcc SpecAccG Api B64Err AccLibm AccProof GAccProof.
Import ListNotations.
Local Open Scope R_scope.

(* C49: with elementary functions good to 2^-50, the first pressure() of a new object is finite and differs
   from the DETAIL equation by at most 1.5e-10 of the sum of the sizes of its terms; so is the field z *)
Theorem C49_detail : forall m, accurate m -> forall (x : nat -> b64) (t d : b64), let r i := bR (x i) in
  (forall i, (i < 21)%nat -> fin (x i) /\ (r i = 0 \/ bpow radix2 (-50) <= r i)) ->
  99 / 100 <= tot 21 r <= 101 / 100 -> fin t /\ 32 <= bR t <= 2048 ->
  fin d /\ (bR d = 0 \/ bpow radix2 (-20) <= bR d) -> detail_D r (bR d) <= 3 ->
  exists s v, @dexec (ArithB64 m) New [SetX (A := ArithB64 m) x; Poke (A := ArithB64 m) PT t; Poke (A := ArithB64 m) PD d; Pressure]
      = Some (s, [OUnit; OUnit; OUnit; OVal (A := ArithB64 m) v]) /\
    fin v /\ Rabs (bR v - detail_p r (bR t) (bR d)) <= 3 / 20000000000 * (bR d * (831451 / 100000) * bR t * detail_size r (bR t) (bR d)) /\
    fin (dread (A := ArithB64 m) PZ s) /\
    Rabs (bR (dread (A := ArithB64 m) PZ s) - detail_Z r (bR t) (bR d)) <= 3 / 20000000000 * detail_size r (bR t) (bR d).
Proof. exact pressure_accurate. Qed.

(* there is such a libm, and methane at 300 K and 10 mol/l meets the hypotheses *)
Example C49_libm : accurate best.
Proof. exact best_accurate. Qed.
Definition ch4 (i : nat) : b64 := match i with O => bofZ 1 | _ => B0 end.
Lemma bofZ_R z : (Z.abs z < 2 ^ 53)%Z -> bR (bofZ z) = IZR z.
Proof.
  intros H. pose proof (binary_normalize_correct 53 1024 _ _ mode_NE z 0 false) as C. cbv zeta in C. fold (bofZ z) in C.
  replace (F2R {| Fnum := z; Fexp := 0 |}) with (IZR z) in C by (unfold F2R; cbn; ring).
  change (SpecFloat.fexp 53 1024) with fexp64 in C. cbn [round_mode] in C. rewrite round_generic in C; [|apply valid_rnd_N|].
  2: { apply generic_format_FLT. exists (Float radix2 z 0); [unfold F2R; cbn; ring|exact H|cbn; lia]. }
  rewrite Rlt_bool_true in C; [apply C|]. rewrite <- abs_IZR. apply Rlt_trans with (bpow radix2 53); [|apply bpow_lt; lia].
  change (bpow radix2 53) with (IZR (2 ^ 53)). now apply IZR_lt.
Qed.
Lemma ch4_R i : bR (ch4 i) = match i with O => 1 | _ => 0 end.
Proof. destruct i; [apply bofZ_R; lia|reflexivity]. Qed.
Lemma tot_one n f : (forall i, (0 < i)%nat -> f i = 0) -> tot (S n) f = f 0%nat.
Proof. intros H. induction n as [|n IH]; [cbn; ring|]. cbn [tot] in *. rewrite IH, (H (S n)) by lia. ring. Qed.
Lemma ch4_D : detail_D (fun i => bR (ch4 i)) 10 = Rpower (Rpower (K_ 0) (5/2) ^ 2) (1/5) ^ 3 * 10.
Proof.
  unfold detail_D. do 3 f_equal. unfold sizeK5. rewrite (tot_one 20 (fun i => bR (ch4 i) * _)).
  - rewrite (tot_one 20); [cbn [tot]; rewrite ch4_R; ring|]. intros j Hj. destruct j; [lia|]. rewrite tot_one; rewrite !ch4_R; [ring|].
    intros i Hi. rewrite ch4_R. destruct i; [lia|]. ring.
  - intros i Hi. rewrite ch4_R. destruct i; [lia|]. ring.
Qed.
Example C49_case : let r i := bR (ch4 i) in
  (forall i, (i < 21)%nat -> fin (ch4 i) /\ (r i = 0 \/ bpow radix2 (-50) <= r i)) /\
  99 / 100 <= tot 21 r <= 101 / 100 /\ (fin (bofZ 300) /\ 32 <= bR (bofZ 300) <= 2048) /\
  (fin (bofZ 10) /\ (bR (bofZ 10) = 0 \/ bpow radix2 (-20) <= bR (bofZ 10))) /\ detail_D r (bR (bofZ 10)) <= 3.
Proof.
  cbv zeta. rewrite !bofZ_R by (cbn; lia). split.
  { intros i _. split; [destruct i; reflexivity|]. rewrite ch4_R. destruct i; [right|now left]. change 1 with (bpow radix2 0). apply bpow_le. lia. }
  split. { cbn [tot]. rewrite !ch4_R. lra. }
  split. { split; [reflexivity|lra]. }
  split. { split; [reflexivity|right]. apply Rle_trans with (bpow radix2 0); [apply bpow_le; lia|cbn; lra]. }
  rewrite ch4_D. unfold K_, comp. cbn -[Rpower Rdiv Rmult pow]. interval.
Qed.

(* C51: the same for GERG-2008, to 1e-10; gv, gt, bt are the constants of the reducing functions, printed values
   up to 1e-14, as in C25_standard *)
Theorem C51_gerg : exists gv gt bt : nat -> nat -> R,
  (forall i j, (1 <= i <= j)%nat -> (j < 22)%nat ->
    near (gv i j) (v_red i j) /\ near (gt i j) (t_red i j) /\ near (bt i j) (b_red i j)) /\
  forall m, accurate m -> forall (x : nat -> b64) (t d : b64), let r i := bR (x i) in
  (forall i, (1 <= i < 22)%nat -> fin (x i) /\ (r i = 0 \/ bpow radix2 (-49) <= r i)) ->
  99 / 100 <= tot 21 (fun i => r (S i)) <= 101 / 100 -> fin t /\ 32 <= bR t <= 2048 ->
  fin d /\ (bR d = 0 \/ bpow radix2 (-20) <= bR d) -> bR d * red_volume r v_red <= 249 / 100 ->
  let delta := bR d * red_volume r gv in let tau := red_temp r gt bt / bR t in
  exists a' s v, is_derive (fun delta => residual r delta tau) delta a' /\
    @gexec (ArithB64 m) New [SetX (A := ArithB64 m) x; Poke (A := ArithB64 m) PT t; Poke (A := ArithB64 m) PD d; Pressure]
      = Some (s, [OUnit; OUnit; OUnit; OVal (A := ArithB64 m) v]) /\
    fin v /\ Rabs (bR v - bR d * Rg * bR t * (1 + delta * a')) <= 1 / 10000000000 * (bR d * Rg * bR t * gerg_size r delta tau) /\
    fin (gread (A := ArithB64 m) PZ s) /\
    Rabs (bR (gread (A := ArithB64 m) PZ s) - (1 + delta * a')) <= 1 / 10000000000 * gerg_size r delta tau.
Proof. exact gerg_accurate. Qed.

(* methane at 300 K and 10 mol/l *)
Definition ch4g (i : nat) : b64 := match i with 1%nat => bofZ 1 | _ => B0 end.
Lemma ch4g_R i : bR (ch4g i) = match i with 1%nat => 1 | _ => 0 end.
Proof. destruct i as [|[|i]]; [reflexivity|apply bofZ_R; lia|reflexivity]. Qed.
Lemma tot_0 n f : (forall i, (i < n)%nat -> f i = 0) -> tot n f = 0.
Proof. intros H. induction n as [|n IH]; [reflexivity|]. cbn [tot]. rewrite IH, (H n) by (intros; auto with arith). ring. Qed.
Lemma ch4g_v : red_volume (fun i => bR (ch4g i)) v_red = 1 / rho_c 1.
Proof.
  unfold red_volume, pair_sum. rewrite (tot_0 21 (fun j => tot j _)).
  - rewrite (tot_one 20); [rewrite ch4g_R; unfold v_red; cbn [Nat.eqb]; ring|]. intros i Hi. destruct i; [lia|]. rewrite ch4g_R. ring.
  - intros j Hj. apply tot_0. intros i Hi. destruct j; [lia|]. rewrite (ch4g_R (S (S j))). unfold Rdiv. ring.
Qed.
Example C51_case : let r i := bR (ch4g i) in
  (forall i, (1 <= i < 22)%nat -> fin (ch4g i) /\ (r i = 0 \/ bpow radix2 (-49) <= r i)) /\
  99 / 100 <= tot 21 (fun i => r (S i)) <= 101 / 100 /\ (fin (bofZ 300) /\ 32 <= bR (bofZ 300) <= 2048) /\
  (fin (bofZ 10) /\ (bR (bofZ 10) = 0 \/ bpow radix2 (-20) <= bR (bofZ 10))) /\ bR (bofZ 10) * red_volume r v_red <= 249 / 100.
Proof.
  cbv zeta. rewrite ch4g_v, !bofZ_R by (cbn; lia). split.
  { intros i _. split; [destruct i as [|[|i]]; reflexivity|]. rewrite ch4g_R. destruct i as [|[|i]]; [now left|right|now left]. change 1 with (bpow radix2 0). apply bpow_le. lia. }
  split. { cbn [tot]. rewrite !ch4g_R. lra. }
  split. { split; [reflexivity|lra]. }
  split. { split; [reflexivity|right]. apply Rle_trans with (bpow radix2 0); [apply bpow_le; lia|cbn; lra]. }
  unfold rho_c, CRIT. cbn [nth fst Rlit]. cbv [Z.pow Z.pow_pos Pos.iter Z.mul Pos.mul Pos.add Pos.succ Pos.add_carry]. lra.
Qed.
Print Assumptions C49_detail.
Print Assumptions C51_gerg.
