(* C18 in double precision: the witness. *)
From Coq Require Import Reals ZArith List Bool Lra Lia Psatz.
From Flocq Require Import Core BinarySingleNaN.
From Interval Require Import Tactic.
From Verif Require Import FArith Prelude ArithB64 B64Lemmas SpecDetail StdDetail SpecStd SpecAcc SpecGeneric SpecHistory DetailModel Api DetailEos StdDetailProof Drift B64Err AccProof DriftDouble.
From Verif Require ConvCase DriftCase.
Import ListNotations.
Local Open Scope R_scope.

(* the doubles z 2^e *)
Definition bdy (z e : Z) : b64 := binary_normalize 53 1024 Hprec64 Hmax64 mode_NE z e false.
Lemma bdy_R z e : (Z.abs z < 2 ^ 53)%Z -> (-1000 <= e <= 0)%Z -> fin (bdy z e) /\ bR (bdy z e) = IZR z * p2 e.
Proof.
  intros H He. pose proof (binary_normalize_correct 53 1024 Hprec64 Hmax64 mode_NE z e false) as C. cbv zeta in C. fold (bdy z e) in C.
  change (F2R {| Fnum := z; Fexp := e |}) with (IZR z * p2 e) in C.
  change (SpecFloat.fexp 53 1024) with fexp64 in C. cbn [round_mode] in C. rewrite round_generic in C; [|apply valid_rnd_N|].
  2: { apply generic_format_FLT. exists (Float radix2 z e); [reflexivity|exact H|cbn; lia]. }
  rewrite Rlt_bool_true in C; [split; apply C|]. rewrite Rabs_mult, <- abs_IZR, (Rabs_pos_eq (p2 e)) by apply bpow_ge_0.
  apply Rlt_trans with (p2 53); [|apply bpow_lt; lia].
  apply Rle_lt_trans with (IZR (Z.abs z) * 1).
  - apply Rmult_le_compat_l; [apply IZR_le; lia|]. change 1 with (p2 0). apply bpow_le. lia.
  - rewrite Rmult_1_r. change (p2 53) with (IZR (2 ^ 53)). now apply IZR_lt.
Qed.
Definition ch4 (i : nat) : b64 := match i with O => bdy 1 0 | _ => B0 end.
Definition d10 : b64 := bdy 10 0.
Definition warm (i : nat) : b64 := bdy (4294967296 + Z.of_nat i) (-24).
Lemma ch4_R i : fin (ch4 i) /\ bR (ch4 i) = nn ConvCase.ch4 i.
Proof.
  destruct i as [|i].
  - destruct (bdy_R 1 0 ltac:(lia) ltac:(lia)) as [F E]. split; [exact F|]. rewrite ConvCase.y0. cbn [ch4]. rewrite E. change (p2 0) with 1. ring.
  - split; [reflexivity|]. rewrite ConvCase.yS by lia. reflexivity.
Qed.
Lemma d10_R : fin d10 /\ bR d10 = 10.
Proof. destruct (bdy_R 10 0 ltac:(lia) ltac:(lia)) as [F E]. split; [exact F|]. unfold d10. rewrite E. change (p2 0) with 1. ring. Qed.
Lemma warm_R i : (Z.of_nat i <= 4294967296)%Z -> fin (warm i) /\ bR (warm i) = 256 + INR i / 16777216.
Proof.
  intros H. destruct (bdy_R (4294967296 + Z.of_nat i) (-24) ltac:(lia) ltac:(lia)) as [F E]. split; [exact F|]. unfold warm. rewrite E.
  rewrite plus_IZR, INR_IZR_INZ. change (p2 (-24)) with (/ 16777216). field.
Qed.
Lemma ch4_ext i : (i < 21)%nat -> bR (ch4 i) = nn ConvCase.ch4 i. Proof. intros _. apply ch4_R. Qed.
Lemma Z_b T d : detail_Z (fun i => bR (ch4 i)) T d = detail_Z (nn ConvCase.ch4) T d.
Proof. exact (Z_ext _ _ T d ch4_ext). Qed.
Lemma S_b T d : detail_size (fun i => bR (ch4 i)) T d = detail_size (nn ConvCase.ch4) T d.
Proof. exact (size_ext _ _ T d ch4_ext). Qed.
Lemma D_b d : detail_D (fun i => bR (ch4 i)) d = ConvCase.K1 ^ 3 * d.
Proof. rewrite <- ConvCase.D_1. exact (D_ext _ _ d ch4_ext). Qed.
Lemma tot_b : tot 21 (fun i => bR (ch4 i)) = 1.
Proof. rewrite (ConvCase.tot_one 20). - rewrite (proj2 (ch4_R 0)). apply ConvCase.y0. - intros i Hi. rewrite (proj2 (ch4_R i)). now apply ConvCase.yS. Qed.
Lemma ch4_hyp : let r i := bR (ch4 i) in
  (forall i, (i < 21)%nat -> fin (ch4 i) /\ (r i = 0 \/ p2 (-50) <= r i)) /\ 99 / 100 <= tot 21 r <= 101 / 100 /\
  (fin d10 /\ (bR d10 = 0 \/ p2 (-20) <= bR d10)) /\ detail_D r (bR d10) <= 3.
Proof.
  cbv zeta. rewrite tot_b, D_b, !(proj2 d10_R). split.
  { intros i _. split; [apply ch4_R|]. rewrite (proj2 (ch4_R i)). destruct i; [right; rewrite ConvCase.y0|left; apply ConvCase.yS; lia].
    change 1 with (p2 0). apply bpow_le. lia. }
  split; [lra|]. split. { split; [apply d10_R|right]. apply Rle_trans with (p2 0); [apply bpow_le; lia|change (p2 0) with 1; lra]. }
  unfold ConvCase.K1. interval.
Qed.
Section W.
Variable m : Libm.
Hypothesis A : accurate m.
Local Notation B := (ArithB64 m).
Lemma witness : exists n s rr s' v s1 r1 s2 w,
  @dexec B New ([SetX (A := B) ch4; Poke (A := B) PT (warm 0); Poke (A := B) PD d10; Pressure] ++ @ramp B (fun i => Poke (A := B) PT (warm i)) n) = Some (s, rr) /\
  (forall i, (i < n)%nat -> fin (warm i) /\ fin (warm (S i)) /\ bR (warm (S i)) - bR (warm i) = p2 (-24)) /\ bR (warm 0) = 256 /\ bR (warm n) = 512 /\
  @dexec B New (@dcopy B s) = Some (s1, r1) /\ @dsame B s s1 /\
  @dstep B Pressure s = Some (s', OVal (A := B) v) /\ @dstep B Pressure s1 = Some (s2, OVal (A := B) w) /\ fin v /\ fin w /\ 0 < bR v < 3 / 4 * bR w.
Proof.
  destruct (Z_of_nat_complete 4294967296 ltac:(lia)) as [n Hn]. 
  assert (HW : forall i, (i <= n)%nat -> fin (warm i) /\ bR (warm i) = 256 + INR i / 16777216) by (intros i Hi; apply warm_R; lia).
  assert (Hi : forall i, (i <= n)%nat -> 0 <= INR i <= 4294967296).
  { intros i H. split; [apply pos_INR|]. rewrite INR_IZR_INZ. apply IZR_le. lia. }
  assert (HS : forall i, (i < n)%nat -> bR (warm (S i)) - bR (warm i) = p2 (-24)).
  { intros i H. rewrite (proj2 (HW i ltac:(lia))), (proj2 (HW (S i) ltac:(lia))), S_INR. change (p2 (-24)) with (/ 16777216). field. }
  assert (E0 : bR (warm 0) = 256). { rewrite (proj2 (HW 0%nat ltac:(lia))). cbn. field. }
  assert (E1 : bR (warm n) = 512). { rewrite (proj2 (HW n ltac:(lia))), INR_IZR_INZ, <- Hn. field. }
  destruct ch4_hyp as (Hx & Hs & Hd & HD).
  destruct (drift_double m A ch4 d10 warm n Hx Hs) as (s & rr & s' & v & s1 & r1 & s2 & w & P1 & P2 & P3 & P4 & P5 & P6 & P7 & P8 & P9); trivial.
  - intros i H. destruct (HW i H) as [F E]. split; [exact F|]. rewrite E. pose proof (Hi i H). lra.
  - intros i H. rewrite HS by exact H. rewrite Rabs_pos_eq by apply bpow_ge_0. change (p2 (-24)) with (/ 16777216). lra.
  - exists n, s, rr, s', v, s1, r1, s2, w. split; [exact P1|]. split.
    { intros i H. exact (conj (proj1 (HW i ltac:(lia))) (conj (proj1 (HW (S i) ltac:(lia))) (HS i H))). }
    repeat (split; [assumption|]).
    rewrite Z_b, S_b, E0, E1, (proj2 d10_R) in P4. unfold detail_p in P9. rewrite Z_b, S_b, E1, (proj2 d10_R) in P9.
    pose proof DriftCase.Z_cold. pose proof DriftCase.Z_warm. pose proof DriftCase.S_cold. pose proof DriftCase.S_warm.
    apply Rabs_le_inv in P4, P9.
    set (z0 := detail_Z _ 256 10) in *. set (z1 := detail_Z _ 512 10) in *. set (e0 := detail_size _ 256 10) in *. set (e1 := detail_size _ 512 10) in *.
    clearbody z0 z1 e0 e1. lra.
Qed.
Lemma history_double_false : ~ (forall k l l2 (s : @Detail B) r, @dexec B k l = Some (s, r) ->
  exists s1 r1, @dexec B k (@dcopy B s) = Some (s1, r1) /\
  exists s2 s3 r2, @drun B l2 s = Some (s2, r2) /\ @drun B l2 s1 = Some (s3, r2) /\ @dsame B s2 s3).
Proof.
  intros H. destruct witness as (n & s & rr & s' & v & s1 & r1 & s2 & w & P1 & _ & _ & _ & P5 & _ & P7 & P8 & _ & _ & P11).
  destruct (H New _ [Pressure] s rr P1) as (t1 & q1 & Q1 & t2 & t3 & q2 & Q2 & Q3 & _).
  rewrite P5 in Q1. injection Q1 as <- <-. cbn [drun] in Q2, Q3. rewrite P7 in Q2. rewrite P8 in Q3. cbn [bind] in Q2, Q3.
  injection Q2 as <- <-. injection Q3 as _ E. subst w.
  lra.
Qed.
End W.
