(* Natural gas up to 1.75 MPa: density() of DETAIL in double precision converges. *)
From Coq Require Import Reals ZArith List Lra Lia.
From Coquelicot Require Import Coquelicot.
From Flocq Require Import Core BinarySingleNaN.
From Verif Require Import FArith Prelude ArithB64 B64Lemmas ArithR SpecDetail StdDetail SpecStd SpecGas SpecAcc SpecSlope SpecConv SpecHistory SpecGeneric DetailModel Api SpecReal SpecAll AccLibm
  ConvDetail TightLow AccDensProof DriftWit FixUp GasThird GasTight GasCase.
From Verif Require Converge.
Import ListNotations.
Local Open Scope R_scope.
Local Notation RR := (831451 / 100000).

Lemma med_start P T : 1 / 10 <= P <= 1750 -> 270 <= T <= 350 -> bpow radix2 (-17) <= P / RR / T <= 80 / 100.
Proof.
  intros HP HT. assert (0 < / T) by (apply Rinv_0_lt_compat; lra). assert (E : P / RR / T * (RR * T) = P) by (field; lra).
  set (d := P / RR / T) in *. assert (0 < d) by (unfold d, Rdiv; repeat apply Rmult_lt_0_compat; lra). clearbody d. split.
  - apply (Rmult_le_reg_r (RR * T)); [lra|]. rewrite E. replace (bpow radix2 (-17)) with (/ 131072) by (cbn; lra). lra.
  - apply (Rmult_le_reg_r (RR * T)); [lra|]. rewrite E. lra.
Qed.
Lemma med_detail : forall m, accurate m -> forall (x : nat -> b64) (t P : b64) i, let r j := bR (x j) in
  (forall j, (j < 21)%nat -> fin (x j) /\ (r j = 0 \/ bpow radix2 (-50) <= r j)) -> natural_gas r ->
  fin t /\ 270 <= bR t <= 350 -> fin P /\ 1 / 10 <= bR P <= 1750 ->
  let T := bR t in let d0 := bR P / RR / T in
  exists s e, @dexec (ArithB64 m) New [SetX (A := ArithB64 m) x; Poke (A := ArithB64 m) PT t; Poke (A := ArithB64 m) PP P; Density (A := ArithB64 m) i]
      = Some (s, [OUnit; OUnit; OUnit; ODens (A := ArithB64 m) ROk]) /\
    let d := dread (A := ArithB64 m) PD s in
    fin d /\ Rabs (detail_p r T (bR d) - bR P) <= 1 / 10000000 * bR P /\ Rabs (bR d - e) <= 1 / 10000000 * e /\
    9 / 10 * d0 <= e <= 5 / 4 * d0 /\ detail_p r T e = bR P /\ forall e', 0 < e' <= 7 / 5 * d0 -> detail_p r T e' = bR P -> e' = e.
Proof.
  intros m Hm x t P i r Hx Hg [Ft Ht] [FP HP] T d0. pose proof (med_start (bR P) T HP Ht) as S1. fold d0 in S1. pose proof (bpow_gt_0 radix2 (-17)) as B0.
  assert (S2 : 0 < 7 / 5 * d0 <= 1120 / 1000) by lra.
  apply (med_double m Hm x t P i Hx); trivial.
  - apply Hg.
  - split; [exact Ft|]. lra.
  - fold T. fold d0. lra.
  - exact (proj2 (D2_up r Hg (7 / 5 * d0) S2)).
  - intros d Hd. fold T in Hd. fold d0 in Hd. pose proof (med_Z r Hg T Ht d ltac:(lra)) as Q. fold T. fold r. lra.
  - intros d Hd. fold T in Hd. fold d0 in Hd. pose proof (med_Z0 r Hg T Ht d ltac:(lra)) as Q. fold T. fold r. lra.
  - exact (med_top r Hg T Ht (7 / 5 * d0) S2).
Qed.
Lemma med_ok : let r j := bR (gas5 j) in
  (forall j, (j < 21)%nat -> fin (gas5 j) /\ (r j = 0 \/ bpow radix2 (-50) <= r j)) /\ natural_gas r /\
  (fin (bofZ 288) /\ 270 <= bR (bofZ 288) <= 350) /\ (fin (bofZ 1700) /\ 1 / 10 <= bR (bofZ 1700) <= 1750).
Proof. destruct gas5_ok as (A & B & C & _). repeat (split; [assumption|]). rewrite ofZ_R by reflexivity. split; [reflexivity|lra]. Qed.

(* two platforms, and two pressures *)
Lemma mid_value p (p' : R -> R) a b : a < b -> (forall d, a <= d <= b -> is_derive p d (p' d)) -> exists c, a <= c <= b /\ p b - p a = p' c * (b - a).
Proof.
  intros H D. destruct (MVT_gen p a b p') as (c & Hc & E); rewrite Rmin_left, Rmax_right in * by lra.
  - intros y Hy. apply D. lra.
  - intros y Hy. apply continuity_pt_filterlim. apply (ex_derive_continuous p). eexists. apply D. lra.
  - exists c. split; [exact Hc|exact E].
Qed.
Lemma slope_box r T a b : natural_gas r -> 270 <= T <= 350 -> 0 < a -> a < b -> b <= 1120 / 1000 -> 63 / 100 * (RR * T) * (b - a) <= detail_p r T b - detail_p r T a <= 112 / 100 * (RR * T) * (b - a).
Proof.
  intros Hg HT Ha Hab Hb. destruct (mid_value (detail_p r T) (fun d => RR * T * (detail_Z r T d + d * Z1 r T d)) a b Hab) as (c & Hc & E).
  - intros d Hd. apply (p_derive r T d). lra.
  - rewrite E. destruct (med_Z r Hg T HT c ltac:(lra)) as [A B]. set (z := detail_Z r T c) in *. set (w := c * Z1 r T c) in *. clearbody z w. assert (0 < RR * T) by lra. assert (0 < b - a) by lra.
    assert (63 / 100 <= z + w <= 112 / 100) by lra. replace (RR * T * (z + w) * (b - a)) with ((z + w) * (RR * T * (b - a))) by ring. assert (0 < RR * T * (b - a)) by now apply Rmult_lt_0_compat. nra.
Qed.
Lemma med_platform : forall m n, accurate m -> accurate n -> forall (x : nat -> b64) (t P : b64) i k, let r j := bR (x j) in
  (forall j, (j < 21)%nat -> fin (x j) /\ (r j = 0 \/ bpow radix2 (-50) <= r j)) -> natural_gas r ->
  fin t /\ 270 <= bR t <= 350 -> fin P /\ 1 / 10 <= bR P <= 1750 ->
  exists s s', @dexec (ArithB64 m) New [SetX (A := ArithB64 m) x; Poke (A := ArithB64 m) PT t; Poke (A := ArithB64 m) PP P; Density (A := ArithB64 m) i]
      = Some (s, [OUnit; OUnit; OUnit; ODens (A := ArithB64 m) ROk]) /\
    @dexec (ArithB64 n) New [SetX (A := ArithB64 n) x; Poke (A := ArithB64 n) PT t; Poke (A := ArithB64 n) PP P; Density (A := ArithB64 n) k]
      = Some (s', [OUnit; OUnit; OUnit; ODens (A := ArithB64 n) ROk]) /\
    let d := dread (A := ArithB64 m) PD s in let d' := dread (A := ArithB64 n) PD s' in
    fin d /\ fin d' /\ Rabs (bR d - bR d') <= 21 / 100000000 * Rmin (bR d) (bR d').
Proof.
  intros m n Hm Hn x t P i k r Hx Hg Ht HP. destruct (med_detail m Hm x t P i Hx Hg Ht HP) as (s & e & E & F & _ & A & B & C & U).
  destruct (med_detail n Hn x t P k Hx Hg Ht HP) as (s' & e' & E' & F' & _ & A' & B' & C' & U'). exists s, s'. split; [exact E|]. split; [exact E'|].
  assert (S : 0 < bR P / RR / bR t) by (destruct Ht as [_ Ht], HP as [_ HP]; pose proof (med_start (bR P) (bR t) HP Ht); pose proof (bpow_gt_0 radix2 (-17)); lra).
  assert (Q : e' = e) by (apply U; [lra|exact C']). subst e'. cbv zeta. split; [exact F|]. split; [exact F'|].
  set (d := bR (dread _ s)) in *. set (d' := bR (dread _ s')) in *. apply Converge.Rabs_le_inv in A, A'. assert (0 < e) by lra. clearbody d d'. apply Rabs_le. apply Rmin_case; lra.
Qed.
Lemma med_mono : forall m, accurate m -> forall (x : nat -> b64) (t P P' : b64) i k, let r j := bR (x j) in
  (forall j, (j < 21)%nat -> fin (x j) /\ (r j = 0 \/ bpow radix2 (-50) <= r j)) -> natural_gas r ->
  fin t /\ 270 <= bR t <= 350 -> fin P /\ 1 / 10 <= bR P -> fin P' /\ (1 + 1 / 1000000) * bR P <= bR P' <= 1750 ->
  exists s s', @dexec (ArithB64 m) New [SetX (A := ArithB64 m) x; Poke (A := ArithB64 m) PT t; Poke (A := ArithB64 m) PP P; Density (A := ArithB64 m) i]
      = Some (s, [OUnit; OUnit; OUnit; ODens (A := ArithB64 m) ROk]) /\
    @dexec (ArithB64 m) New [SetX (A := ArithB64 m) x; Poke (A := ArithB64 m) PT t; Poke (A := ArithB64 m) PP P'; Density (A := ArithB64 m) k]
      = Some (s', [OUnit; OUnit; OUnit; ODens (A := ArithB64 m) ROk]) /\
    let d := dread (A := ArithB64 m) PD s in let d' := dread (A := ArithB64 m) PD s' in
    bR d < bR d' /\ 89 / 100 * (bR P' - bR P) - 1 / 1000000 * bR P' <= RR * bR t * (bR d' - bR d) <= 159 / 100 * (bR P' - bR P) + 1 / 1000000 * bR P'.
Proof.
  intros m Hm x t P P' i k r Hx Hg Ht HP HP'. destruct HP as [FP HP], HP' as [FP' HP'].
  assert (R1 : 1 / 10 <= bR P <= 1750) by lra. assert (R2 : 1 / 10 <= bR P' <= 1750) by lra.
  destruct (med_detail m Hm x t P i Hx Hg Ht (conj FP R1)) as (s & e & E & F & _ & A & B & C & _).
  destruct (med_detail m Hm x t P' k Hx Hg Ht (conj FP' R2)) as (s' & e' & E' & F' & _ & A' & B' & C' & _). exists s, s'. split; [exact E|]. split; [exact E'|].
  destruct Ht as [_ Ht]. pose proof (med_start (bR P) (bR t) ltac:(lra) Ht) as S. pose proof (med_start (bR P') (bR t) ltac:(lra) Ht) as S'. pose proof (bpow_gt_0 radix2 (-17)) as B0.
  set (T := bR t) in *. fold r in C, C'. assert (Q : forall p, p / RR / T * (RR * T) = p) by (intros; field; lra). pose proof (Q (bR P)) as Q1. pose proof (Q (bR P')) as Q2. clear Q.
  set (d0 := bR P / RR / T) in *. set (d0' := bR P' / RR / T) in *. assert (RT : 0 < RR * T) by lra.
  assert (L : e < e').
  { destruct (Rtotal_order e e') as [G|[G|G]]; [exact G| |]; exfalso.
    - rewrite G, C' in C. lra.
    - pose proof (slope_box r T e' e Hg Ht ltac:(lra) G ltac:(lra)) as [W _]. rewrite C, C' in W. assert (0 < 63 / 100 * (RR * T) * (e - e')) by (apply Rmult_lt_0_compat; lra). lra. }
  pose proof (slope_box r T e e' Hg Ht ltac:(lra) L ltac:(lra)) as W. rewrite C, C' in W. cbv zeta. clear C C' E E' F F'.
  set (d := bR (dread _ s)) in *. set (d' := bR (dread _ s')) in *. apply Converge.Rabs_le_inv in A, A'. set (pp := bR P) in *. set (pp' := bR P') in *. clearbody d d' pp pp' d0 d0'.
  assert (0 < e) by lra. rewrite <- Q1, <- Q2 in *. set (u := RR * T) in *. clearbody u.
  assert (W1 : 63 / 100 * (e' - e) <= d0' - d0) by (apply (Rmult_le_reg_r u); lra). assert (W1' : d0' - d0 <= 112 / 100 * (e' - e)) by (apply (Rmult_le_reg_r u); lra).
  assert (W2 : (1 + 1 / 1000000) * d0 <= d0') by (apply (Rmult_le_reg_r u); lra). assert (V : d < d') by lra. split; [exact V|].
  assert (V1 : 89 / 100 * (d0' - d0) - 1 / 1000000 * d0' <= d' - d) by lra. assert (V2 : d' - d <= 159 / 100 * (d0' - d0) + 1 / 1000000 * d0') by lra.
  apply (Rmult_le_compat_l u) in V1, V2; lra.
Qed.
Lemma med_ok2 : (fin (bofZ 1600) /\ 1 / 10 <= bR (bofZ 1600)) /\ fin (bofZ 1700) /\ (1 + 1 / 1000000) * bR (bofZ 1600) <= bR (bofZ 1700) <= 1750.
Proof. rewrite !ofZ_R by reflexivity. repeat split; try reflexivity; lra. Qed.
