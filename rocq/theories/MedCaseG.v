(* Natural gas up to 1.2 MPa: density() of GERG-2008 in double precision converges. *)
From Coq Require Import Reals ZArith List Lra Lia.
From Coquelicot Require Import Coquelicot.
From Flocq Require Import Core BinarySingleNaN.
From Verif Require Import FArith Prelude ArithB64 B64Lemmas ArithR GergTables GergModel SpecDetail SpecGerg StdDetail StdGerg SpecStd SpecGas SpecAcc SpecAccG SpecSlope SpecSlopeG SpecConv SpecHistory SpecGeneric DetailModel Api SpecReal SpecAll AccLibm
  RSum GergPure GergEos StdGergProof ConvDetail ConvGerg AccDensProof GDens GDensProof GAccProof ConvLowG GConvLow GTightLow DriftWit FixUp GasThird GasRed2 GasRed3 GasGerg GasGergS LinGerg GasGerg2 GasCase MedCase.
From Verif Require Converge.
Import ListNotations.
Local Open Scope R_scope.
Local Existing Instance gp_new.

Lemma medg_start P T : 1 / 10 <= P <= 1200 -> 270 <= T <= 350 -> bpow radix2 (-17) <= P / Rg / T <= 534545 / 1000000.
Proof.
  intros HP HT. assert (PRg : Rg = 8314472 / 1000000) by reflexivity. assert (0 < / T) by (apply Rinv_0_lt_compat; lra). assert (0 < / Rg) by (apply Rinv_0_lt_compat; lra). assert (E : P / Rg / T * (Rg * T) = P) by (field; lra).
  set (d := P / Rg / T) in *. assert (0 < d) by (unfold d, Rdiv; repeat apply Rmult_lt_0_compat; lra). clearbody d. rewrite PRg in E. split.
  - apply (Rmult_le_reg_r (8314472 / 1000000 * T)); [lra|]. rewrite E. replace (bpow radix2 (-17)) with (/ 131072) by (cbn; lra). lra.
  - apply (Rmult_le_reg_r (8314472 / 1000000 * T)); [lra|]. rewrite E. lra.
Qed.
(* the residual: two logarithmic derivatives with bounds *)
Lemma medg_res x tau : (forall i, 0 <= x i) -> natural_gas (fun i => x (S i)) -> 3765 / 10000 <= tau <= 93964 / 100000 ->
  exists f1 f2 : R -> R, (forall v, 0 < v -> is_derive (fun delta => residual x delta tau) v (f1 v / v) /\ is_derive f1 v (f2 v / v)) /\
    forall v, 0 < v <= 8697 / 100000 -> - (2039 / 1000) * v <= f1 v <= 44 / 100 * v /\ - (2039 / 1000) * v <= f2 v <= 44 / 100 * v.
Proof.
  intros X0 Hx Ht. destruct (residual_lins x tau X0) as (_ & f1 & f2 & H). exists f1, f2. split.
  - intros v Hv. destruct (H v Hv) as (A & B & _). now split.
  - intros v Hv. destruct (H v ltac:(lra)) as (_ & _ & C). destruct (C ltac:(lra)) as [C1 C2]. destruct (gas_first x v tau Hx ltac:(lra) Ht) as [G1 G2].
    apply Converge.Rabs_le_inv in C1, C2. set (a := first x tau) in *. set (z := rest x v tau) in *. clearbody a z.
    assert (- (2039 / 1000) * v <= a * v - v * z) by nra. assert (a * v + v * z <= 44 / 100 * v) by nra. lra.
Qed.
Section M.
Variables (x : nat -> b64) (t : b64).
Local Notation r := (fun j => bR (x j)).
Hypothesis Hx : forall j, (1 <= j < 22)%nat -> fin (x j) /\ (bR (x j) = 0 \/ bpow radix2 (-49) <= bR (x j)).
Hypothesis Hg : natural_gas (fun j => bR (x (S j))).
Hypothesis Ht : 270 <= bR t <= 350.
Let T := bR t.
Lemma ac_gas : natural_gas (fun i => ac r (S i)).
Proof.
  destruct Hg as (A & B & C). assert (E : forall i, (i < 21)%nat -> ac r (S i) = bR (x (S i))) by (intros i Hi; apply (ac_r x Hx); lia). split; [rewrite E by lia; exact A|]. split.
  - intros i Hi. rewrite E by exact Hi. now apply B.
  - rewrite (tot_ext 21 _ _ E). exact C.
Qed.
Lemma medg_red : 0 <= vred r <= 1162 / 10000 /\ 3765 / 10000 <= tred r / T <= 93964 / 100000.
Proof.
  assert (N : forall i j, (1 <= i <= j)%nat -> (j < 22)%nat -> near (tb2 G_GVIJ i j) (v_red i j) /\ near (tb2 G_GTIJ i j) (t_red i j) /\ near (tb2 G_BTIJ i j) (b_red i j)) by (intros i j Hi Hj; split; [now apply v_std|split; [now apply t_std|now apply b_std]]).
  pose proof (vol_le r Hg _ _ _ N) as V. pose proof (tmp_le r Hg _ _ _ N) as U. pose proof (tmp_ge r Hg _ _ (fun i j Hi Hj => proj2 (N i j Hi Hj))) as W. rewrite vred_std in V. rewrite tred_std in U, W. split; [exact V|].
  assert (PT : 0 < / T) by (apply Rinv_0_lt_compat; unfold T; lra). fold T in Ht. set (w := tred r) in *. clearbody w T. split; apply (Rmult_le_reg_r T); try lra; unfold Rdiv; rewrite (Rmult_assoc w), Rinv_l by lra; lra.
Qed.
End M.
Lemma medg_gerg : forall m, accurate m -> forall (x : nat -> b64) (t P : b64) i, (i <= 0)%Z -> let r j := bR (x j) in
  (forall j, (1 <= j < 22)%nat -> fin (x j) /\ (r j = 0 \/ bpow radix2 (-49) <= r j)) -> natural_gas (fun j => r (S j)) ->
  fin t /\ 270 <= bR t <= 350 -> fin P /\ 1 / 10 <= bR P <= 1200 ->
  let T := bR t in let d0 := bR P / Rg / T in
  exists s e, @gexec (ArithB64 m) New [SetX (A := ArithB64 m) x; Poke (A := ArithB64 m) PT t; Poke (A := ArithB64 m) PP P; Density (A := ArithB64 m) i]
      = Some (s, [OUnit; OUnit; OUnit; ODens (A := ArithB64 m) ROk]) /\
    let d := gread (A := ArithB64 m) PD s in
    fin d /\ Rabs (gpres New r T (bR d) - bR P) <= 1 / 10000000 * bR P /\ Rabs (bR d - e) <= 1 / 10000000 * e /\
    9 / 10 * d0 <= e <= 5 / 4 * d0 /\ gpres New r T e = bR P /\ forall e', 0 < e' <= 7 / 5 * d0 -> gpres New r T e' = bR P -> e' = e.
Proof.
  intros m Hm x t P i Hi r Hx Hg [Ft Ht] [FP HP] T d0. pose proof (medg_start (bR P) T HP Ht) as S1. fold d0 in S1. pose proof (bpow_gt_0 radix2 (-17)) as B0.
  destruct (medg_red x t Hg Ht) as [V W]. assert (Hs : 99 / 100 <= tot 21 (fun j => bR (x (S j))) <= 101 / 100) by apply Hg. pose proof (v_pos x Hx Hs) as VP. change (fun j => bR (x j)) with r in V, W, VP. fold T in W.
  destruct (medg_res (ac r) (tred r / T) (GergEos.ac_ge0 r) (ac_gas x Hx Hg) W) as (f1 & f2 & Hf & HZ).
  assert (Q : forall d, 0 < d <= 7 / 5 * d0 -> 0 < d * vred r <= 8697 / 100000). { intros d Hd. split; [apply Rmult_lt_0_compat; [lra|exact VP]|]. apply Rle_trans with (7 / 5 * (534545 / 1000000) * (1162 / 10000)); [apply Rmult_le_compat; try lra|lra]. }
  apply (tg_double m Hm x t P i Hi Hx Hs) with (f1 := f1) (f2 := f2); trivial.
  - split; [exact Ft|]. lra.
  - fold T. fold d0. lra.
  - fold T. fold d0. pose proof (Q (7 / 5 * d0) ltac:(lra)) as K. change (fun j => bR (x j)) with r. lra.
  - intros d Hd. change (fun j => bR (x j)) with r. pose proof (Q d Hd) as K. pose proof (HZ _ K) as L. lra.
  - intros d Hd. change (fun j => bR (x j)) with r. fold T in Hd. fold d0 in Hd. pose proof (Q d ltac:(lra)) as K. pose proof (HZ _ K) as L.
    assert (d * vred r <= 1001 / 1000 * (534545 / 1000000) * (1162 / 10000)) by (apply Rmult_le_compat; lra). lra.
  - intros d Hd. change (fun j => bR (x j)) with r. fold T. pose proof (Q d Hd) as K.
    pose proof (slope_spread (ac r) (tred r / T) (d * vred r) (GergEos.ac_ge0 r) ltac:(lra)) as S.
    pose proof (gspread2_le (d * vred r) (tred r / T) ltac:(lra) ltac:(lra) (ac r) (ac_gas x Hx Hg)) as G. lra.
Qed.
(* the pressure between two densities *)
Lemma slope_box_g (x : nat -> b64) (t : b64) a b : (forall j, (1 <= j < 22)%nat -> fin (x j) /\ (bR (x j) = 0 \/ bpow radix2 (-49) <= bR (x j))) -> natural_gas (fun j => bR (x (S j))) -> fin t /\ 270 <= bR t <= 350 ->
  0 < a -> a < b -> b <= 7 / 5 * (534545 / 1000000) -> let p := gpres New (fun j => bR (x j)) (bR t) in
  64 / 100 * (Rg * bR t) * (b - a) <= p b - p a <= 108 / 100 * (Rg * bR t) * (b - a).
Proof.
  intros Hx Hg [Ft Ht] Ha Hab Hb p. set (r := fun j => bR (x j)). set (T := bR t) in *. assert (PRg : Rg = 8314472 / 1000000) by reflexivity.
  destruct (medg_red x t Hg Ht) as [V W]. assert (Hs : 99 / 100 <= tot 21 (fun j => bR (x (S j))) <= 101 / 100) by apply Hg. pose proof (v_pos x Hx Hs) as VP. fold r in VP, V, W. fold T in W.
  destruct (medg_res (ac r) (tred r / T) (GergEos.ac_ge0 r) (ac_gas x Hx Hg) W) as (f1 & f2 & Hf & HZ).
  assert (HT : fin t /\ 32 <= bR t <= 2048) by (split; [exact Ft|fold T; lra]).
  destruct (mid_value p (fun d => Rg * T * (1 + f1 (d * vred r) + f2 (d * vred r))) a b Hab) as (c & Hc & E).
  - intros d Hd. apply (GTightLow.tgp_D x t Hx Hs HT f1 f2 Hf p eq_refl). lra.
  - rewrite E. assert (K : 0 < c * vred r <= 8697 / 100000). { split; [apply Rmult_lt_0_compat; [lra|exact VP]|]. apply Rle_trans with (7 / 5 * (534545 / 1000000) * (1162 / 10000)); [apply Rmult_le_compat; try lra|lra]. }
    pose proof (HZ _ K) as [Z1 Z2]. set (z := f1 _) in *. set (w := f2 _) in *. set (v := c * vred r) in *. clearbody z w v.
    assert (Q : 0 < Rg * T * (b - a)) by (apply Rmult_lt_0_compat; [apply Rmult_lt_0_compat|]; lra). replace (Rg * T * (1 + z + w) * (b - a)) with ((1 + z + w) * (Rg * T * (b - a))) by ring.
    assert (64 / 100 <= 1 + z + w <= 108 / 100) by lra. rewrite (Rmult_assoc (64 / 100)), (Rmult_assoc (108 / 100)). split; apply Rmult_le_compat_r; lra.
Qed.
Lemma medg_platform : forall m n, accurate m -> accurate n -> forall (x : nat -> b64) (t P : b64) i k, (i <= 0)%Z -> (k <= 0)%Z -> let r j := bR (x j) in
  (forall j, (1 <= j < 22)%nat -> fin (x j) /\ (r j = 0 \/ bpow radix2 (-49) <= r j)) -> natural_gas (fun j => r (S j)) ->
  fin t /\ 270 <= bR t <= 350 -> fin P /\ 1 / 10 <= bR P <= 1200 ->
  exists s s', @gexec (ArithB64 m) New [SetX (A := ArithB64 m) x; Poke (A := ArithB64 m) PT t; Poke (A := ArithB64 m) PP P; Density (A := ArithB64 m) i]
      = Some (s, [OUnit; OUnit; OUnit; ODens (A := ArithB64 m) ROk]) /\
    @gexec (ArithB64 n) New [SetX (A := ArithB64 n) x; Poke (A := ArithB64 n) PT t; Poke (A := ArithB64 n) PP P; Density (A := ArithB64 n) k]
      = Some (s', [OUnit; OUnit; OUnit; ODens (A := ArithB64 n) ROk]) /\
    let d := gread (A := ArithB64 m) PD s in let d' := gread (A := ArithB64 n) PD s' in
    fin d /\ fin d' /\ Rabs (bR d - bR d') <= 21 / 100000000 * Rmin (bR d) (bR d').
Proof.
  intros m n Hm Hn x t P i k Hi Hk r Hx Hg Ht HP. destruct (medg_gerg m Hm x t P i Hi Hx Hg Ht HP) as (s & e & E & F & _ & A & B & C & U).
  destruct (medg_gerg n Hn x t P k Hk Hx Hg Ht HP) as (s' & e' & E' & F' & _ & A' & B' & C' & U'). exists s, s'. split; [exact E|]. split; [exact E'|].
  assert (S : 0 < bR P / Rg / bR t) by (destruct Ht as [_ Ht], HP as [_ HP]; pose proof (medg_start (bR P) (bR t) HP Ht); pose proof (bpow_gt_0 radix2 (-17)); lra).
  assert (Q : e' = e) by (apply U; [lra|exact C']). subst e'. cbv zeta. split; [exact F|]. split; [exact F'|].
  set (d := bR (gread _ s)) in *. set (d' := bR (gread _ s')) in *. apply Converge.Rabs_le_inv in A, A'. assert (0 < e) by lra. clearbody d d'. apply Rabs_le. apply Rmin_case; lra.
Qed.
Lemma medg_mono : forall m, accurate m -> forall (x : nat -> b64) (t P P' : b64) i k, (i <= 0)%Z -> (k <= 0)%Z -> let r j := bR (x j) in
  (forall j, (1 <= j < 22)%nat -> fin (x j) /\ (r j = 0 \/ bpow radix2 (-49) <= r j)) -> natural_gas (fun j => r (S j)) ->
  fin t /\ 270 <= bR t <= 350 -> fin P /\ 1 / 10 <= bR P -> fin P' /\ (1 + 1 / 1000000) * bR P <= bR P' <= 1200 ->
  exists s s', @gexec (ArithB64 m) New [SetX (A := ArithB64 m) x; Poke (A := ArithB64 m) PT t; Poke (A := ArithB64 m) PP P; Density (A := ArithB64 m) i]
      = Some (s, [OUnit; OUnit; OUnit; ODens (A := ArithB64 m) ROk]) /\
    @gexec (ArithB64 m) New [SetX (A := ArithB64 m) x; Poke (A := ArithB64 m) PT t; Poke (A := ArithB64 m) PP P'; Density (A := ArithB64 m) k]
      = Some (s', [OUnit; OUnit; OUnit; ODens (A := ArithB64 m) ROk]) /\
    let d := gread (A := ArithB64 m) PD s in let d' := gread (A := ArithB64 m) PD s' in
    bR d < bR d' /\ 92 / 100 * (bR P' - bR P) - 1 / 1000000 * bR P' <= Rg * bR t * (bR d' - bR d) <= 157 / 100 * (bR P' - bR P) + 1 / 1000000 * bR P'.
Proof.
  intros m Hm x t P P' i k Hi Hk r Hx Hg Ht HP HP'. destruct HP as [FP HP], HP' as [FP' HP'].
  assert (R1 : 1 / 10 <= bR P <= 1200) by lra. assert (R2 : 1 / 10 <= bR P' <= 1200) by lra.
  destruct (medg_gerg m Hm x t P i Hi Hx Hg Ht (conj FP R1)) as (s & e & E & F & _ & A & B & C & _).
  destruct (medg_gerg m Hm x t P' k Hk Hx Hg Ht (conj FP' R2)) as (s' & e' & E' & F' & _ & A' & B' & C' & _). exists s, s'. split; [exact E|]. split; [exact E'|].
  pose proof (fun a b => slope_box_g x t a b Hx Hg Ht) as SB. cbv zeta in SB. change (fun j => bR (x j)) with r in SB. destruct Ht as [_ Ht]. pose proof (medg_start (bR P) (bR t) ltac:(lra) Ht) as S. pose proof (medg_start (bR P') (bR t) ltac:(lra) Ht) as S'. pose proof (bpow_gt_0 radix2 (-17)) as B0.
  assert (PRg : Rg = 8314472 / 1000000) by reflexivity. set (T := bR t) in *. assert (Q : forall p, p / Rg / T * (Rg * T) = p) by (intros; field; lra). pose proof (Q (bR P)) as Q1. pose proof (Q (bR P')) as Q2. clear Q.
  set (d0 := bR P / Rg / T) in *. set (d0' := bR P' / Rg / T) in *. assert (RT : 0 < Rg * T) by (apply Rmult_lt_0_compat; lra). set (u := Rg * T) in *.
  change (fun j => bR (x j)) with r in C, C'. set (p := gpres New r T) in *. clearbody p.
  assert (L : e < e').
  { destruct (Rtotal_order e e') as [G|[G|G]]; [exact G| |]; exfalso.
    - rewrite G, C' in C. lra.
    - pose proof (SB e' e ltac:(lra) G ltac:(lra)) as [W _]. rewrite C, C' in W. assert (0 < 64 / 100 * u * (e - e')) by (apply Rmult_lt_0_compat; lra). lra. }
  pose proof (SB e e' ltac:(lra) L ltac:(lra)) as W. rewrite C, C' in W. cbv zeta. clear C C' E E' F F' SB.
  set (d := bR (gread _ s)) in *. set (d' := bR (gread _ s')) in *. apply Converge.Rabs_le_inv in A, A'. set (pp := bR P) in *. set (pp' := bR P') in *. clearbody d d' pp pp' d0 d0' u.
  assert (0 < e) by lra. rewrite <- Q1, <- Q2 in *.
  assert (W1 : 64 / 100 * (e' - e) <= d0' - d0) by (apply (Rmult_le_reg_r u); lra). assert (W1' : d0' - d0 <= 108 / 100 * (e' - e)) by (apply (Rmult_le_reg_r u); lra).
  assert (W2 : (1 + 1 / 1000000) * d0 <= d0') by (apply (Rmult_le_reg_r u); lra). assert (V : d < d') by lra. split; [exact V|].
  assert (V1 : 92 / 100 * (d0' - d0) - 1 / 1000000 * d0' <= d' - d) by lra. assert (V2 : d' - d <= 157 / 100 * (d0' - d0) + 1 / 1000000 * d0') by lra.
  apply (Rmult_le_compat_l u) in V1, V2; lra.
Qed.
Lemma medg_ok : let r j := bR (match j with O => B0 | S k => gas5 k end) in
  (forall j, (1 <= j < 22)%nat -> fin (match j with O => B0 | S k => gas5 k end) /\ (r j = 0 \/ bpow radix2 (-49) <= r j)) /\ natural_gas (fun j => r (S j)) /\
  (fin (bofZ 288) /\ 270 <= bR (bofZ 288) <= 350) /\ (fin (bofZ 1100) /\ 1 / 10 <= bR (bofZ 1100) <= 1200) /\ (1 + 1 / 1000000) * bR (bofZ 1100) <= bR (bofZ 1150) <= 1200.
Proof. destruct gas5g_ok as (A & B & C & _). split; [exact A|]. split; [exact B|]. split; [exact C|]. rewrite !ofZ_R by reflexivity. split; [split; [reflexivity|lra]|lra]. Qed.
