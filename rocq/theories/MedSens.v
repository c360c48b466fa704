(* How the density that density() finds follows pressure and temperature, natural gas up to 1.2 MPa with DETAIL. *)
From Coq Require Import Reals ZArith List Lra Lia.
From Coquelicot Require Import Coquelicot.
From Flocq Require Import Core BinarySingleNaN.
From Verif Require Import FArith Prelude Composition ArithB64 B64Lemmas ArithR SpecB64 SpecStd SpecGas SpecAcc SpecReal SpecSession SpecSens SpecMedSens SpecConv DetailModel Api AccLibm ConvDetail SlopeReal MedCase Session SensCore SensDetail Sens MedSlope.
From Verif Require MedProps.
Import ListNotations.
Local Open Scope R_scope.
Local Notation RR := (831451 / 100000).

Lemma slope_le2 g z w e lo : 0 < g -> lo <= 1 + z -> 0 < lo -> Rabs w <= e * lo -> 0 <= e -> 0 < g * (1 + z) /\ Rabs (g * (1 + z + w) - g * (1 + z)) <= e * (g * (1 + z)).
Proof.
  intros G Z L W E. split; [apply Rmult_lt_0_compat; lra|]. replace (g * (1 + z + w) - g * (1 + z)) with (g * w) by ring. rewrite Rabs_mult, (Rabs_pos_eq g) by lra.
  replace (e * (g * (1 + z))) with (g * (e * (1 + z))) by ring. apply Rmult_le_compat_l; [lra|]. apply Rle_trans with (1 := W). apply Rmult_le_compat_l; lra.
Qed.
Lemma med_sens x T1 T2 d1 d2 : natural_gas x -> 270 <= T1 <= 350 -> 270 <= T2 <= 350 -> 0 < d1 <= 669 / 1000 -> 0 < d2 <= 669 / 1000 ->
  Rabs (ln d2 - ln d1 - (ln (detail_p x T2 d2) - ln (detail_p x T1 d1) - (ln T2 - ln T1))) <= 108 / 1000 * Rabs (ln d2 - ln d1) + 259 / 1000 * Rabs (ln T2 - ln T1).
Proof.
  intros Hx H1 H2 G1 G2.
  assert (Q : forall T d, 270 <= T <= 350 -> 0 < d <= 669 / 1000 -> 0 < detail_p x T d /\
    (exists q, is_derive (detail_p x T) d q /\ Rabs (d * q - detail_p x T d) <= 108 / 1000 * detail_p x T d) /\
    (exists q, is_derive (fun T => detail_p x T d) T q /\ Rabs (T * q - detail_p x T d) <= 259 / 1000 * detail_p x T d)).
  { intros T d HT Hd. destruct (MedProps.zq_range x Hx T d HT Hd) as [Z0 _]. pose proof (MedProps.w_range x Hx T d HT Hd) as W. pose proof (zt_range x Hx T d HT Hd) as V.
    pose proof (p_derive x T d ltac:(lra)) as P1. pose proof (p_T x T d ltac:(lra)) as P2. pose proof (p_eq x T d) as E. change (tot 58 _) with (z0 x T d) in E.
    assert (EZ : detail_Z x T d = 1 + z0 x T d) by (rewrite Z_sum; reflexivity). rewrite EZ in *.
    set (z := z0 x T d) in *. set (w := d * Z1 x T d) in *. set (v := zt x T d) in *. clearbody z w v.
    assert (G : 0 < RR * T * d) by (apply Rmult_lt_0_compat; lra). replace (RR * T * (d * (1 + z))) with (RR * T * d * (1 + z)) in E by ring.
    assert (AW : Rabs w <= 108 / 1000 * (902 / 1000)) by (apply Rabs_le; lra). assert (AV : Rabs v <= 259 / 1000 * (902 / 1000)) by (apply Rabs_le; lra).
    destruct (slope_le2 (RR * T * d) z w (108 / 1000) (902 / 1000) G) as [S1 S2]; [lra..|]. destruct (slope_le2 (RR * T * d) z v (259 / 1000) (902 / 1000) G) as [_ S3]; [lra..|].
    rewrite E. split; [exact S1|]. split.
    - eexists. split; [exact P1|]. replace (d * (RR * T * (1 + z + w))) with (RR * T * d * (1 + z + w)) by ring. exact S2.
    - exists (RR * d * (1 + z + v)). split; [exact P2|]. replace (T * (RR * d * (1 + z + v))) with (RR * T * d * (1 + z + v)) by ring. exact S3. }
  exact (sens (detail_p x) 270 350 (669 / 1000) (108 / 1000) (259 / 1000) ltac:(lra)
    (fun T d HT Hd => proj1 (Q T d HT Hd)) (fun T d HT Hd => proj1 (proj2 (Q T d HT Hd))) (fun T d HT Hd => proj2 (proj2 (Q T d HT Hd))) T1 T2 d1 d2 H1 H2 G1 G2).
Qed.
Lemma combine2 ek eh l l' a b ca cb : 0 <= ek <= 1 / 2 -> 0 <= eh -> Rabs (l - (a - b)) <= ek * Rabs l + eh * Rabs b -> Rabs (l' - l) <= 22 / 100000000 ->
  ek <= ca * (1 - ek) -> eh + ek <= cb * (1 - ek) -> Rabs (l' - (a - b)) <= ca * Rabs a + cb * Rabs b + 1 / 4000000.
Proof.
  intros E1 E2 H N Ca Cb.
  assert (L : (1 - ek) * Rabs l <= Rabs a + (1 + eh) * Rabs b).
  { assert (Rabs l <= Rabs (l - (a - b)) + Rabs (a - b)) by (replace l with ((l - (a - b)) + (a - b)) at 1 by ring; apply Rabs_triang).
    assert (Rabs (a - b) <= Rabs a + Rabs b) by (unfold Rminus; rewrite <- (Rabs_Ropp b); apply Rabs_triang). lra. }
  assert (M : Rabs (l' - (a - b)) <= Rabs (l' - l) + Rabs (l - (a - b))) by (replace (l' - (a - b)) with ((l' - l) + (l - (a - b))) by ring; apply Rabs_triang).
  pose proof (Rabs_pos a) as Pa. pose proof (Rabs_pos b) as Pb. pose proof (Rabs_pos l) as Pl. set (A := Rabs a) in *. set (B := Rabs b) in *. set (X := Rabs l) in *. clearbody A B X.
  assert (ek * X + eh * B <= ca * A + cb * B).
  { apply (Rmult_le_reg_l (1 - ek)); [lra|]. assert (ek * ((1 - ek) * X) <= ek * (A + (1 + eh) * B)) by (apply Rmult_le_compat_l; lra).
    assert (ek * A <= ca * (1 - ek) * A) by (apply Rmult_le_compat_r; lra). assert ((eh + ek) * B <= cb * (1 - ek) * B) by (apply Rmult_le_compat_r; lra). nra. }
  lra.
Qed.
Lemma follow_of2 ek eh ca cb T1 P1 d1 e1 T2 P2 d2 e2 : 0 <= ek <= 1 / 2 -> 0 <= eh -> ek <= ca * (1 - ek) -> eh + ek <= cb * (1 - ek) -> 0 < T1 -> 0 < T2 -> 0 < P1 -> 0 < P2 -> 0 < e1 -> 0 < e2 ->
  Rabs (ln e2 - ln e1 - (ln P2 - ln P1 - (ln T2 - ln T1))) <= ek * Rabs (ln e2 - ln e1) + eh * Rabs (ln T2 - ln T1) ->
  Rabs (d1 - e1) <= 1 / 10000000 * e1 -> Rabs (d2 - e2) <= 1 / 10000000 * e2 -> 0 < d1 /\ 0 < d2 /\ follows ca cb T1 P1 d1 T2 P2 d2.
Proof.
  intros K1 K2 Ca Cb A1 A2 A3 A4 A5 A6 H N1 N2. destruct (ln_near _ _ A5 N1) as [D1 L1]. destruct (ln_near _ _ A6 N2) as [D2 L2]. split; [exact D1|]. split; [exact D2|].
  unfold follows. rewrite !ln_ratio by assumption. refine (combine2 ek eh (ln e2 - ln e1) _ _ _ ca cb K1 K2 H _ Ca Cb).
  replace (ln d2 - ln d1 - (ln e2 - ln e1)) with ((ln d2 - ln e2) - (ln d1 - ln e1)) by ring. unfold Rminus at 1. eapply Rle_trans; [apply Rabs_triang|]. rewrite Rabs_Ropp. lra.
Qed.
Lemma follows_order2 ca cb T1 P1 d1 T2 P2 d2 : 0 <= ca <= 7 / 10 -> 0 <= cb <= 7 / 10 -> 0 < T1 -> 0 < T2 -> 0 < P1 -> 0 < P2 -> 0 < d1 -> 0 < d2 ->
  follows ca cb T1 P1 d1 T2 P2 d2 -> denser T1 P1 T2 P2 -> d1 < d2.
Proof.
  intros Ca Cb A1 A2 A3 A4 A5 A6 H D. unfold follows in H.
  assert (G : forall u v c, 0 < u -> u * c <= v -> c <= v / u). { intros u v c Hu Hv. apply (Rmult_le_reg_l u); [exact Hu|]. replace (u * (v / u)) with v by (field; lra). exact Hv. }
  assert (R : ln (T2 / T1) = - ln (T1 / T2)) by (rewrite !ln_ratio by assumption; ring). rewrite R in H. rewrite Rabs_Ropp in H.
  assert (X : 0 <= ln (P2 / P1) /\ 0 <= ln (T1 / T2) /\ 9 / 10000000 <= ln (P2 / P1) + ln (T1 / T2)).
  { destruct D as [[D1 D2]|[D1 D2]].
    - pose proof (ln_up _ (G P1 P2 _ A3 D1)). pose proof (ln_ge1 _ (G T2 T1 1 A2 ltac:(lra))). lra.
    - pose proof (ln_up _ (G T2 T1 _ A2 D2)). pose proof (ln_ge1 _ (G P1 P2 1 A3 ltac:(lra))). lra. }
  set (a := ln (P2 / P1)) in *. set (b := ln (T1 / T2)) in *. clearbody a b. rewrite (Rabs_pos_eq a), (Rabs_pos_eq b) in H by lra. apply Raux.Rabs_le_inv in H.
  assert (ca * a <= 7 / 10 * a) by (apply Rmult_le_compat_r; lra). assert (cb * b <= 7 / 10 * b) by (apply Rmult_le_compat_r; lra).
  assert (L : 0 < ln (d2 / d1)) by lra. rewrite ln_ratio in L by assumption. apply ln_lt_inv; lra.
Qed.

Section D.
Variable m : Libm.
Variable A : accurate m.
Local Notation B := (ArithB64 m).
Variable c : @Composition B.
Hypothesis Hc : gas_comp m c.
Local Notation xd := (fun j => nth j (bfractions m c) B0).
Lemma line_measure i t P : line_range t P -> exists s e, @dexec B Api.New (measure (A := B) i c t P) = Some (s, measured (A := B)) /\ fin (dread (A := B) PD s) /\
  0 < e <= 669 / 1000 /\ detail_p (fun j => bR (xd j)) (bR t) e = bR P /\ Rabs (bR (dread (A := B) PD s) - e) <= 1 / 10000000 * e.
Proof.
  intros [Ht [FP HP]]. destruct Hc as (Hx & Hg & Hs).
  destruct (med_detail m A xd t P i) as (s & e & E & Fd & _ & N & Re & Pe & _); try assumption.
  { intros j Hj. destruct (Hx j Hj) as [F [Z|Z]]; split; try exact F; [now left|right]. apply Rle_trans with (2 := Z). apply bpow_le. lia. }
  { split; [exact FP|lra]. }
  exists s, e. split; [apply (dset_comp (A := B) c xd); [exact (gas_check m c Hc)|reflexivity|exact E]|]. split; [exact Fd|]. split; [|split; [exact Pe|exact N]].
  destruct Ht as [_ Ht]. assert (S : bR P / RR / bR t * (RR * bR t) = bR P) by (field; lra). set (d0 := bR P / RR / bR t) in *. clearbody d0. cbv zeta in Re. split; nra.
Qed.
Lemma line_follows i j t1 P1 t2 P2 : line_range t1 P1 -> line_range t2 P2 ->
  exists s1 s2, @dexec B Api.New (measure (A := B) i c t1 P1) = Some (s1, measured (A := B)) /\ @dexec B Api.New (measure (A := B) j c t2 P2) = Some (s2, measured (A := B)) /\
    let d1 := dread (A := B) PD s1 in let d2 := dread (A := B) PD s2 in fin d1 /\ fin d2 /\ 0 < bR d1 /\ 0 < bR d2 /\
    follows (122 / 1000) (412 / 1000) (bR t1) (bR P1) (bR d1) (bR t2) (bR P2) (bR d2) /\ (denser (bR t1) (bR P1) (bR t2) (bR P2) -> bR d1 < bR d2).
Proof.
  intros G1 G2. destruct (line_measure i t1 P1 G1) as (s1 & e1 & E1 & F1 & R1 & Q1 & N1). destruct (line_measure j t2 P2 G2) as (s2 & e2 & E2 & F2 & R2 & Q2 & N2).
  exists s1, s2. split; [exact E1|]. split; [exact E2|]. cbv zeta. split; [exact F1|]. split; [exact F2|]. clear E1 E2 F1 F2.
  set (d1 := dread PD s1) in *. set (d2 := dread PD s2) in *. clearbody d1 d2. destruct G1 as [[_ T1] [_ Pr1]]. destruct G2 as [[_ T2] [_ Pr2]].
  pose proof (med_sens (fun j => bR (xd j)) (bR t1) (bR t2) e1 e2 (proj1 (proj2 Hc)) T1 T2 R1 R2) as S. cbv beta in S. rewrite Q1, Q2 in S.
  destruct (follow_of2 (108 / 1000) (259 / 1000) (122 / 1000) (412 / 1000) (bR t1) (bR P1) (bR d1) e1 (bR t2) (bR P2) (bR d2) e2) as (D1 & D2 & Fo); trivial; [lra..|].
  split; [exact D1|]. split; [exact D2|]. split; [exact Fo|]. intros De. apply (follows_order2 (122 / 1000) (412 / 1000) (bR t1) (bR P1) (bR d1) (bR t2) (bR P2) (bR d2)); trivial; lra.
Qed.
End D.
