(* How the density that density() finds follows pressure and temperature, natural gas near base conditions. *)
From Coq Require Import Reals ZArith List Lra Lia.
From Flocq Require Import Core BinarySingleNaN.
From Verif Require Import FArith Prelude Composition ArithB64 B64Lemmas ArithR SpecB64 SpecStd SpecGas SpecAcc SpecGerg SpecReal SpecHistory SpecSession SpecSens DetailModel GergModel Api AccLibm GasCase Session SensCore SensDetail SensGerg.
Import ListNotations.
Local Open Scope R_scope.
Local Notation RR := (831451 / 100000).

Lemma sol_range R0 P T e : 831 / 100 <= R0 <= 832 / 100 -> 8314471 / 1000000 <= R0 -> 1 / 10 <= P <= 110 -> 270 <= T <= 350 -> let d0 := P / R0 / T in 7 / 8 * d0 <= e <= 7 / 6 * d0 -> 0 < e <= 573 / 10000.
Proof.
  intros H1 H2 HP HT d0 He. pose proof (start_top R0 P T H2 ltac:(lra) ltac:(lra)) as S. fold d0 in S. clearbody d0. lra.
Qed.
Lemma follow_of ek eh ca cb T1 P1 d1 e1 T2 P2 d2 e2 : 0 <= ek <= 1 / 10 -> 0 <= eh -> ek <= ca * (1 - ek) -> eh + ek <= cb * (1 - ek) -> 0 < T1 -> 0 < T2 -> 0 < P1 -> 0 < P2 -> 0 < e1 -> 0 < e2 ->
  Rabs (ln e2 - ln e1 - (ln P2 - ln P1 - (ln T2 - ln T1))) <= ek * Rabs (ln e2 - ln e1) + eh * Rabs (ln T2 - ln T1) ->
  Rabs (d1 - e1) <= 1 / 10000000 * e1 -> Rabs (d2 - e2) <= 1 / 10000000 * e2 -> 0 < d1 /\ 0 < d2 /\ follows ca cb T1 P1 d1 T2 P2 d2.
Proof.
  intros K1 K2 Ca Cb A1 A2 A3 A4 A5 A6 H N1 N2. destruct (ln_near _ _ A5 N1) as [D1 L1]. destruct (ln_near _ _ A6 N2) as [D2 L2]. split; [exact D1|]. split; [exact D2|].
  unfold follows. rewrite !ln_ratio by assumption. refine (combine ek eh (ln e2 - ln e1) _ _ _ ca cb K1 K2 H _ Ca Cb).
  replace (ln d2 - ln d1 - (ln e2 - ln e1)) with ((ln d2 - ln e2) - (ln d1 - ln e1)) by ring. unfold Rminus at 1. eapply Rle_trans; [apply Rabs_triang|]. rewrite Rabs_Ropp. lra.
Qed.
Lemma ln_up y : 1 + 1 / 1000000 <= y -> 9 / 10000000 <= ln y.
Proof.
  intros H. assert (0 < / y) by (apply Rinv_0_lt_compat; lra). assert (E : / y = 1 - (y - 1) / y) by (field; lra).
  assert (Q : forall z, 0 < z -> ln z <= z - 1).
  { intros z Hz. pose proof (exp_ineq1_le (z - 1)) as X. replace (1 + (z - 1)) with z in X by ring. destruct X as [X|X]; [|rewrite X, ln_exp; lra].
    left. apply Rlt_le_trans with (ln (exp (z - 1))); [now apply ln_increasing|rewrite ln_exp; lra]. }
  pose proof (Q (/ y) ltac:(lra)) as X. rewrite ln_Rinv in X by lra. assert (/ y <= / (1 + 1 / 1000000)) by (apply Rinv_le_contravar; lra). lra.
Qed.
Lemma ln_ge1 y : 1 <= y -> 0 <= ln y.
Proof. intros [H|<-]; [|rewrite ln_1; lra]. rewrite <- ln_1. left. apply ln_increasing; lra. Qed.
Lemma follows_order ca cb T1 P1 d1 T2 P2 d2 : 0 <= ca <= 1 / 5 -> 0 <= cb <= 1 / 5 -> 0 < T1 -> 0 < T2 -> 0 < P1 -> 0 < P2 -> 0 < d1 -> 0 < d2 ->
  follows ca cb T1 P1 d1 T2 P2 d2 -> denser T1 P1 T2 P2 -> d1 < d2.
Proof.
  intros Ca Cb A1 A2 A3 A4 A5 A6 H D. unfold follows in H.
  assert (G : forall u v c, 0 < u -> u * c <= v -> c <= v / u). { intros u v c Hu Hv. apply (Rmult_le_reg_l u); [exact Hu|]. replace (u * (v / u)) with v by (field; lra). exact Hv. }
  assert (R : ln (T2 / T1) = - ln (T1 / T2)) by (rewrite !ln_ratio by assumption; ring). rewrite R in H. rewrite Rabs_Ropp in H.
  assert (X : 0 <= ln (P2 / P1) /\ 0 <= ln (T1 / T2) /\ 9 / 10000000 <= ln (P2 / P1) + ln (T1 / T2)).
  { destruct D as [[D1 D2]|[D1 D2]].
    - pose proof (ln_up _ (G P1 P2 _ A3 D1)). pose proof (ln_ge1 _ (G T2 T1 1 A2 ltac:(lra))). lra.
    - pose proof (ln_up _ (G T2 T1 _ A2 D2)). pose proof (ln_ge1 _ (G P1 P2 1 A3 ltac:(lra))). lra. }
  set (a := ln (P2 / P1)) in *. set (b := ln (T1 / T2)) in *. clearbody a b. rewrite (Rabs_pos_eq a), (Rabs_pos_eq b) in H by lra. apply Raux.Rabs_le_inv in H.
  assert (ca * a <= 1 / 5 * a) by (apply Rmult_le_compat_r; lra). assert (cb * b <= 1 / 5 * b) by (apply Rmult_le_compat_r; lra).
  assert (L : 0 < ln (d2 / d1)) by lra. rewrite ln_ratio in L by assumption. apply ln_lt_inv; lra.
Qed.

Section D.
Variable m : Libm.
Variable A : accurate m.
Local Notation B := (ArithB64 m).
Variable c : @Composition B.
Hypothesis Hc : gas_comp m c.
Local Notation xd := (fun j => nth j (bfractions m c) B0).
Lemma dmeasure i t P : gas_range t P -> exists s e, @dexec B Api.New (measure (A := B) i c t P) = Some (s, measured (A := B)) /\ fin (dread (A := B) PD s) /\
  0 < e <= 573 / 10000 /\ detail_p (fun j => bR (xd j)) (bR t) e = bR P /\ Rabs (bR (dread (A := B) PD s) - e) <= 1 / 10000000 * e.
Proof.
  intros [Ht HP]. destruct Hc as (Hx & Hg & Hs).
  destruct (gas_detail m A xd t P i) as (s & e & E & Fd & _ & N & Re & Pe & _); try assumption.
  { intros j Hj. destruct (Hx j Hj) as [F [Z|Z]]; split; try exact F; [now left|right]. apply Rle_trans with (2 := Z). apply bpow_le. lia. }
  exists s, e. split; [apply (dset_comp (A := B) c xd); [exact (gas_check m c Hc)|reflexivity|exact E]|]. split; [exact Fd|]. split; [|split; [exact Pe|exact N]].
  apply (sol_range RR (bR P) (bR t)); try apply Ht; try apply HP; try exact Re; lra.
Qed.
Local Notation xg := (fun j => match j with O => B0 | S k => nth k (bfractions m c) B0 end).
Lemma gmeasure i t P : (i <= 0)%Z -> gas_range t P -> exists s e, @gexec B Api.New (measure (A := B) i c t P) = Some (s, measured (A := B)) /\ fin (gread (A := B) PD s) /\
  0 < e <= 573 / 10000 /\ gpres Api.New (fun j => bR (xg j)) (bR t) e = bR P /\ Rabs (bR (gread (A := B) PD s) - e) <= 1 / 10000000 * e.
Proof.
  intros Hi [Ht HP]. destruct Hc as (Hx & Hg & Hs). assert (PRg : Rg = 8314472 / 1000000) by reflexivity.
  destruct (gas_gerg m A xg t P i Hi) as (s & e & E & Fd & _ & N & Re & Pe & _); try assumption.
  { intros [|j] Hj; [lia|]. apply (Hx j). lia. }
  exists s, e. split; [apply (gset_comp (A := B) c xg); [exact (gas_check m c Hc)|reflexivity|exact E]|]. split; [exact Fd|]. split; [|split; [exact Pe|exact N]].
  apply (sol_range Rg (bR P) (bR t)); try apply Ht; try apply HP; try exact Re; lra.
Qed.
Lemma detail_follows i j t1 P1 t2 P2 : gas_range t1 P1 -> gas_range t2 P2 ->
  exists s1 s2, @dexec B Api.New (measure (A := B) i c t1 P1) = Some (s1, measured (A := B)) /\ @dexec B Api.New (measure (A := B) j c t2 P2) = Some (s2, measured (A := B)) /\
    let d1 := dread (A := B) PD s1 in let d2 := dread (A := B) PD s2 in fin d1 /\ fin d2 /\ 0 < bR d1 /\ 0 < bR d2 /\
    follows (37 / 1000) (187 / 1000) (bR t1) (bR P1) (bR d1) (bR t2) (bR P2) (bR d2) /\ (denser (bR t1) (bR P1) (bR t2) (bR P2) -> bR d1 < bR d2).
Proof.
  intros G1 G2. destruct (dmeasure i t1 P1 G1) as (s1 & e1 & E1 & F1 & R1 & Q1 & N1). destruct (dmeasure j t2 P2 G2) as (s2 & e2 & E2 & F2 & R2 & Q2 & N2).
  exists s1, s2. split; [exact E1|]. split; [exact E2|]. cbv zeta. split; [exact F1|]. split; [exact F2|]. clear E1 E2 F1 F2.
  set (d1 := dread PD s1) in *. set (d2 := dread PD s2) in *. clearbody d1 d2. destruct G1 as [[_ T1] [_ Pr1]]. destruct G2 as [[_ T2] [_ Pr2]].
  pose proof (detail_sens (fun j => bR (xd j)) (bR t1) (bR t2) e1 e2 (proj1 (proj2 Hc)) T1 T2 R1 R2) as (_ & _ & S). rewrite Q1, Q2 in S.
  destruct (follow_of (348 / 10000) (145 / 1000) (37 / 1000) (187 / 1000) (bR t1) (bR P1) (bR d1) e1 (bR t2) (bR P2) (bR d2) e2) as (D1 & D2 & Fo); trivial; [lra..|].
  split; [exact D1|]. split; [exact D2|]. split; [exact Fo|]. intros De. apply (follows_order (37 / 1000) (187 / 1000) (bR t1) (bR P1) (bR d1) (bR t2) (bR P2) (bR d2)); trivial; lra.
Qed.
Lemma gerg_follows i j t1 P1 t2 P2 : (i <= 0)%Z -> (j <= 0)%Z -> gas_range t1 P1 -> gas_range t2 P2 ->
  exists s1 s2, @gexec B Api.New (measure (A := B) i c t1 P1) = Some (s1, measured (A := B)) /\ @gexec B Api.New (measure (A := B) j c t2 P2) = Some (s2, measured (A := B)) /\
    let d1 := gread (A := B) PD s1 in let d2 := gread (A := B) PD s2 in fin d1 /\ fin d2 /\ 0 < bR d1 /\ 0 < bR d2 /\
    follows (42 / 1000) (101 / 1000) (bR t1) (bR P1) (bR d1) (bR t2) (bR P2) (bR d2) /\ (denser (bR t1) (bR P1) (bR t2) (bR P2) -> bR d1 < bR d2).
Proof.
  intros Hi Hj G1 G2. destruct (gmeasure i t1 P1 Hi G1) as (s1 & e1 & E1 & F1 & R1 & Q1 & N1). destruct (gmeasure j t2 P2 Hj G2) as (s2 & e2 & E2 & F2 & R2 & Q2 & N2).
  exists s1, s2. split; [exact E1|]. split; [exact E2|]. cbv zeta. split; [exact F1|]. split; [exact F2|]. clear E1 E2 F1 F2.
  set (d1 := gread PD s1) in *. set (d2 := gread PD s2) in *. clearbody d1 d2. destruct G1 as [[_ T1] [_ Pr1]]. destruct G2 as [[_ T2] [_ Pr2]].
  destruct Hc as (Hx & Hg & _).
  assert (Hx' : forall j, (1 <= j < 22)%nat -> fin (xg j) /\ (bR (xg j) = 0 \/ bpow radix2 (-49) <= bR (xg j))) by (intros [|k] Hk; [lia|]; apply (Hx k); lia).
  pose proof (gerg_sens xg Hx' Hg (bR t1) (bR t2) e1 e2 T1 T2 R1 R2) as (_ & _ & S). rewrite Q1, Q2 in S.
  destruct (follow_of (396 / 10000) (569 / 10000) (42 / 1000) (101 / 1000) (bR t1) (bR P1) (bR d1) e1 (bR t2) (bR P2) (bR d2) e2) as (D1 & D2 & Fo); trivial; [lra..|].
  split; [exact D1|]. split; [exact D2|]. split; [exact Fo|]. intros De. apply (follows_order (42 / 1000) (101 / 1000) (bR t1) (bR P1) (bR d1) (bR t2) (bR P2) (bR d2)); trivial; lra.
Qed.
End D.
