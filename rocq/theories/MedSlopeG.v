(* The GERG-2008 pressure of a natural gas up to 1.0 MPa with its slopes in density and temperature, with their signs. *)
From Coq Require Import Reals ZArith List Bool Lra Lia Psatz.
From Coquelicot Require Import Coquelicot.
From Flocq Require Import Core BinarySingleNaN.
From Verif Require Import FArith Prelude ArithB64 B64Lemmas ArithR StdGerg GergTables StdGergProof GAccEos SpecB64 SpecStd SpecGas SpecAcc SpecConv SpecGerg SpecReal SpecGeneric SpecHistory GergEos GergModel Api AccLibm ConvDetail ConvGerg GDensProof GConvLow GasRed2 GasRed3 MedCaseG GasGergT.
From Verif Require GasPropsG.
Import ListNotations.
Local Open Scope R_scope.

Section P.
Variable x : nat -> b64.
Local Notation r := (fun j => bR (x j)).
Hypothesis Hx : forall j, (1 <= j < 22)%nat -> fin (x j) /\ (bR (x j) = 0 \/ bpow radix2 (-49) <= bR (x j)).
Hypothesis Hg : natural_gas (fun j => bR (x (S j))).
Lemma red_real T : 270 <= T <= 350 -> 0 <= vred r <= 1162 / 10000 /\ 3765 / 10000 <= tred r / T <= 93964 / 100000.
Proof.
  intros Ht. assert (N : forall i j, (1 <= i <= j)%nat -> (j < 22)%nat -> near (tb2 G_GVIJ i j) (v_red i j) /\ near (tb2 G_GTIJ i j) (t_red i j) /\ near (tb2 G_BTIJ i j) (b_red i j)) by (intros i j Hi Hj; split; [now apply v_std|split; [now apply t_std|now apply b_std]]).
  pose proof (vol_le r Hg _ _ _ N) as V. pose proof (tmp_le r Hg _ _ _ N) as U. pose proof (tmp_ge r Hg _ _ (fun i j Hi Hj => proj2 (N i j Hi Hj))) as W. rewrite vred_std in V. rewrite tred_std in U, W. split; [exact V|].
  assert (PT : 0 < / T) by (apply Rinv_0_lt_compat; lra). set (w := tred r) in *. clearbody w. split; apply (Rmult_le_reg_r T); try lra; unfold Rdiv; rewrite (Rmult_assoc w), Rinv_l by lra; lra.
Qed.
(* pressure and its two slopes *)
Lemma gp_slopes T d : 270 <= T <= 350 -> 0 < d <= 5569 / 10000 -> exists z w u, gpres New r T d = d * Rg * T * (1 + z) /\
    is_derive (gpres New r T) d (Rg * T * (1 + z + w)) /\ is_derive (fun T => gpres New r T d) T (d * Rg * (1 + z - u)) /\
    - (13197 / 100000) <= z <= 285 / 10000 /\ - (13197 / 100000) <= w <= 285 / 10000 /\ - (338 / 1000) <= u <= 696 / 10000.
Proof.
  intros HT Hd. assert (Hs : 99 / 100 <= tot 21 (fun j => bR (x (S j))) <= 101 / 100) by apply Hg.
  destruct (red_real T HT) as [Vr TA]. pose proof (GasPropsG.tr x Hg) as Tr.
  pose proof (GDensProof.v_pos x Hx Hs) as Vp. pose proof (gpres_res x Hx Hs) as PR.
  destruct (mixed_range (ac r) (GergEos.ac_ge0 r) (ac_gas x Hx Hg)) as (f1 & g & M & MB).
  destruct (medg_res (ac r) (tred r / T) (GergEos.ac_ge0 r) (ac_gas x Hx Hg) TA) as (h1 & h2 & H & HZ).
  set (v := vred r) in *. set (tr0 := tred r) in *.
  assert (DV : 0 < d * v <= 6472 / 100000) by (split; [apply Rmult_lt_0_compat; lra|]; apply Rle_trans with (5569 / 10000 * (1162 / 10000)); [apply Rmult_le_compat; lra|lra]).
  assert (PE : forall T d, 1 / 10000000 < T -> 0 < d -> gpres New r T d = d * Rg * T * (1 + f1 (d * v) (tr0 / T))).
  { intros T' d' HT' Hd'. destruct (PR T' HT' d') as (a & Da & E). rewrite E. assert (EV : 0 < d' * v) by (apply Rmult_lt_0_compat; lra).
    assert (ET : 0 < tr0 / T') by (apply Rdiv_lt_0_compat; lra). destruct (M _ _ EV ET) as (D & _).
    assert (Ea : a = f1 (d' * v) (tr0 / T') / (d' * v)) by (rewrite <- (is_derive_unique _ _ _ Da); exact (is_derive_unique _ _ _ D)). rewrite Ea. f_equal. f_equal. field. lra. }
  assert (EQ : forall e, 0 < e -> h1 e = f1 e (tr0 / T)).
  { intros e He. destruct (H e He) as (D1 & _). destruct (M e (tr0 / T) He ltac:(lra)) as (D2 & _).
    assert (Q : h1 e / e = f1 e (tr0 / T) / e) by (rewrite <- (is_derive_unique _ _ _ D1); exact (is_derive_unique _ _ _ D2)).
    apply (Rmult_eq_reg_r (/ e)); [exact Q|]. apply Rinv_neq_0_compat. lra. }
  destruct (H _ (proj1 DV)) as (_ & D2). assert (DV' : 0 < d * v <= 8697 / 100000) by lra. destruct (HZ _ DV') as [C1 C2]. assert (TP : 0 < tr0 / T) by lra. destruct (M _ _ (proj1 DV) TP) as (_ & DT). pose proof (MB _ _ DV TA) as CT.
  assert (PRg : Rg = 8314472 / 1000000) by reflexivity. rewrite (EQ _ (proj1 DV)) in C1.
  exists (f1 (d * v) (tr0 / T)), (h2 (d * v)), (g (d * v) (tr0 / T)). split; [apply PE; lra|].
  split; [|split; [|set (e := d * v) in *; set (z := f1 _ _) in *; set (w := h2 _) in *; set (u := g _ _) in *; clearbody e z w u; lra]].
  - apply (is_derive_ext_loc (fun e => Rg * T * (e * (1 + h1 (e * v))))).
    + exists (mkposreal d (proj1 Hd)). intros e He. unfold ball in He; cbn in He. unfold AbsRing_ball, abs, minus, plus, opp in He; cbn in He. apply Rabs_def2 in He.
      rewrite (PE T e) by lra. rewrite EQ by (apply Rmult_lt_0_compat; lra). toR; ring.
    + apply is_derive_scal. evar_last; [apply (@is_derive_mult R_AbsRing); [apply is_derive_id|apply (@is_derive_plus R_AbsRing R_NormedModule); [apply is_derive_const|]|intros; apply Rmult_comm]|].
      { apply (is_derive_comp h1 (fun e => e * v)); [exact D2|]. apply (is_derive_ext (fun e => v * e)); [intros; apply Rmult_comm|]. apply is_derive_scal, is_derive_id. }
      unfold plus, mult, one, zero, scal; cbn. unfold mult; cbn. rewrite (EQ _ (proj1 DV)). toR. field. lra.
  - apply (is_derive_ext_loc (fun e => d * Rg * (e * (1 + f1 (d * v) (tr0 / e))))).
    + assert (T2 : 0 < T / 2) by lra. exists (mkposreal (T / 2) T2). intros e He. unfold ball in He; cbn in He. unfold AbsRing_ball, abs, minus, plus, opp in He; cbn in He. apply Rabs_def2 in He.
      rewrite (PE e d) by lra. toR; ring.
    + apply is_derive_scal. evar_last; [apply (@is_derive_mult R_AbsRing); [apply is_derive_id|apply (@is_derive_plus R_AbsRing R_NormedModule); [apply is_derive_const|]|intros; apply Rmult_comm]|].
      { apply (is_derive_comp (fun tau => f1 (d * v) tau) (fun e => tr0 / e)); [exact DT|]. auto_derive; [lra|reflexivity]. }
      unfold plus, mult, one, zero, scal; cbn. unfold mult; cbn. toR. field. lra.
Qed.
End P.
