(* The GERG-2008 pressure of a natural gas near base conditions is nearly that of an ideal gas, with its slopes. *)
From Coq Require Import Reals ZArith List Bool Lra Lia Psatz.
From Coquelicot Require Import Coquelicot.
From Flocq Require Import Core BinarySingleNaN.
From Verif Require Import FArith Prelude ArithB64 B64Lemmas ArithR StdGerg SpecStd SpecGas SpecConv SpecGerg SpecReal SpecHistory SpecAll GergEos GergModel Api ConvDetail ConvGerg GDensProof GConvLow GasRed2 GasSumG GasPropsG SensCore SensDetail.
Import ListNotations.
Local Open Scope R_scope.

(* f (delta, tau) with delta df/ddelta = f1 and tau df1/dtau = g bounded by z *)
Definition mixed (f z : R -> R -> R) : Prop := exists f1 g : R -> R -> R, forall v tau, 0 < v -> 0 < tau ->
  is_derive (fun v => f v tau) v (f1 v tau / v) /\ is_derive (fun tau => f1 v tau) tau (g v tau / tau) /\ Rabs (g v tau) <= z v tau.
Lemma mixed_ext f g z y : (forall v tau, f v tau = g v tau) -> (forall v tau, z v tau = y v tau) -> mixed f z -> mixed g y.
Proof.
  intros E1 E2 (f1 & h & H). exists f1, h. intros v tau Hv Ht. destruct (H v tau Hv Ht) as (A & B & C). split; [|split; [exact B|now rewrite <- E2]].
  now apply (is_derive_ext (fun v => f v tau)).
Qed.
Lemma mixed_0 : mixed (fun _ _ => 0) (fun _ _ => 0).
Proof.
  exists (fun _ _ => 0), (fun _ _ => 0). intros v tau Hv Ht. replace (0 / v) with 0 by (field; lra). replace (0 / tau) with 0 by (field; lra).
  split; [apply (@is_derive_const R_AbsRing R_NormedModule)|]. split; [apply (@is_derive_const R_AbsRing R_NormedModule)|]. rewrite Rabs_R0. lra.
Qed.
Lemma mixed_plus f g z y : mixed f z -> mixed g y -> mixed (fun v t => f v t + g v t) (fun v t => z v t + y v t).
Proof.
  intros (f1 & h & H) (g1 & k & K). exists (fun v t => f1 v t + g1 v t), (fun v t => h v t + k v t). intros v tau Hv Ht.
  destruct (H v tau Hv Ht) as (A & B & C). destruct (K v tau Hv Ht) as (A' & B' & C'). rewrite !Rdiv_plus_distr.
  split; [now apply (@is_derive_plus R_AbsRing R_NormedModule)|]. split; [now apply (@is_derive_plus R_AbsRing R_NormedModule)|].
  eapply Rle_trans; [apply Rabs_triang|lra].
Qed.
Lemma mixed_scal c f z : mixed f z -> mixed (fun v t => c * f v t) (fun v t => Rabs c * z v t).
Proof.
  intros (f1 & h & H). exists (fun v t => c * f1 v t), (fun v t => c * h v t). intros v tau Hv Ht. destruct (H v tau Hv Ht) as (A & B & C).
  unfold Rdiv. rewrite !Rmult_assoc. split; [now apply is_derive_scal|]. split; [now apply is_derive_scal|].
  rewrite !Rabs_mult. apply Rmult_le_compat_l; [apply Rabs_pos|exact C].
Qed.
Lemma mixed_lsum {T} (f z : R -> R -> T -> R) l : (forall r, In r l -> mixed (fun v t => f v t r) (fun v t => z v t r)) ->
  mixed (fun v t => lsum (f v t) l) (fun v t => lsum (z v t) l).
Proof.
  induction l as [|r l IH]; intros H; [exact mixed_0|]. unfold lsum in *. cbn [fold_right]. apply (mixed_plus (fun v t => f v t r) _ (fun v t => z v t r)); [apply H; now left|].
  apply IH. intros q Hq. apply H. now right.
Qed.
Lemma mixed_tot (f z : R -> R -> nat -> R) n : (forall r, (r < n)%nat -> mixed (fun v t => f v t r) (fun v t => z v t r)) ->
  mixed (fun v t => tot n (f v t)) (fun v t => tot n (z v t)).
Proof.
  induction n as [|n IH]; intros H; [exact mixed_0|]. cbn [tot]. apply (mixed_plus _ (fun v t => f v t n) _ (fun v t => z v t n)); [|apply H; lia]. apply IH. intros q Hq. apply H. lia.
Qed.
Lemma mixed_base c t (h h1 y : R -> R) : (forall v, 0 < v -> is_derive h v (h1 v / v) /\ Rabs (h1 v) <= y v) ->
  mixed (fun v tau => c * Rpower tau t * h v) (fun v tau => Rabs c * Rpower tau t * (Rabs t * y v)).
Proof.
  intros H. exists (fun v tau => c * Rpower tau t * h1 v), (fun v tau => c * Rpower tau t * (t * h1 v)). intros v tau Hv Ht. destruct (H v Hv) as [A B].
  assert (P : 0 < Rpower tau t) by apply exp_pos. split; [|split].
  - unfold Rdiv. rewrite Rmult_assoc. now apply is_derive_scal.
  - apply (is_derive_ext (fun tau => c * h1 v * Rpower tau t)); [intros; toR; ring|].
    evar_last; [apply is_derive_scal; unfold Rpower; apply (is_derive_comp exp (fun e => t * ln e)); [apply is_derive_exp|apply is_derive_scal, is_derive_ln, Ht]|].
    unfold scal, mult; cbn. fold (Rpower tau t). toR. field. lra.
  - rewrite !Rabs_mult, (Rabs_pos_eq (Rpower tau t)) by lra. apply Rmult_le_compat_l; [apply Rmult_le_pos; [apply Rabs_pos|lra]|]. apply Rmult_le_compat_l; [apply Rabs_pos|exact B].
Qed.
Lemma pow_d d c v : 0 < v -> is_derive (fun v => v ^ d * ek c v) v (hb d c v / v).
Proof.
  intros Hv. evar_last; [apply (@is_derive_mult R_AbsRing); [apply is_pow|apply is_ek|intros; apply Rmult_comm]|].
  unfold plus, mult; cbn -[INR pow]. unfold hb. apply (Rmult_eq_reg_l v); [|lra].
  replace (v * ((INR d - INR c * v ^ c) * v ^ d * ek c v / v)) with ((INR d - INR c * v ^ c) * v ^ d * ek c v) by (field; lra).
  transitivity (v * (INR d * v ^ Nat.pred d) * ek c v - v ^ d * (v * (INR c * v ^ Nat.pred c)) * ek c v); [ring|]. rewrite !pow_step. ring.
Qed.
Lemma mixed_pure r : mixed (fun v tau => pure_term v tau r) (fun v tau => SpecAll.pure_w 5 v tau r).
Proof.
  destruct r as [[[n d] t] c].
  eapply mixed_ext; [| |apply (mixed_base (Rlit n) (Rlit t) (fun v => v ^ d * ek c v) (hb d c) (fun v => v ^ d * ek c v * (INR d + INR c * v ^ c)))]; cbn [pure_term SpecAll.pure_w].
  - intros v tau. unfold ek. destruct c; ring.
  - intros v tau. unfold pure_factor, ek. destruct c; ring.
  - intros v Hv. split; [now apply pow_d|]. exact (proj1 (hb_le2 d c v ltac:(lra))).
Qed.
Lemma mixed_dep r : dep_ok r = true -> mixed (fun v tau => dep_term v tau r) (fun v tau => dep_w 5 v tau r).
Proof.
  destruct r as [[[n d] t] w]. cbn [dep_ok]. intros H. apply andb_true_iff in H as [H H3]. apply andb_true_iff in H as [H H2]. apply andb_true_iff in H as [H H1].
  apply nonneg_ok in H1, H2, H3. cbn [dep_term dep_w]. cbv zeta. cbn [dep_factor]. set (p0 := Rlit (nth 0 w (L 0 0))) in *. set (p1 := Rlit (nth 1 w (L 0 0))) in *. set (p2 := Rlit (nth 2 w (L 0 0))) in *. set (p3 := Rlit (nth 3 w (L 0 0))) in *. clearbody p0 p1 p2 p3.
  set (E v := - p0 * (v - p1) ^ 2 - p2 * (v - p3)).
  eapply mixed_ext; [| |apply (mixed_base (Rlit n) (Rlit t) (fun v => v ^ d * exp (E v)) (fun v => (INR d + (- 2 * p0 * v * (v - p1) - p2 * v)) * v ^ d * exp (E v))
    (fun v => v ^ d * exp (E v) * (INR d + 2 * (p0 * v ^ 2) + (2 * p0 * p1 + p2) * v)))].
  - intros v tau. unfold E. ring.
  - intros v tau. unfold E. ring.
  - intros v Hv. split; [exact (gauss_d d p0 p1 p2 p3 v Hv)|].
    assert (W : 0 <= v ^ d * exp (E v)) by (apply Rmult_le_pos; [apply pow_le; lra|left; apply exp_pos]). rewrite Rmult_assoc, Rabs_mult, (Rabs_pos_eq (v ^ d * _)), Rmult_comm by exact W.
    apply Rmult_le_compat_l; [exact W|]. pose proof (pos_INR d) as Pd. assert (0 <= p0 * (v * v)) by (apply Rmult_le_pos; [lra|nra]). assert (0 <= p0 * p1 * v) by (apply Rmult_le_pos; [apply Rmult_le_pos; lra|lra]). assert (0 <= p2 * v) by (apply Rmult_le_pos; lra).
    apply Rabs_le. split; nra.
Qed.
Lemma mixed_residual x : (forall i, 0 <= x i) -> mixed (fun v tau => residual x v tau) (fun v tau => gerg_sum 5 x v tau).
Proof.
  intros Hx. unfold residual, gerg_sum. apply mixed_plus.
  - apply (mixed_tot (fun v tau m => x (S m) * lsum (pure_term v tau) (nth (S m) PURE [])) (fun v tau m => x (S m) * lsum (SpecAll.pure_w 5 v tau) (nth (S m) PURE []))). intros m _.
    eapply mixed_ext; [reflexivity| |apply (mixed_scal (x (S m)) (fun v tau => lsum (pure_term v tau) (nth (S m) PURE [])) (fun v tau => lsum (SpecAll.pure_w 5 v tau) (nth (S m) PURE [])))].
    + intros v tau. cbv beta. now rewrite (Rabs_pos_eq (x (S m)) (Hx _)).
    + apply (mixed_lsum (fun v tau => pure_term v tau) (fun v tau => SpecAll.pure_w 5 v tau)). intros r Hr. apply mixed_pure.
  - apply (mixed_lsum (fun v tau r => let '(i, j, f, m) := r in x i * x j * Rlit f * lsum (dep_term v tau) (dep_rows m))
      (fun v tau r => let '(i, j, f, m) := r in x i * x j * Rabs (Rlit f) * lsum (dep_w 5 v tau) (dep_rows m))).
    intros [[[i j] f] m] _.
    eapply mixed_ext; [reflexivity| |apply (mixed_scal (x i * x j * Rlit f) (fun v tau => lsum (dep_term v tau) (dep_rows m)) (fun v tau => lsum (dep_w 5 v tau) (dep_rows m)))].
    + intros v tau. cbv beta. rewrite !Rabs_mult, (Rabs_pos_eq (x i)), (Rabs_pos_eq (x j)) by apply Hx. reflexivity.
    + apply (mixed_lsum (fun v tau => dep_term v tau) (fun v tau => dep_w 5 v tau)). intros r Hr. apply mixed_dep. exact (dep_rows_ok _ _ Hr).
Qed.

Section P.
Variable x : nat -> b64.
Local Notation r := (fun j => bR (x j)).
Hypothesis Hx : forall j, (1 <= j < 22)%nat -> fin (x j) /\ (bR (x j) = 0 \/ bpow radix2 (-49) <= bR (x j)).
Hypothesis Hg : natural_gas (fun j => bR (x (S j))).
Lemma gp_near T d : 270 <= T <= 350 -> 0 < d <= 573 / 10000 -> 0 < gpres New r T d /\
    (exists q, is_derive (gpres New r T) d q /\ Rabs (d * q - gpres New r T d) <= 396 / 10000 * gpres New r T d) /\
    (exists q, is_derive (fun T => gpres New r T d) T q /\ Rabs (T * q - gpres New r T d) <= 569 / 10000 * gpres New r T d).
Proof.
  intros HT Hd. pose proof (vr x Hg) as Vr. pose proof (tr x Hg) as Tr. assert (Hs : 99 / 100 <= tot 21 (fun j => bR (x (S j))) <= 101 / 100) by apply Hg.
  pose proof (GDensProof.v_pos x Hx Hs) as Vp. pose proof (gpres_res x Hx Hs) as PR. 
  destruct (mixed_residual (ac r) (GergEos.ac_ge0 r)) as (f1 & g & M).
  assert (SE : forall T, small (fun v => residual (ac r) v (tred r / T)) (fun v => gerg_spread (ac r) v (tred r / T))) by (intros; apply small_residual, (GergEos.ac_ge0 r)).
  set (v := vred r) in *. set (tr0 := tred r) in *.
  assert (PT : 0 < / T) by (apply Rinv_0_lt_compat; lra).
  assert (TA : 38 / 350 <= tr0 / T <= 93964 / 100000).
  { split.
    + apply Rle_trans with (38 * / T); [|unfold Rdiv; apply Rmult_le_compat_r; [lra|exact (proj1 Tr)]]. unfold Rdiv. apply Rmult_le_compat_l; [lra|]. apply Rinv_le_contravar; lra.
    + apply (Rmult_le_reg_r T); [lra|]. unfold Rdiv at 1. rewrite Rmult_assoc, Rinv_l by lra. rewrite Rmult_1_r. apply Rle_trans with (1 := proj2 Tr). lra. }
  assert (DL : 0 <= d * v <= 666 / 100000) by (split; [apply Rmult_le_pos; lra|]; apply Rle_trans with (573 / 10000 * (1162 / 10000)); [apply Rmult_le_compat; lra|lra]).
  pose proof (G5_le (d * v) (tr0 / T) DL TA r Hg) as B5. pose proof (GV_le (d * v) (tr0 / T) DL TA r Hg) as BV. rewrite <- (sum_ac x Hx) in B5. rewrite <- (spread_ac x Hx) in BV.
  assert (DV : 0 < d * v) by (apply Rmult_lt_0_compat; lra).
  assert (PE : forall T d, 1 / 10000000 < T -> 0 < d -> gpres New r T d = d * Rg * T * (1 + f1 (d * v) (tr0 / T))).
  { intros T' d' HT' Hd'. destruct (PR T' HT' d') as (a & Da & E). rewrite E. assert (EV : 0 < d' * v) by (apply Rmult_lt_0_compat; lra).
    assert (ET : 0 < tr0 / T') by (apply Rdiv_lt_0_compat; lra). destruct (M _ _ EV ET) as (D & _).
    assert (Ea : a = f1 (d' * v) (tr0 / T') / (d' * v)) by (rewrite <- (is_derive_unique _ _ _ Da); exact (is_derive_unique _ _ _ D)). rewrite Ea. f_equal. f_equal. field. lra. }
  destruct (SE T) as (_ & h1 & h2 & H). 
  assert (EQ : forall e, 0 < e -> h1 e = f1 e (tr0 / T)).
  { intros e He. destruct (H e He) as (D1 & _). destruct (M e (tr0 / T) He ltac:(lra)) as (D2 & _). 
    assert (Q : h1 e / e = f1 e (tr0 / T) / e) by (rewrite <- (is_derive_unique _ _ _ D1); exact (is_derive_unique _ _ _ D2)).
    apply (Rmult_eq_reg_r (/ e)); [exact Q|]. apply Rinv_neq_0_compat. lra. }
  destruct (H _ DV) as (_ & D2 & C). destruct (C ltac:(lra)) as [C1 C2]. assert (TP : 0 < tr0 / T) by lra. destruct (M _ _ DV TP) as (_ & DT & CT).
  assert (PRg : Rg = 8314472 / 1000000) by reflexivity.
  rewrite (PE T d) by lra. rewrite (EQ _ DV) in C1. 
  set (z := f1 (d * v) (tr0 / T)) in *. set (w := h2 (d * v)) in *. set (u := g (d * v) (tr0 / T)) in *.
  assert (G : 0 < d * Rg * T) by (apply Rmult_lt_0_compat; [apply Rmult_lt_0_compat; lra|lra]).
  assert (AZ : Rabs z <= 38 / 1000) by lra. assert (AW : Rabs w <= 38 / 1000) by lra. assert (AU : Rabs (- u) <= 5466 / 100000) by (rewrite Rabs_Ropp; lra).
  destruct (slope_le (d * Rg * T) (38 / 1000) z w (396 / 10000) G AZ) as [S1 S2]; [lra..|]. destruct (slope_le (d * Rg * T) (38 / 1000) z (- u) (569 / 10000) G AZ) as [_ S3]; [lra..|].
  split; [exact S1|]. split.
  - exists (Rg * T * (1 + z + w)). split.
    + apply (is_derive_ext_loc (fun e => Rg * T * (e * (1 + h1 (e * v))))).
      * exists (mkposreal d (proj1 Hd)). intros e He. unfold ball in He; cbn in He. unfold AbsRing_ball, abs, minus, plus, opp in He; cbn in He. apply Rabs_def2 in He.
        rewrite (PE T e) by lra. rewrite EQ by (apply Rmult_lt_0_compat; lra). toR; ring.
      * apply is_derive_scal. evar_last; [apply (@is_derive_mult R_AbsRing); [apply is_derive_id|apply (@is_derive_plus R_AbsRing R_NormedModule); [apply is_derive_const|]|intros; apply Rmult_comm]|].
        { apply (is_derive_comp h1 (fun e => e * v)); [exact D2|]. apply (is_derive_ext (fun e => v * e)); [intros; apply Rmult_comm|]. apply is_derive_scal, is_derive_id. }
        unfold plus, mult, one, zero, scal; cbn. unfold mult; cbn. rewrite (EQ _ DV). fold z w. toR. field. lra.
    + replace (d * (Rg * T * (1 + z + w))) with (d * Rg * T * (1 + z + w)) by ring. exact S2.
  - exists (d * Rg * (1 + z - u)). split.
    + apply (is_derive_ext_loc (fun e => d * Rg * (e * (1 + f1 (d * v) (tr0 / e))))).
      * assert (T2 : 0 < T / 2) by lra. exists (mkposreal (T / 2) T2). intros e He. unfold ball in He; cbn in He. unfold AbsRing_ball, abs, minus, plus, opp in He; cbn in He. apply Rabs_def2 in He.
        rewrite (PE e d) by lra. toR; ring.
      * apply is_derive_scal. evar_last; [apply (@is_derive_mult R_AbsRing); [apply is_derive_id|apply (@is_derive_plus R_AbsRing R_NormedModule); [apply is_derive_const|]|intros; apply Rmult_comm]|].
        { apply (is_derive_comp (fun tau => f1 (d * v) tau) (fun e => tr0 / e)); [exact DT|]. auto_derive; [lra|reflexivity]. }
        unfold plus, mult, one, zero, scal; cbn. unfold mult; cbn. fold z u. toR. field. lra.
    + replace (T * (d * Rg * (1 + z - u))) with (d * Rg * T * (1 + z + - u)) by ring. exact S3.
Qed.
Lemma gerg_sens T1 T2 d1 d2 : 270 <= T1 <= 350 -> 270 <= T2 <= 350 -> 0 < d1 <= 573 / 10000 -> 0 < d2 <= 573 / 10000 ->
  0 < gpres New r T1 d1 /\ 0 < gpres New r T2 d2 /\
  Rabs (ln d2 - ln d1 - (ln (gpres New r T2 d2) - ln (gpres New r T1 d1) - (ln T2 - ln T1))) <= 396 / 10000 * Rabs (ln d2 - ln d1) + 569 / 10000 * Rabs (ln T2 - ln T1).
Proof.
  intros H1 H2 G1 G2. pose proof gp_near as Q.
  split; [exact (proj1 (Q T1 d1 H1 G1))|]. split; [exact (proj1 (Q T2 d2 H2 G2))|].
  exact (sens (gpres New r) 270 350 (573 / 10000) (396 / 10000) (569 / 10000) ltac:(lra)
    (fun T d HT Hd => proj1 (Q T d HT Hd)) (fun T d HT Hd => proj1 (proj2 (Q T d HT Hd))) (fun T d HT Hd => proj2 (proj2 (Q T d HT Hd))) T1 T2 d1 d2 H1 H2 G1 G2).
Qed.
End P.
