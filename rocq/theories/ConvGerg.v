(* When the GERG equation is nearly ideal. *)
From Coq Require Import Reals ZArith List Bool Lra Lia Psatz.
From Coquelicot Require Import Coquelicot.
From Verif Require Import FArith ArithR StdGerg SpecStd SpecConv SpecGerg ConvDetail.
Import ListNotations.
Local Open Scope R_scope.

(* f with its first two logarithmic derivatives bounded by z up to 1 *)
Definition small (f z : R -> R) : Prop := (forall a b, 0 <= a <= b -> 0 <= z a <= z b) /\
  exists f1 f2 : R -> R, forall v, 0 < v -> is_derive f v (f1 v / v) /\ is_derive f1 v (f2 v / v) /\
    (v <= 1 -> Rabs (f1 v) <= z v /\ Rabs (f2 v) <= z v).
Lemma small_ext f g z y : (forall v, f v = g v) -> (forall v, z v = y v) -> small f z -> small g y.
Proof.
  intros E1 E2 (M & f1 & f2 & H). split; [intros a b Hab; rewrite <- !E2; now apply M|]. exists f1, f2. intros v Hv.
  destruct (H v Hv) as (A & B & C). split; [now apply (is_derive_ext f)|]. split; [exact B|]. now rewrite <- E2.
Qed.
Lemma small_0 : small (fun _ => 0) (fun _ => 0).
Proof.
  split; [intros; lra|]. exists (fun _ => 0), (fun _ => 0). intros v Hv. replace (0 / v) with 0 by (field; lra).
  split; [apply (@is_derive_const R_AbsRing R_NormedModule)|]. split; [apply (@is_derive_const R_AbsRing R_NormedModule)|]. rewrite Rabs_R0. lra.
Qed.
Lemma small_plus f g z y : small f z -> small g y -> small (fun v => f v + g v) (fun v => z v + y v).
Proof.
  intros (M & f1 & f2 & H) (N & g1 & g2 & K). split; [intros a b Hab; specialize (M a b Hab); specialize (N a b Hab); lra|].
  exists (fun v => f1 v + g1 v), (fun v => f2 v + g2 v). intros v Hv.
  destruct (H v Hv) as (A & B & C). destruct (K v Hv) as (A' & B' & C'). rewrite !Rdiv_plus_distr.
  split; [now apply (@is_derive_plus R_AbsRing R_NormedModule)|]. split; [now apply (@is_derive_plus R_AbsRing R_NormedModule)|].
  intros L. destruct (C L), (C' L). split; (eapply Rle_trans; [apply Rabs_triang|lra]).
Qed.
Lemma small_scal c f z : small f z -> small (fun v => c * f v) (fun v => Rabs c * z v).
Proof.
  intros (M & f1 & f2 & H). pose proof (Rabs_pos c) as Hc. split; [intros a b Hab; specialize (M a b Hab); nra|].
  exists (fun v => c * f1 v), (fun v => c * f2 v). intros v Hv. destruct (H v Hv) as (A & B & C).
  unfold Rdiv. rewrite !Rmult_assoc. split; [now apply is_derive_scal|]. split; [now apply is_derive_scal|].
  intros L. destruct (C L). rewrite !Rabs_mult. split; now apply Rmult_le_compat_l.
Qed.
Lemma small_lsum {T} (f z : R -> T -> R) l : (forall r, In r l -> small (fun v => f v r) (fun v => z v r)) ->
  small (fun v => lsum (f v) l) (fun v => lsum (z v) l).
Proof.
  induction l as [|r l IH]; intros H; [exact small_0|]. unfold lsum in *. cbn [fold_right]. apply small_plus; [apply H; now left|].
  apply IH. intros q Hq. apply H. now right.
Qed.
Lemma small_tot (f z : R -> nat -> R) n : (forall r, (r < n)%nat -> small (fun v => f v r) (fun v => z v r)) ->
  small (fun v => tot n (f v)) (fun v => tot n (z v)).
Proof.
  induction n as [|n IH]; intros H; [exact small_0|]. cbn [tot]. apply small_plus; [|apply H; lia]. apply IH. intros q Hq. apply H. lia.
Qed.

Lemma small_pow d c : (1 <= d)%nat -> small (fun v => v ^ d * ek c v) (fun v => wt d c v * v ^ d).
Proof.
  intros Hd. split.
  - intros a b Hab. destruct (wt_mono d c a b Hab). assert (0 <= a ^ d) by (apply pow_le; lra). pose proof (pow_incr a b d Hab). nra.
  - exists (hb d c), (hb1 d c). intros v Hv. split; [|split; [now apply hb_derive|intros L; split; [apply hb_le; [lra|exact Hd]|apply hb1_le; lra]]].
    evar_last; [apply (@is_derive_mult R_AbsRing); [apply is_pow|apply is_ek|intros; apply Rmult_comm]|].
    unfold plus, mult; cbn -[INR pow]. unfold hb. apply (Rmult_eq_reg_l v); [|lra].
    replace (v * ((INR d - INR c * v ^ c) * v ^ d * ek c v / v)) with ((INR d - INR c * v ^ c) * v ^ d * ek c v) by (field; lra).
    transitivity (v * (INR d * v ^ pred d) * ek c v - v ^ d * (v * (INR c * v ^ pred c)) * ek c v); [ring|]. rewrite !pow_step. ring.
Qed.
(* gaussian *)
Section G.
Variables (d : nat) (p0 p1 p2 p3 : R).
Hypothesis Hd : (1 <= d)%nat.
Hypothesis P0 : 0 <= p0. Hypothesis P1 : 0 <= p1. Hypothesis P2 : 0 <= p2.
Let E v := - p0 * (v - p1) ^ 2 - p2 * (v - p3).
Let q v := - 2 * p0 * v * (v - p1) - p2 * v.          (* v E' *)
Let q1 v := - 2 * p0 * v * (2 * v - p1) - p2 * v.     (* v q' *)
Let e v := 2 * p0 * v * (v + p1) + p2 * v.
Let g1 v := (INR d + q v) * v ^ d * exp (E v).
Let g2 v := ((INR d + q v) ^ 2 + q1 v) * v ^ d * exp (E v).
Lemma gauss_d v : 0 < v -> is_derive (fun v => v ^ d * exp (E v)) v (g1 v / v).
Proof.
  intros Hv. evar_last.
  - apply (@is_derive_mult R_AbsRing); [apply is_pow|apply (is_derive_comp exp E); [apply is_derive_exp|unfold E; auto_derive; [exact I|reflexivity]]|intros; apply Rmult_comm].
  - unfold plus, mult, scal; cbn -[INR pow]. unfold mult; cbn -[INR pow]. unfold g1. apply (Rmult_eq_reg_l v); [|lra].
    replace (v * ((INR d + q v) * v ^ d * exp (E v) / v)) with ((INR d + q v) * v ^ d * exp (E v)) by (field; lra).
    rewrite !Rmult_plus_distr_l, <- Rmult_assoc, pow_step. unfold q. cbn [INR pred pow]. ring.
Qed.
Lemma gauss_d1 v : 0 < v -> is_derive g1 v (g2 v / v).
Proof.
  intros Hv. apply (is_derive_ext (fun v => (INR d + q v) * (v ^ d * exp (E v)))); [intros; unfold g1; toR; ring|]. evar_last.
  - apply (@is_derive_mult R_AbsRing); [|apply gauss_d, Hv|intros; apply Rmult_comm]. unfold q. auto_derive; [exact I|reflexivity].
  - unfold plus, mult; cbn -[INR pow]. unfold g1, g2, q1. fold (q v).
    apply (Rmult_eq_reg_l v); [|lra]. set (x := v ^ d). set (y := exp (E v)). unfold q. field. lra.
Qed.
Lemma exp_mono a b : a <= b -> exp a <= exp b.
Proof. intros [H| ->]; [left; now apply exp_increasing|lra]. Qed.
Lemma small_gauss : small (fun v => v ^ d * exp (E v)) (fun v => ((INR d + e v) ^ 2 + e v + 2 * p0 * v ^ 2) * exp (p2 * p3) * v ^ d).
Proof.
  assert (1 <= INR d) as Pd by (apply (le_INR 1); exact Hd).
  assert (Em : forall a b, 0 <= a <= b -> 0 <= e a <= e b).
  { intros a b Hab. unfold e. assert (0 <= p0 * a <= p0 * b) by nra. assert (0 <= p0 * a * (a + p1) <= p0 * b * (b + p1)) by nra. assert (0 <= p2 * a <= p2 * b) by nra. lra. }
  set (W v := (INR d + e v) ^ 2 + e v + 2 * p0 * v ^ 2).
  assert (Wm : forall a b, 0 <= a <= b -> 0 <= W a <= W b).
  { intros a b Hab. unfold W. specialize (Em a b Hab). assert (0 <= a ^ 2 <= b ^ 2) by nra. assert (0 <= p0 * a ^ 2 <= p0 * b ^ 2) by nra. nra. }
  assert (0 < exp (p2 * p3)) by apply exp_pos. split.
  - intros a b Hab. fold (W a) (W b). assert (0 <= a ^ d) by (apply pow_le; lra). pose proof (pow_incr a b d Hab). specialize (Wm a b Hab). clearbody W.
    assert (0 <= W a * exp (p2 * p3) <= W b * exp (p2 * p3)) by nra. set (k := W a * exp (p2 * p3)) in *. set (l := W b * exp (p2 * p3)) in *. nra.
  - exists g1, g2. intros v Hv. split; [now apply gauss_d|split; [now apply gauss_d1|]]. intros L. fold (W v).
    destruct (Em v v ltac:(lra)) as [He _]. assert (W0 : 0 <= W v) by (destruct (Wm v v ltac:(lra)); lra).
    assert (0 <= p0 * v * v) as Qa by (assert (0 <= v * v) by nra; nra). assert (0 <= p0 * p1 * v) as Qb by (assert (0 <= p0 * p1) by nra; nra). assert (0 <= p2 * v) as Qc by nra.
    assert (- e v <= q v <= e v) as Hq. { unfold q, e. nra. }
    assert (- (e v + 2 * p0 * v ^ 2) <= q1 v <= e v + 2 * p0 * v ^ 2) as Hq1. { unfold q1, e. nra. }
    assert (0 < exp (E v) <= exp (p2 * p3)) as HE. { split; [apply exp_pos|]. apply exp_mono. unfold E. assert (0 <= p0 * (v - p1) ^ 2) by (apply Rmult_le_pos; [exact P0|apply pow2_ge_0]). nra. }
    assert (0 <= v ^ d) as Hvd by (apply pow_le; lra).
    assert (forall a, Rabs a <= W v -> Rabs (a * v ^ d * exp (E v)) <= W v * exp (p2 * p3) * v ^ d) as C.
    { intros a Ha. rewrite !Rabs_mult, (Rabs_pos_eq (v ^ d)), (Rabs_pos_eq (exp (E v))) by lra. pose proof (Rabs_pos a).
      replace (W v * exp (p2 * p3) * v ^ d) with (W v * v ^ d * exp (p2 * p3)) by ring. apply Rmult_le_compat; [nra|lra| |lra]. now apply Rmult_le_compat_r. }
    assert (0 <= 2 * p0 * v ^ 2) as Qd by (assert (0 <= v ^ 2) by nra; nra).
    split; apply C; unfold W; apply Rabs_le; clearbody q q1 E e; clear C.
    + nra.
    + assert (0 <= (INR d + q v) ^ 2 <= (INR d + e v) ^ 2) by (split; [apply pow2_ge_0|]; nra). lra.
Qed.
End G.

Definition pure_ok (r : lit * nat * lit * nat) : bool := let '(n, d, t, c) := r in Nat.leb 1 d.
Lemma pure_checked : forallb (forallb pure_ok) PURE = true. Proof. vm_compute. reflexivity. Qed.
Definition nonneg_lit (l : lit) : bool := let '(L m e) := l in Z.leb 0 m.
Lemma nonneg_ok l : nonneg_lit l = true -> 0 <= Rlit l.
Proof.
  destruct l as [m [|p|p]]; cbn [nonneg_lit Rlit]; intros H; apply Z.leb_le in H.
  - now apply IZR_le.
  - apply IZR_le. apply Z.mul_nonneg_nonneg; [exact H|]. now apply Z.pow_nonneg.
  - apply Rdiv_le_0_compat; [now apply IZR_le|]. apply IZR_lt. now apply Z.pow_pos_nonneg.
Qed.
Definition dep_ok (r : lit * nat * lit * list lit) : bool := let '(n, d, t, w) := r in
  Nat.leb 1 d && nonneg_lit (nth 0 w (L 0 0)) && nonneg_lit (nth 1 w (L 0 0)) && nonneg_lit (nth 2 w (L 0 0)).
Lemma dep_checked : forallb (fun r => forallb dep_ok (snd r)) DEPARTURE = true. Proof. vm_compute. reflexivity. Qed.
Lemma dep_rows_ok m r : In r (dep_rows m) -> dep_ok r = true.
Proof.
  unfold dep_rows. destruct (find _ _) as [[k l]|] eqn:F; [|intros []]. apply find_some in F. destruct F as [F _]. cbn [snd]. intros H.
  pose proof (proj1 (forallb_forall _ _) dep_checked _ F) as K. cbn [snd] in K. exact (proj1 (forallb_forall _ _) K _ H).
Qed.
Lemma pure_rows_ok i r : In r (nth i PURE []) -> pure_ok r = true.
Proof.
  intros H. destruct (nth_in_or_default i PURE []) as [K|K]; [|rewrite K in H; destruct H].
  exact (proj1 (forallb_forall _ _) (proj1 (forallb_forall _ _) pure_checked _ K) _ H).
Qed.
Lemma small_pure tau r : pure_ok r = true -> small (fun v => pure_term v tau r) (fun v => pure_size v tau r).
Proof.
  destruct r as [[[n d] t] c]. cbn [pure_ok]. intros H. apply Nat.leb_le in H.
  assert (0 < Rpower tau (Rlit t)) as Hp by apply exp_pos.
  eapply small_ext; [| |apply (small_scal (Rlit n * Rpower tau (Rlit t))), (small_pow d c H)]; cbn [pure_term pure_size]; intros v.
  - unfold ek. destruct c; ring.
  - rewrite Rabs_mult, (Rabs_pos_eq (Rpower _ _)) by lra. unfold wt. ring.
Qed.
Lemma small_dep tau r : dep_ok r = true -> small (fun v => dep_term v tau r) (fun v => dep_size v tau r).
Proof.
  destruct r as [[[n d] t] w]. cbn [dep_ok]. intros H. apply andb_true_iff in H as [H H3]. apply andb_true_iff in H as [H H2]. apply andb_true_iff in H as [H H1].
  apply Nat.leb_le in H. apply nonneg_ok in H1, H2, H3.
  assert (0 < Rpower tau (Rlit t)) as Hp by apply exp_pos.
  eapply small_ext; [| |apply (small_scal (Rlit n * Rpower tau (Rlit t))), (small_gauss d _ _ _ (Rlit (nth 3 w (L 0 0))) H H1 H2 H3)]; cbn [dep_term dep_size]; cbv zeta; intros v.
  - ring.
  - rewrite Rabs_mult, (Rabs_pos_eq (Rpower _ _)) by lra. ring.
Qed.
Lemma small_residual x tau : (forall i, 0 <= x i) -> small (fun v => residual x v tau) (fun v => gerg_spread x v tau).
Proof.
  intros Hx. unfold residual, gerg_spread. apply small_plus.
  - apply (small_tot (fun v m => x (S m) * lsum (pure_term v tau) (nth (S m) PURE [])) (fun v m => x (S m) * lsum (pure_size v tau) (nth (S m) PURE []))). intros m _.
    eapply small_ext; [reflexivity| |apply (small_scal (x (S m)) (fun v => lsum (pure_term v tau) (nth (S m) PURE [])) (fun v => lsum (pure_size v tau) (nth (S m) PURE [])))].
    + intros v. cbv beta. now rewrite (Rabs_pos_eq (x (S m)) (Hx _)).
    + apply (small_lsum (fun v => pure_term v tau) (fun v => pure_size v tau)). intros r Hr. apply small_pure. exact (pure_rows_ok _ _ Hr).
  - apply (small_lsum (fun v r => let '(i, j, f, m) := r in x i * x j * Rlit f * lsum (dep_term v tau) (dep_rows m))
      (fun v r => let '(i, j, f, m) := r in x i * x j * Rabs (Rlit f) * lsum (dep_size v tau) (dep_rows m))).
    intros [[[i j] f] m] _.
    eapply small_ext; [reflexivity| |apply (small_scal (x i * x j * Rlit f) (fun v => lsum (dep_term v tau) (dep_rows m)) (fun v => lsum (dep_size v tau) (dep_rows m)))].
    + intros v. cbv beta. rewrite !Rabs_mult, (Rabs_pos_eq (x i)), (Rabs_pos_eq (x j)) by apply Hx. reflexivity.
    + apply (small_lsum (fun v => dep_term v tau) (fun v => dep_size v tau)). intros r Hr. apply small_dep. exact (dep_rows_ok _ _ Hr).
Qed.

(* a pressure d r T (1 + A) with small A *)
Lemma ideal_of (p A B : R -> R) rg T d0 : 0 < rg * T -> 0 < d0 ->
  (forall d, 0 < d -> p d = d * rg * T * (1 + A d)) ->
  (forall d, 0 < d <= 3 * d0 -> is_derive A d (B d / d) /\ Rabs (A d) <= 1 / 7 /\ Rabs (B d) <= 1 / 7) ->
  nearly_ideal p d0 (d0 * rg * T).
Proof.
  intros Hr Hd Hp G.
  assert (forall d, 0 < d <= 3 * d0 -> is_derive p d (rg * T * (1 + A d + B d))) as Dp.
  { intros d H. destruct (G d H) as [D _]. apply (is_derive_ext_loc (fun e => rg * T * (e * (1 + A e)))).
    - exists (mkposreal d (proj1 H)). intros y Hy. rewrite Hp; [toR; ring|]. unfold ball in Hy; cbn in Hy. unfold AbsRing_ball, abs, minus, plus, opp in Hy; cbn in Hy.
      apply Rabs_def2 in Hy. lra.
    - apply is_derive_scal. evar_last; [apply (@is_derive_mult R_AbsRing); [apply is_derive_id|apply (@is_derive_plus R_AbsRing R_NormedModule); [apply is_derive_const|exact D]|intros; apply Rmult_comm]|].
      unfold plus, mult, one, zero; cbn. toR. field. lra. }
  split.
  - destruct (G d0 ltac:(lra)) as (_ & HA & _). apply Rabs_le_between in HA. rewrite (Hp d0 Hd). set (a := A d0) in *.
    assert (0 < d0 * rg * T) by (rewrite Rmult_assoc; apply Rmult_lt_0_compat; lra). nra.
  - intros d H. destruct (G d ltac:(lra)) as (_ & HA & HB). rewrite (is_derive_unique _ _ _ (Dp d ltac:(lra))), (Hp d ltac:(lra)).
    apply Rabs_le_between in HA, HB. set (a := A d) in *. set (b := B d) in *.
    assert (0 < d * rg * T) as Q by (rewrite Rmult_assoc; apply Rmult_lt_0_compat; lra). set (r := d * rg * T) in *.
    replace (d * (rg * T * (1 + a + b))) with (r * (1 + a + b)) by (unfold r; ring). split; [nra|]. split; nra.
Qed.
Lemma gerg_ideal x tau v T (p : R -> R) d0 : (forall i, 0 <= x i) -> 0 < T -> 0 < v -> 0 < d0 -> 3 * d0 * v <= 1 -> gerg_spread x (3 * d0 * v) tau <= 1 / 7 ->
  (forall d, exists a' : R, is_derive (fun delta => residual x delta tau) (d * v) a' /\ p d = d * Rg * T * (1 + d * v * a')) ->
  nearly_ideal p d0 (d0 * Rg * T).
Proof.
  intros Hx HT Hv Hd H1 HS Hp. destruct (small_residual x tau Hx) as (M & f1 & f2 & H).
  apply (ideal_of p (fun d => f1 (d * v)) (fun d => f2 (d * v))); [unfold Rg; lra|exact Hd| |].
  - intros d Hd'. destruct (Hp d) as (a & Da & E). rewrite E. assert (0 < d * v) as Q by nra. destruct (H _ Q) as (D & _).
    assert (a = f1 (d * v) / (d * v)) as -> by (rewrite <- (is_derive_unique _ _ _ Da); exact (is_derive_unique _ _ _ D)). field. nra.
  - intros d Hd'. assert (0 < d * v) as Q by nra. assert (d * v <= 3 * d0 * v) as Q1 by nra. destruct (H _ Q) as (_ & D & C).
    destruct (C ltac:(lra)) as [C1 C2]. destruct (M (d * v) (3 * d0 * v) ltac:(lra)) as [_ M1]. split; [|lra].
    evar_last; [apply (is_derive_comp f1 (fun d => d * v)); [exact D|]|].
    + apply (is_derive_ext (fun d => v * d)); [intros; toR; ring|]. apply is_derive_scal, is_derive_id.
    + unfold scal, mult, one; cbn. unfold mult; cbn. toR. field. lra.
Qed.
