(* The slope of the GERG-2008 equation is bounded by the sum of the sizes of its terms, which varies slowly. *)
From Coq Require Import Reals ZArith List Bool Lra Lia Psatz.
From Coquelicot Require Import Coquelicot.
From Interval Require Import Tactic.
From Verif Require Import FArith ArithR StdGerg SpecStd SpecGerg SpecAll SpecSlopeG ConvDetail ConvGerg SlopeReal.
Import ListNotations.
Local Open Scope R_scope.

(* f with its first two logarithmic derivatives bounded by s1 and s1 + s2 *)
Definition sized (f s1 s2 : R -> R) : Prop := exists f1 f2 : R -> R, forall v, 0 < v ->
  is_derive f v (f1 v / v) /\ is_derive f1 v (f2 v / v) /\ Rabs (f1 v) <= s1 v /\ Rabs (f2 v) <= s1 v + s2 v.
Lemma sized_ext f g a b a' b' : (forall v, f v = g v) -> (forall v, a v = a' v) -> (forall v, b v = b' v) -> sized f a b -> sized g a' b'.
Proof.
  intros E1 E2 E3 (f1 & f2 & H). exists f1, f2. intros v Hv. destruct (H v Hv) as (A & B & C). split; [now apply (is_derive_ext f)|]. split; [exact B|].
  now rewrite <- E2, <- E3.
Qed.
Lemma sized_0 : sized (fun _ => 0) (fun _ => 0) (fun _ => 0).
Proof.
  exists (fun _ => 0), (fun _ => 0). intros v Hv. replace (0 / v) with 0 by (field; lra).
  split; [apply (@is_derive_const R_AbsRing R_NormedModule)|]. split; [apply (@is_derive_const R_AbsRing R_NormedModule)|]. rewrite Rabs_R0. lra.
Qed.
Lemma sized_plus f g a b a' b' : sized f a b -> sized g a' b' -> sized (fun v => f v + g v) (fun v => a v + a' v) (fun v => b v + b' v).
Proof.
  intros (f1 & f2 & H) (g1 & g2 & K).
  exists (fun v => f1 v + g1 v), (fun v => f2 v + g2 v). intros v Hv.
  destruct (H v Hv) as (A & B & C & D). destruct (K v Hv) as (A' & B' & C' & D'). rewrite !Rdiv_plus_distr.
  split; [now apply (@is_derive_plus R_AbsRing R_NormedModule)|]. split; [now apply (@is_derive_plus R_AbsRing R_NormedModule)|].
  split; (eapply Rle_trans; [apply Rabs_triang|lra]).
Qed.
Lemma sized_scal c f a b : sized f a b -> sized (fun v => c * f v) (fun v => Rabs c * a v) (fun v => Rabs c * b v).
Proof.
  intros (f1 & f2 & H). pose proof (Rabs_pos c) as Hc.
  exists (fun v => c * f1 v), (fun v => c * f2 v). intros v Hv. destruct (H v Hv) as (A & B & C & D).
  unfold Rdiv. rewrite !Rmult_assoc. split; [now apply is_derive_scal|]. split; [now apply is_derive_scal|].
  rewrite !Rabs_mult, <- Rmult_plus_distr_l. split; now apply Rmult_le_compat_l.
Qed.
Lemma sized_lsum {T} (f a b : R -> T -> R) l : (forall r, In r l -> sized (fun v => f v r) (fun v => a v r) (fun v => b v r)) ->
  sized (fun v => lsum (f v) l) (fun v => lsum (a v) l) (fun v => lsum (b v) l).
Proof.
  induction l as [|r l IH]; intros H; [exact sized_0|]. unfold lsum in *. cbn [fold_right]. apply sized_plus; [apply H; now left|].
  apply IH. intros q Hq. apply H. now right.
Qed.
Lemma sized_tot (f a b : R -> nat -> R) n : (forall r, (r < n)%nat -> sized (fun v => f v r) (fun v => a v r) (fun v => b v r)) ->
  sized (fun v => tot n (f v)) (fun v => tot n (a v)) (fun v => tot n (b v)).
Proof.
  induction n as [|n IH]; intros H; [exact sized_0|]. cbn [tot]. apply sized_plus; [|apply H; lia]. apply IH. intros q Hq. apply H. lia.
Qed.

(* z at v is at most K times z at nearby v' *)
Definition slw (K : R) (z : R -> R) : Prop := forall r v v', 1 <= r <= 1 + 1 / 8000000 -> 0 <= v -> 0 <= v' -> v <= r * v' -> v' <= r * v -> v <= 251 / 100 ->
  0 <= z v' /\ 0 <= z v <= K * z v'.
Lemma slw_ext K f g : (forall v, f v = g v) -> slw K f -> slw K g.
Proof. intros E H r v v' A B C D F G. rewrite <- !E. now apply (H r). Qed.
Lemma slw_weak K K' f : K <= K' -> slw K f -> slw K' f.
Proof. intros L H r v v' A B C D F G. destruct (H r v v' A B C D F G) as (P & Q & S). split; [exact P|split; [exact Q|nra]]. Qed.
Lemma slw_0 K : slw K (fun _ => 0).
Proof. intros r v v' A B C D F G. lra. Qed.
Lemma slw_1 K : 1 <= K -> slw K (fun _ => 1).
Proof. intros HK r v v' A B C D F G. lra. Qed.
Lemma slw_plus K f g : slw K f -> slw K g -> slw K (fun v => f v + g v).
Proof. intros H H' r v v' A B C D F G. destruct (H r v v' A B C D F G). destruct (H' r v v' A B C D F G). lra. Qed.
Lemma slw_scal K c f : 0 <= c -> slw K f -> slw K (fun v => c * f v).
Proof. intros Hc H r v v' A B C D F G. destruct (H r v v' A B C D F G) as (P & Q & S). split; [nra|]. split; [nra|]. replace (K * (c * f v')) with (c * (K * f v')) by ring. now apply Rmult_le_compat_l. Qed.
Lemma slw_mult K L f g : slw K f -> slw L g -> slw (K * L) (fun v => f v * g v).
Proof.
  intros H H' r v v' A B C D F G. destruct (H r v v' A B C D F G) as (P & Q & S). destruct (H' r v v' A B C D F G) as (P' & Q' & S').
  split; [nra|]. split; [nra|]. replace (K * L * (f v' * g v')) with (K * f v' * (L * g v')) by ring. apply Rmult_le_compat; lra.
Qed.
Lemma slw_lsum {T} K (f : R -> T -> R) l : (forall r, In r l -> slw K (fun v => f v r)) -> slw K (fun v => lsum (f v) l).
Proof.
  induction l as [|r l IH]; intros H; [apply slw_0|]. unfold lsum in *. cbn [fold_right]. apply slw_plus; [apply H; now left|].
  apply IH. intros q Hq. apply H. now right.
Qed.
Lemma slw_tot K (f : R -> nat -> R) n : (forall r, (r < n)%nat -> slw K (fun v => f v r)) -> slw K (fun v => tot n (f v)).
Proof. induction n as [|n IH]; intros H; [apply slw_0|]. cbn [tot]. apply slw_plus; [|apply H; lia]. apply IH. intros q Hq. apply H. lia. Qed.
Definition k6 := 1 + 8 / 10000000.
Lemma slw_pow n : (n <= 6)%nat -> slw k6 (fun v => v ^ n).
Proof.
  intros Hn r v v' A B C D F G. split; [now apply pow_le|]. split; [now apply pow_le|].
  eapply Rle_trans; [apply (pow_ratio n r v v' B D)|]. apply Rmult_le_compat_r; [now apply pow_le|].
  apply Rle_trans with (r ^ 6); [apply Rle_pow; [lra|exact Hn]|unfold k6; interval].
Qed.
Lemma slw_pow7 n : (n <= 7)%nat -> slw (1 + 1 / 1000000) (fun v => v ^ n).
Proof.
  intros Hn r v v' A B C D F G. split; [now apply pow_le|]. split; [now apply pow_le|].
  eapply Rle_trans; [apply (pow_ratio n r v v' B D)|]. apply Rmult_le_compat_r; [now apply pow_le|].
  apply Rle_trans with (r ^ 7); [apply Rle_pow; [lra|exact Hn]|interval].
Qed.
Lemma slw_c K c : 0 <= c -> 1 <= K -> slw K (fun _ => c).
Proof. intros H0 H r v v' A B C D F G. split; [lra|]. split; [lra|]. nra. Qed.
Lemma slw_ek c : (c <= 6)%nat -> slw (1 + 21 / 100000) (fun v => ek c v).
Proof.
  intros Hc r v v' A B C D F G. pose proof (ek_pos c v). pose proof (ek_pos c v'). split; [lra|]. split; [lra|].
  destruct c as [|c']. { unfold ek. lra. }
  set (c := S c') in *. change (ek c v) with (exp (- v ^ c)). change (ek c v') with (exp (- v' ^ c)).
  pose proof (pow_ratio c r v' v C F) as Q. assert (R6 : r ^ c <= k6) by (apply Rle_trans with (r ^ 6); [apply Rle_pow; [lra|exact Hc]|unfold k6; interval]).
  assert (V : 0 <= v ^ c <= 251). { split; [now apply pow_le|]. apply Rle_trans with ((251 / 100) ^ c); [apply pow_incr; lra|]. apply Rle_trans with ((251 / 100) ^ 6); [apply Rle_pow; [lra|exact Hc]|lra]. }
  apply Rle_trans with (exp (2 / 10000 + 8 / 10000000) * exp (- v' ^ c)).
  - rewrite <- exp_plus. apply exp_le. unfold k6 in R6. assert (r ^ c * v ^ c <= (1 + 8 / 10000000) * v ^ c) by (apply Rmult_le_compat_r; lra). lra.
  - apply Rmult_le_compat_r; [apply Rlt_le, exp_pos|interval].
Qed.
Lemma slw_pure_factor d c t e : (c <= 6)%nat -> (e = 1 \/ e = 2)%nat -> slw (k6 * k6) (fun v => pure_factor d c t v e).
Proof.
  intros Hc He. pose proof (pos_INR d) as Pd. pose proof (pos_INR c) as Pc. assert (K1 : 1 <= k6) by (unfold k6; lra).
  assert (SE : slw k6 (fun v => INR c * v ^ c)) by (apply slw_scal; [exact Pc|now apply slw_pow]).
  assert (SG : slw k6 (fun v => INR d + INR c * v ^ c)) by (apply slw_plus; [apply slw_c; lra|exact SE]).
  destruct He as [-> | ->]; unfold pure_factor; cbv zeta.
  - eapply slw_weak; [|exact SG]. unfold k6. lra.
  - apply slw_plus.
    + apply slw_mult; [exact SG|]. apply slw_plus; [exact SG|now apply slw_1].
    + apply slw_scal; [exact Pc|]. eapply slw_weak; [|exact SE]. unfold k6. lra.
Qed.
Lemma slw_dep_factor d t a b e : 0 <= a -> 0 <= b -> (e = 1 \/ e = 2)%nat -> slw (k6 * k6) (fun v => dep_factor d t (a * v ^ 2) (b * v) e).
Proof.
  intros Ha Hb He. pose proof (pos_INR d) as Pd. assert (K1 : 1 <= k6) by (unfold k6; lra).
  assert (S2 : slw k6 (fun v => 2 * (a * v ^ 2))) by (apply slw_scal; [lra|apply slw_scal; [exact Ha|apply slw_pow; lia]]).
  assert (S1 : slw k6 (fun v => b * v)) by (apply slw_scal; [exact Hb|]; eapply slw_ext; [|apply (slw_pow 1); lia]; intros; apply pow_1).
  assert (Sd : slw k6 (fun v => INR d + 2 * (a * v ^ 2))) by (apply slw_plus; [apply slw_c; lra|exact S2]).
  assert (SG : slw k6 (fun v => INR d + 2 * (a * v ^ 2) + b * v)) by (apply slw_plus; assumption).
  destruct He as [-> | ->]; unfold dep_factor; cbv zeta.
  - eapply slw_weak; [|exact SG]. unfold k6. lra.
  - apply (slw_ext _ (fun v => (INR d + 2 * (a * v ^ 2) + b * v) * (INR d + 2 * (a * v ^ 2) + b * v) + (INR d + 2 * (a * v ^ 2)))); [intros; ring|].
    apply slw_plus; [now apply slw_mult|]. eapply slw_weak; [|exact Sd]. unfold k6. lra.
Qed.
Lemma slw_gauss p0 p1 p2 p3 : 0 <= p0 <= 1 -> 0 <= p1 <= 1 -> 0 <= p2 <= 4 -> slw (1 + 1 / 100000) (fun v => exp (- p0 * (v - p1) ^ 2 - p2 * (v - p3))).
Proof.
  intros H0 H1 H2 r v v' A B C D F G. pose proof (exp_pos (- p0 * (v - p1) ^ 2 - p2 * (v - p3))). pose proof (exp_pos (- p0 * (v' - p1) ^ 2 - p2 * (v' - p3))).
  split; [lra|]. split; [lra|].
  assert (V : v' <= 252 / 100) by nra. assert (DV : Rabs (v' - v) <= 4 / 10000000). { apply Rabs_le. split; nra. } apply Rabs_le_between in DV.
  apply Rle_trans with (exp (6 / 1000000) * exp (- p0 * (v' - p1) ^ 2 - p2 * (v' - p3))).
  - rewrite <- exp_plus. apply exp_le.
    assert (p0 * ((v' - v) * (v' + v - 2 * p1)) <= 4 / 1000000).
    { assert (HH : Rabs ((v' - v) * (v' + v - 2 * p1)) <= 4 / 10000000 * 8). { rewrite Rabs_mult. apply Rmult_le_compat; try apply Rabs_pos; apply Rabs_le; lra. } apply Rabs_le_between in HH. nra. }
    assert (p2 * (v' - v) <= 2 / 1000000) by nra. lra.
  - apply Rmult_le_compat_r; [lra|interval].
Qed.
(* tables *)
Definition pure_top (r : lit * nat * lit * nat) : bool := let '(n, d, t, c) := r in Nat.leb d 7 && Nat.leb c 6.
Lemma pure_top_ok : forallb (forallb pure_top) PURE = true. Proof. vm_compute. reflexivity. Qed.
Definition le_lit (b : Z) (l : lit) : bool := let '(L m e) := l in Z.leb e 0 && Z.leb m (b * 10 ^ (- e)).
Lemma le_lit_ok b l : le_lit b l = true -> Rlit l <= IZR b.
Proof.
  destruct l as [m e]. unfold le_lit. intros H. apply andb_true_iff in H as [H1 H2]. apply Z.leb_le in H1, H2.
  destruct e as [|p|p]; [|lia|]; cbn [Rlit].
  - apply IZR_le. change (10 ^ (- 0))%Z with 1%Z in H2. lia.
  - apply IZR_le in H2. rewrite mult_IZR in H2. change (- Z.neg p)%Z with (Z.pos p) in H2.
    assert (0 < IZR (10 ^ Z.pos p)) by (apply IZR_lt; now apply Z.pow_pos_nonneg). apply Rmult_le_reg_r with (IZR (10 ^ Z.pos p)); [lra|]. unfold Rdiv. rewrite Rmult_assoc, Rinv_l, Rmult_1_r by lra. exact H2.
Qed.
Definition dep_top (r : lit * nat * lit * list lit) : bool := let '(n, d, t, w) := r in
  Nat.leb d 7 && le_lit 1 (nth 0 w (L 0 0)) && le_lit 1 (nth 1 w (L 0 0)) && le_lit 4 (nth 2 w (L 0 0)).
Lemma dep_top_ok : forallb (fun r => forallb dep_top (snd r)) DEPARTURE = true. Proof. vm_compute. reflexivity. Qed.
Lemma dep_rows_top m r : In r (dep_rows m) -> dep_top r = true.
Proof.
  unfold dep_rows. destruct (find _ _) as [[k l]|] eqn:F; [|intros []]. apply find_some in F. destruct F as [F _]. cbn [snd]. intros H.
  pose proof (proj1 (forallb_forall _ _) dep_top_ok _ F) as K. cbn [snd] in K. exact (proj1 (forallb_forall _ _) K _ H).
Qed.
Lemma pure_rows_top i r : In r (nth i PURE []) -> pure_top r = true.
Proof.
  intros H. destruct (nth_in_or_default i PURE []) as [K|K]; [|rewrite K in H; destruct H].
  exact (proj1 (forallb_forall _ _) (proj1 (forallb_forall _ _) pure_top_ok _ K) _ H).
Qed.
Definition kS := 1 + 1 / 4000.
Lemma slw_pure_w e tau r : (e = 1 \/ e = 2)%nat -> pure_top r = true -> slw kS (fun v => pure_w e v tau r).
Proof.
  intros He. destruct r as [[[n d] t] c]. cbn [pure_top]. intros H. apply andb_true_iff in H as [H1 H2]. apply Nat.leb_le in H1, H2.
  assert (0 < Rpower tau (Rlit t)) as Hp by apply exp_pos.
  eapply slw_weak; [|eapply slw_ext; [|apply (slw_scal _ (Rabs (Rlit n) * Rpower tau (Rlit t))); [|apply (slw_mult _ _ _ _ (slw_mult _ _ _ _ (slw_pow7 d H1) (slw_ek c H2)) (slw_pure_factor d c (Rabs (Rlit t)) e H2 He))]]].
  - unfold k6, kS. lra.
  - intros v. cbn [pure_w]. unfold ek. destruct c; ring.
  - apply Rmult_le_pos; [apply Rabs_pos|lra].
Qed.
Lemma slw_dep_w e tau r : (e = 1 \/ e = 2)%nat -> dep_ok r = true -> dep_top r = true -> slw kS (fun v => dep_w e v tau r).
Proof.
  intros He. destruct r as [[[n d] t] w]. cbn [dep_ok dep_top]. intros H K. apply andb_true_iff in H as [H H3]. apply andb_true_iff in H as [H H2]. apply andb_true_iff in H as [H H1].
  apply andb_true_iff in K as [K K3]. apply andb_true_iff in K as [K K2]. apply andb_true_iff in K as [K K1].
  apply Nat.leb_le in H, K. apply nonneg_ok in H1, H2, H3. apply le_lit_ok in K1, K2, K3.
  set (p0 := Rlit (nth 0 w (L 0 0))) in *. set (p1 := Rlit (nth 1 w (L 0 0))) in *. set (p2 := Rlit (nth 2 w (L 0 0))) in *.
  assert (0 < Rpower tau (Rlit t)) as Hp by apply exp_pos. assert (0 <= 2 * p0 * p1 + p2) by nra.
  eapply slw_weak; [|eapply slw_ext; [|apply (slw_scal _ (Rabs (Rlit n) * Rpower tau (Rlit t))); [|apply (slw_mult _ _ _ _ (slw_mult _ _ _ _ (slw_pow7 d K) (slw_gauss p0 p1 p2 (Rlit (nth 3 w (L 0 0))) ltac:(lra) ltac:(lra) ltac:(lra))) (slw_dep_factor d (Rabs (Rlit t)) p0 (2 * p0 * p1 + p2) e ltac:(lra) ltac:(lra) He))]]].
  - unfold k6, kS. lra.
  - intros v. cbn [dep_w]. cbv zeta. fold p0 p1 p2. ring.
  - apply Rmult_le_pos; [apply Rabs_pos|lra].
Qed.
Lemma slw_sum e x tau : (e = 1 \/ e = 2)%nat -> (forall i, 0 <= x i) -> slw kS (fun v => gerg_sum e x v tau).
Proof.
  intros He Hx. unfold gerg_sum. apply slw_plus.
  - apply (slw_tot kS (fun v m => x (S m) * lsum (pure_w e v tau) (nth (S m) PURE []))). intros m _. apply slw_scal; [apply Hx|].
    apply (slw_lsum kS (fun v => pure_w e v tau)). intros r Hr. apply slw_pure_w; [exact He|exact (pure_rows_top _ _ Hr)].
  - apply (slw_lsum kS (fun v r => let '(i, j, f, m) := r in x i * x j * Rabs (Rlit f) * lsum (dep_w e v tau) (dep_rows m))). intros [[[i j] f] m] _.
    apply slw_scal; [apply Rmult_le_pos; [apply Rmult_le_pos; apply Hx|apply Rabs_pos]|].
    apply (slw_lsum kS (fun v => dep_w e v tau)). intros r Hr. apply slw_dep_w; [exact He|exact (dep_rows_ok _ _ Hr)|exact (dep_rows_top _ _ Hr)].
Qed.
Lemma slw_slope x tau : (forall i, 0 <= x i) -> slw kS (fun v => gerg_slope x v tau).
Proof.
  intros Hx. unfold gerg_slope. apply slw_plus; [apply slw_plus; [apply slw_1; unfold kS; lra|apply slw_scal; [lra|]]|]; apply slw_sum; auto.
Qed.
Lemma sum_ge0 e x v tau : (e = 1 \/ e = 2)%nat -> (forall i, 0 <= x i) -> 0 <= v <= 251 / 100 -> 0 <= gerg_sum e x v tau.
Proof. intros He Hx Hv. apply (slw_sum e x tau He Hx 1 v v); lra. Qed.
Lemma gslope_ge x v tau : (forall i, 0 <= x i) -> 0 <= v <= 251 / 100 -> 1 <= 1 + gerg_sum 1 x v tau <= gerg_slope x v tau.
Proof. intros Hx Hv. pose proof (sum_ge0 1 x v tau ltac:(auto) Hx Hv). pose proof (sum_ge0 2 x v tau ltac:(auto) Hx Hv). unfold gerg_slope. lra. Qed.

(* the derivatives *)
Lemma sized_pow d c t : sized (fun v => v ^ d * ek c v) (fun v => v ^ d * ek c v * pure_factor d c t v 1) (fun v => v ^ d * ek c v * pure_factor d c t v 2).
Proof.
  exists (hb d c), (hb1 d c). intros v Hv. pose proof (pos_INR d) as Pd. pose proof (pos_INR c) as Pc. pose proof (ek_pos c v) as Pe. pose proof (pow_lt v d Hv) as Pv. pose proof (pow_lt v c Hv) as Py.
  split; [|split; [now apply hb_derive|]].
  - evar_last; [apply (@is_derive_mult R_AbsRing); [apply is_pow|apply is_ek|intros; apply Rmult_comm]|].
    unfold plus, mult; cbn -[INR pow]. unfold hb. apply (Rmult_eq_reg_l v); [|lra].
    replace (v * ((INR d - INR c * v ^ c) * v ^ d * ek c v / v)) with ((INR d - INR c * v ^ c) * v ^ d * ek c v) by (field; lra).
    transitivity (v * (INR d * v ^ pred d) * ek c v - v ^ d * (v * (INR c * v ^ pred c)) * ek c v); [ring|]. rewrite !pow_step. ring.
  - unfold hb, hb1, pure_factor. cbv zeta. set (y := v ^ c) in *. set (z := v ^ d) in *. set (e := ek c v) in *. assert (0 <= INR c * y) by nra.
    assert (0 < z * e) by nra.
    replace ((INR d - INR c * y) * z * e) with (z * e * (INR d - INR c * y)) by ring.
    replace (((INR d - INR c * y) ^ 2 - INR c ^ 2 * y) * z * e) with (z * e * ((INR d - INR c * y) ^ 2 - INR c ^ 2 * y)) by ring.
    rewrite <- Rmult_plus_distr_l, !Rabs_mult, !(Rabs_pos_eq z), !(Rabs_pos_eq e) by lra. set (D := INR d) in *. assert (0 <= INR c ^ 2 * y) by nra.
    replace (INR c * (INR c * y)) with (INR c ^ 2 * y) by ring. set (a := INR c * y) in *. set (q := INR c ^ 2 * y) in *.
    split; apply Rmult_le_compat_l; try nra; apply Rabs_le; split; nra.
Qed.
Lemma sized_gauss d p0 p1 p2 p3 t : 0 <= p0 -> 0 <= p1 -> 0 <= p2 ->
  let f v := v ^ d * exp (- p0 * (v - p1) ^ 2 - p2 * (v - p3)) in let k e v := dep_factor d t (p0 * v ^ 2) ((2 * p0 * p1 + p2) * v) e in
  sized f (fun v => f v * k 1%nat v) (fun v => f v * k 2%nat v).
Proof.
  intros H0 H1 H2. cbv zeta.
  exists (fun v => (INR d + (- 2 * p0 * v * (v - p1) - p2 * v)) * v ^ d * exp (- p0 * (v - p1) ^ 2 - p2 * (v - p3))),
    (fun v => ((INR d + (- 2 * p0 * v * (v - p1) - p2 * v)) ^ 2 + (- 2 * p0 * v * (2 * v - p1) - p2 * v)) * v ^ d * exp (- p0 * (v - p1) ^ 2 - p2 * (v - p3))).
  intros v Hv. split; [exact (gauss_d d p0 p1 p2 p3 v Hv)|]. split; [exact (gauss_d1 d p0 p1 p2 p3 v Hv)|].
  pose proof (pos_INR d) as Pd. pose proof (pow_lt v d Hv) as Pv. pose proof (exp_pos (- p0 * (v - p1) ^ 2 - p2 * (v - p3))) as Pe.
  unfold dep_factor. cbv zeta. set (e := exp _) in *. set (z := v ^ d) in *. set (D := INR d) in *.
  assert (C0 : 0 <= p0 * v ^ 2) by (apply Rmult_le_pos; [lra|apply pow2_ge_0]). assert (E0 : 0 <= (2 * p0 * p1 + p2) * v) by (apply Rmult_le_pos; nra).
  replace (- 2 * p0 * v * (v - p1) - p2 * v) with (- (2 * (p0 * v ^ 2)) + (2 * p0 * p1 * v - p2 * v)) by ring.
  replace (- 2 * p0 * v * (2 * v - p1) - p2 * v) with (- (4 * (p0 * v ^ 2)) + (2 * p0 * p1 * v - p2 * v)) by ring.
  assert (EE : Rabs (2 * p0 * p1 * v - p2 * v) <= (2 * p0 * p1 + p2) * v). { apply Rabs_le. assert (0 <= p0 * p1 * v) by (apply Rmult_le_pos; nra). assert (0 <= p2 * v) by nra. split; lra. }
  set (C := p0 * v ^ 2) in *. set (E := (2 * p0 * p1 + p2) * v) in *. set (h := 2 * p0 * p1 * v - p2 * v) in *. clearbody C E h e z D. apply Rabs_le_between in EE.
  assert (0 < z * e) by nra.
  rewrite <- Rmult_plus_distr_l, !Rabs_mult, !(Rabs_pos_eq z), !(Rabs_pos_eq e) by lra.
  rewrite !(Rmult_assoc (Rabs _)), !(Rmult_comm (Rabs _)).
  split; apply Rmult_le_compat_l; try lra; apply Rabs_le; split; nra.
Qed.
Lemma sized_residual x tau : (forall i, 0 <= x i) -> sized (fun v => residual x v tau) (fun v => gerg_sum 1 x v tau) (fun v => gerg_sum 2 x v tau).
Proof.
  intros Hx. unfold residual, gerg_sum. apply sized_plus.
  - apply (sized_tot (fun v m => x (S m) * lsum (pure_term v tau) (nth (S m) PURE [])) (fun v m => x (S m) * lsum (pure_w 1 v tau) (nth (S m) PURE [])) (fun v m => x (S m) * lsum (pure_w 2 v tau) (nth (S m) PURE []))). intros m _.
    eapply sized_ext; [reflexivity| | |apply (sized_scal (x (S m)) (fun v => lsum (pure_term v tau) (nth (S m) PURE [])) (fun v => lsum (pure_w 1 v tau) (nth (S m) PURE [])) (fun v => lsum (pure_w 2 v tau) (nth (S m) PURE [])))].
    1,2: intros v; cbv beta; now rewrite (Rabs_pos_eq (x (S m)) (Hx _)).
    apply (sized_lsum (fun v => pure_term v tau) (fun v => pure_w 1 v tau) (fun v => pure_w 2 v tau)). intros [[[n d] t] c] _.
    assert (0 < Rpower tau (Rlit t)) as Hp by apply exp_pos.
    eapply sized_ext; [| | |apply (sized_scal (Rlit n * Rpower tau (Rlit t))), (sized_pow d c (Rabs (Rlit t)))]; intros v; cbn [pure_term pure_w]; rewrite ?Rabs_mult, ?(Rabs_pos_eq (Rpower _ _)) by lra; unfold ek; destruct c; ring.
  - apply (sized_lsum (fun v r => let '(i, j, f, m) := r in x i * x j * Rlit f * lsum (dep_term v tau) (dep_rows m))
      (fun v r => let '(i, j, f, m) := r in x i * x j * Rabs (Rlit f) * lsum (dep_w 1 v tau) (dep_rows m))
      (fun v r => let '(i, j, f, m) := r in x i * x j * Rabs (Rlit f) * lsum (dep_w 2 v tau) (dep_rows m))).
    intros [[[i j] f] m] _.
    eapply sized_ext; [reflexivity| | |apply (sized_scal (x i * x j * Rlit f) (fun v => lsum (dep_term v tau) (dep_rows m)) (fun v => lsum (dep_w 1 v tau) (dep_rows m)) (fun v => lsum (dep_w 2 v tau) (dep_rows m)))].
    1,2: intros v; cbv beta; rewrite !Rabs_mult, (Rabs_pos_eq (x i)), (Rabs_pos_eq (x j)) by apply Hx; reflexivity.
    apply (sized_lsum (fun v => dep_term v tau) (fun v => dep_w 1 v tau) (fun v => dep_w 2 v tau)). intros r Hr. apply dep_rows_ok in Hr. revert Hr.
    destruct r as [[[n d] t] w]. cbn [dep_ok]. intros H. apply andb_true_iff in H as [H H3]. apply andb_true_iff in H as [H H2]. apply andb_true_iff in H as [H H1].
    apply nonneg_ok in H1, H2, H3.
    assert (0 < Rpower tau (Rlit t)) as Hp by apply exp_pos.
    eapply sized_ext; [| | |apply (sized_scal (Rlit n * Rpower tau (Rlit t))), (sized_gauss d _ _ _ (Rlit (nth 3 w (L 0 0))) (Rabs (Rlit t)) H1 H2 H3)]; intros v; cbn [dep_term dep_w]; cbv zeta; rewrite ?Rabs_mult, ?(Rabs_pos_eq (Rpower _ _)) by lra; ring.
Qed.

(* a pressure function d Rg T (1 + delta alpha') *)
Section P.
Variables (x : nat -> R) (tau v T : R) (p : R -> R).
Hypothesis Hx : forall i, 0 <= x i.
Hypothesis HT : 0 < T.
Hypothesis Hv : 0 < v.
Hypothesis Hp : forall d, exists a' : R, is_derive (fun delta => residual x delta tau) (d * v) a' /\ p d = d * Rg * T * (1 + d * v * a').
Local Notation GS d := (gerg_slope x (d * v) tau).
Lemma p_der d : 0 < d -> exists q, is_derive p d q /\ Rabs q <= Rg * T * GS d.
Proof.
  intros Hd. destruct (sized_residual x tau Hx) as (f1 & f2 & H).
  assert (E : forall e, 0 < e -> p e = e * Rg * T * (1 + f1 (e * v))).
  { intros e He. destruct (Hp e) as (a & Da & ->). assert (Q : 0 < e * v) by nra. destruct (H _ Q) as (D & _).
    assert (a = f1 (e * v) / (e * v)) as -> by (rewrite <- (is_derive_unique _ _ _ Da); exact (is_derive_unique _ _ _ D)). field. nra. }
  assert (Q : 0 < d * v) by nra. destruct (H _ Q) as (_ & D & B1 & B2).
  exists (Rg * T * (1 + f1 (d * v) + f2 (d * v))). split.
  - apply (is_derive_ext_loc (fun e => Rg * T * (e * (1 + f1 (e * v))))).
    + exists (mkposreal d Hd). intros y Hy. rewrite E; [toR; ring|]. unfold ball in Hy; cbn in Hy. unfold AbsRing_ball, abs, minus, plus, opp in Hy; cbn in Hy.
      apply Rabs_def2 in Hy. lra.
    + apply is_derive_scal. evar_last; [apply (@is_derive_mult R_AbsRing); [apply is_derive_id|apply (@is_derive_plus R_AbsRing R_NormedModule); [apply is_derive_const|]|intros; apply Rmult_comm]|].
      * apply (is_derive_comp f1 (fun d => d * v)); [exact D|]. apply (is_derive_ext (fun d => v * d)); [intros; toR; ring|]. apply is_derive_scal, is_derive_id.
      * unfold plus, mult, one, zero, scal; cbn. unfold mult; cbn. toR. field. nra.
  - rewrite Rabs_mult, (Rabs_pos_eq (Rg * T)) by (unfold Rg; nra). apply Rmult_le_compat_l; [unfold Rg; nra|].
    eapply Rle_trans; [apply Rabs_triang|]. unfold gerg_slope. pose proof (Rabs_triang 1 (f1 (d * v))) as Q1. rewrite Rabs_R1 in Q1. lra.
Qed.
Lemma gp_close r d d' : 1 <= r <= 1 + 1 / 8000000 -> 0 < d -> 0 < d' -> d <= r * d' -> d' <= r * d -> d * v <= 5 / 2 ->
  Rabs (p d' - p d) <= (r - 1) * (1 + 1 / 1000) * (d * Rg * T * GS d).
Proof.
  intros Hr H0 H0' H1 H2 HD.
  destruct (MVT_gen p d d' (Derive p)) as (c & Hc & E).
  - intros z Hz. assert (0 < z) by (unfold Rmin in Hz; destruct (Rle_dec d d'); lra). destruct (p_der z H) as (q & D & _). apply Derive_correct. now exists q.
  - intros z Hz. assert (0 < z) by (unfold Rmin in Hz; destruct (Rle_dec d d'); lra). destruct (p_der z H) as (q & D & _). apply continuity_pt_filterlim, (@ex_derive_continuous R_AbsRing R_NormedModule). now exists q.
  - rewrite E, Rabs_mult. assert (C : d <= r * c /\ c <= r * d /\ 0 < c).
    { unfold Rmin, Rmax in Hc. destruct (Rle_dec d d'); repeat split; nra. }
    destruct C as (C1 & C2 & C3). destruct (p_der c C3) as (q & D & SA). rewrite (is_derive_unique _ _ _ D).
    assert (DV : 0 < d * v) by nra. assert (CV : c * v <= 251 / 100) by (assert (c * v <= r * (d * v)) by nra; nra).
    destruct (slw_slope x tau Hx r (c * v) (d * v) Hr ltac:(nra) ltac:(nra) ltac:(nra) ltac:(nra) CV) as (G1 & G2 & G3).
    assert (DD : Rabs (d' - d) <= (r - 1) * (1 + 1 / 8000000) * d) by (apply Rabs_le; split; nra).
    set (S := GS d) in *. set (Sc := GS c) in *. assert (PR : 0 < Rg) by (unfold Rg; lra).
    apply Rle_trans with (Rg * T * (kS * S) * ((r - 1) * (1 + 1 / 8000000) * d)).
    + apply Rmult_le_compat; try apply Rabs_pos; [|exact DD]. eapply Rle_trans; [exact SA|]. apply Rmult_le_compat_l; [apply Rmult_le_pos; lra|exact G3].
    + replace (Rg * T * (kS * S) * ((r - 1) * (1 + 1 / 8000000) * d)) with ((r - 1) * (kS * (1 + 1 / 8000000)) * (d * Rg * T * S)) by ring.
      apply Rmult_le_compat_r. { repeat apply Rmult_le_pos; lra. } apply Rmult_le_compat_l; [lra|]. unfold kS. lra.
Qed.
End P.
