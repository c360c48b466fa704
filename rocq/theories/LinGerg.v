(* The residual of the GERG equation to first order in the reduced density, with its sign. *)
From Coq Require Import Reals ZArith List Bool Lra Lia Psatz.
From Coquelicot Require Import Coquelicot.
From Verif Require Import FArith ArithR StdGerg SpecStd SpecConv SpecGerg ConvDetail ConvGerg GasTight.
Import ListNotations.
Local Open Scope R_scope.

(* f with its first two logarithmic derivatives within v z v of a v up to 1 *)
Definition lins (f : R -> R) (a : R) (z : R -> R) : Prop := (forall u v, 0 <= u <= v -> 0 <= z u <= z v) /\
  exists f1 f2 : R -> R, forall v, 0 < v -> is_derive f v (f1 v / v) /\ is_derive f1 v (f2 v / v) /\
    (v <= 1 -> Rabs (f1 v - a * v) <= v * z v /\ Rabs (f2 v - a * v) <= v * z v).
Lemma lins_ext f g a b z y : (forall v, f v = g v) -> a = b -> (forall v, z v = y v) -> lins f a z -> lins g b y.
Proof.
  intros E1 <- E2 (M & f1 & f2 & H). split; [intros u v Hab; rewrite <- !E2; now apply M|]. exists f1, f2. intros v Hv.
  destruct (H v Hv) as (A & B & C). split; [now apply (is_derive_ext f)|]. split; [exact B|]. now rewrite <- E2.
Qed.
Lemma lins_0 : lins (fun _ => 0) 0 (fun _ => 0).
Proof.
  split; [intros; lra|]. exists (fun _ => 0), (fun _ => 0). intros v Hv. replace (0 / v) with 0 by (field; lra).
  split; [apply (@is_derive_const R_AbsRing R_NormedModule)|]. split; [apply (@is_derive_const R_AbsRing R_NormedModule)|].
  intros _. replace (0 - 0 * v) with 0 by ring. rewrite Rabs_R0. lra.
Qed.
Lemma lins_plus f g a b z y : lins f a z -> lins g b y -> lins (fun v => f v + g v) (a + b) (fun v => z v + y v).
Proof.
  intros (M & f1 & f2 & H) (N & g1 & g2 & K). split; [intros u v Hab; specialize (M u v Hab); specialize (N u v Hab); lra|].
  exists (fun v => f1 v + g1 v), (fun v => f2 v + g2 v). intros v Hv.
  destruct (H v Hv) as (A & B & C). destruct (K v Hv) as (A' & B' & C'). rewrite !Rdiv_plus_distr.
  split; [now apply (@is_derive_plus R_AbsRing R_NormedModule)|]. split; [now apply (@is_derive_plus R_AbsRing R_NormedModule)|].
  intros L. destruct (C L), (C' L). split.
  - replace (f1 v + g1 v - (a + b) * v) with ((f1 v - a * v) + (g1 v - b * v)) by ring. eapply Rle_trans; [apply Rabs_triang|lra].
  - replace (f2 v + g2 v - (a + b) * v) with ((f2 v - a * v) + (g2 v - b * v)) by ring. eapply Rle_trans; [apply Rabs_triang|lra].
Qed.
Lemma lins_scal c f a z : lins f a z -> lins (fun v => c * f v) (c * a) (fun v => Rabs c * z v).
Proof.
  intros (M & f1 & f2 & H). pose proof (Rabs_pos c) as Hc. split; [intros u v Hab; specialize (M u v Hab); nra|].
  exists (fun v => c * f1 v), (fun v => c * f2 v). intros v Hv. destruct (H v Hv) as (A & B & C).
  unfold Rdiv. rewrite !Rmult_assoc. split; [now apply is_derive_scal|]. split; [now apply is_derive_scal|].
  intros L. destruct (C L) as [C1 C2]. rewrite <- !Rmult_minus_distr_l, !Rabs_mult. rewrite (Rmult_comm v (Rabs c * z v)), !Rmult_assoc, (Rmult_comm (z v) v). split; now apply Rmult_le_compat_l.
Qed.
Lemma lins_lsum {T} (f z : R -> T -> R) (a : T -> R) l : (forall r, In r l -> lins (fun v => f v r) (a r) (fun v => z v r)) ->
  lins (fun v => lsum (f v) l) (lsum a l) (fun v => lsum (z v) l).
Proof.
  induction l as [|r l IH]; intros H; [exact lins_0|]. unfold lsum in *. cbn [fold_right]. apply lins_plus; [apply H; now left|].
  apply IH. intros q Hq. apply H. now right.
Qed.
Lemma lins_tot (f z : R -> nat -> R) (a : nat -> R) n : (forall r, (r < n)%nat -> lins (fun v => f v r) (a r) (fun v => z v r)) ->
  lins (fun v => tot n (f v)) (tot n a) (fun v => tot n (z v)).
Proof.
  induction n as [|n IH]; intros H; [exact lins_0|]. cbn [tot]. apply lins_plus; [|apply H; lia]. apply IH. intros q Hq. apply H. lia.
Qed.
Lemma lins_small f z : (forall u v, 0 <= u <= v -> 0 <= z u <= z v) -> small f (fun v => v * z v) -> lins f 0 z.
Proof.
  intros M (_ & f1 & f2 & H). split; [exact M|]. exists f1, f2. intros v Hv. destruct (H v Hv) as (A & B & C). split; [exact A|]. split; [exact B|].
  intros L. rewrite Rmult_0_l, !Rminus_0_r. now apply C.
Qed.

(* the factors of the terms *)
Definition key1 (k : nat * nat) : R := if Nat.eqb (fst k) 1 then 1 else 0.
Definition keyz (v : R) (k : nat * nat) : R := let '(d, c) := k in
  if Nat.eqb d 1 then match c with O => 0 | _ => INR ((1 + c) * (1 + c)) * v ^ c end else wt d c v * v ^ pred d.
Lemma is_hb d c v : 0 < v -> is_derive (fun v => v ^ d * ek c v) v (hb d c v / v).
Proof.
  intros Hv. evar_last; [apply (@is_derive_mult R_AbsRing); [apply is_pow|apply is_ek|intros; apply Rmult_comm]|].
  unfold plus, mult; cbn -[INR pow]. unfold hb. apply (Rmult_eq_reg_l v); [|lra].
  replace (v * ((INR d - INR c * v ^ c) * v ^ d * ek c v / v)) with ((INR d - INR c * v ^ c) * v ^ d * ek c v) by (field; lra).
  transitivity (v * (INR d * v ^ pred d) * ek c v - v ^ d * (v * (INR c * v ^ pred c)) * ek c v); [ring|]. rewrite !pow_step. ring.
Qed.
Lemma lins_pow d c : (1 <= d)%nat -> lins (fun v => v ^ d * ek c v) (key1 (d, c)) (fun v => keyz v (d, c)).
Proof.
  intros Hd. unfold key1, keyz. cbn [fst]. destruct (Nat.eqb_spec d 1) as [->|E].
  - split.
    + intros u v Huv. destruct c as [|c]; [lra|]. pose proof (pos_INR ((1 + S c) * (1 + S c))). assert (0 <= u ^ S c) by (apply pow_le; lra). pose proof (pow_incr u v (S c) Huv). nra.
    + exists (hb 1 c), (hb1 1 c). intros v Hv. split; [|split; [now apply hb_derive|]].
      * now apply is_hb.
      * intros L. destruct c as [|c].
        { unfold hb, hb1, ek. cbn [INR pow]. split; match goal with |- Rabs ?e <= _ => replace e with 0 by ring end; rewrite Rabs_R0; lra. }
        rewrite !Rmult_1_l. destruct (hb_first (S c) v ltac:(lia) ltac:(lra)) as [A B]. replace (v * (INR ((1 + S c) * (1 + S c)) * v ^ S c)) with (INR ((1 + S c) * (1 + S c)) * v ^ S (S c)) by (cbn [pow]; ring). now split.
  - apply lins_small.
    + intros u v Huv. destruct (wt_mono d c u v Huv). assert (0 <= u ^ pred d) by (apply pow_le; lra). pose proof (pow_incr u v (pred d) Huv). nra.
    + eapply small_ext; [reflexivity| |apply (small_pow d c Hd)]. intros v. cbv beta. destruct d as [|d]; [lia|]. cbn [pred pow]. ring.
Qed.
Definition dkz (v : R) (k : nat * list lit) : R := let '(d, w) := k in
  let p c := Rlit (nth c w (L 0 0)) in let e := 2 * p 0%nat * v * (v + p 1%nat) + p 2%nat * v in
  ((INR d + e) ^ 2 + e + 2 * p 0%nat * v ^ 2) * exp (p 2%nat * p 3%nat) * v ^ pred d.
Definition dkf (v : R) (k : nat * list lit) : R := let '(d, w) := k in
  let p c := Rlit (nth c w (L 0 0)) in v ^ d * exp (- p 0%nat * (v - p 1%nat) ^ 2 - p 2%nat * (v - p 3%nat)).
Definition dk_ok (k : nat * list lit) : bool := let '(d, w) := k in
  Nat.leb 1 d && nonneg_lit (nth 0 w (L 0 0)) && nonneg_lit (nth 1 w (L 0 0)) && nonneg_lit (nth 2 w (L 0 0)).
Lemma lins_gauss k : dk_ok k = true -> lins (fun v => dkf v k) 0 (fun v => dkz v k).
Proof.
  destruct k as [d w]. cbn [dk_ok]. intros H. apply andb_true_iff in H as [H H3]. apply andb_true_iff in H as [H H2]. apply andb_true_iff in H as [H H1].
  apply Nat.leb_le in H. apply nonneg_ok in H1, H2, H3. apply lins_small.
  - intros a b Hab. cbn [dkz]. cbv zeta. set (p0 := Rlit (nth 0 w (L 0 0))) in *. set (p1 := Rlit (nth 1 w (L 0 0))) in *. set (p2 := Rlit (nth 2 w (L 0 0))) in *. set (p3 := Rlit (nth 3 w (L 0 0))).
    set (e v := 2 * p0 * v * (v + p1) + p2 * v). change (2 * p0 * a * (a + p1) + p2 * a) with (e a). change (2 * p0 * b * (b + p1) + p2 * b) with (e b).
    assert (Em : 0 <= e a <= e b). { unfold e. assert (0 <= p0 * a <= p0 * b) by nra. assert (0 <= p0 * a * (a + p1) <= p0 * b * (b + p1)) by nra. assert (0 <= p2 * a <= p2 * b) by nra. lra. }
    assert (Q : 0 <= p0 * a ^ 2 <= p0 * b ^ 2) by (assert (0 <= a ^ 2 <= b ^ 2) by nra; nra). pose proof (pos_INR d) as Pd. pose proof (exp_pos (p2 * p3)) as X. assert (0 <= a ^ pred d) by (apply pow_le; lra). pose proof (pow_incr a b (pred d) Hab).
    set (ea := e a) in *. set (eb := e b) in *. clearbody ea eb. clear e. set (xa := p0 * a ^ 2) in *. set (xb := p0 * b ^ 2) in *. replace (2 * p0 * a ^ 2) with (2 * xa) by (unfold xa; ring). replace (2 * p0 * b ^ 2) with (2 * xb) by (unfold xb; ring). clearbody xa xb.
    set (y := exp (p2 * p3)) in *. set (u := a ^ pred d) in *. set (w' := b ^ pred d) in *. clearbody y u w'.
    assert (W : 0 <= (INR d + ea) ^ 2 + ea + 2 * xa <= (INR d + eb) ^ 2 + eb + 2 * xb) by nra. set (k1 := (INR d + ea) ^ 2 + ea + 2 * xa) in *. set (k2 := (INR d + eb) ^ 2 + eb + 2 * xb) in *. clearbody k1 k2.
    assert (0 <= k1 * y <= k2 * y) by nra. set (l1 := k1 * y) in *. set (l2 := k2 * y) in *. clearbody l1 l2. nra.
  - eapply small_ext; [| |apply (small_gauss d _ _ _ (Rlit (nth 3 w (L 0 0))) H H1 H2 H3)]; intros v; cbn [dkf dkz]; cbv zeta; [reflexivity|].
    destruct d as [|d]; [lia|]. cbn [pred]. set (q := INR (S d)). cbn [pow]. ring.
Qed.

(* rows with the same factor taken together *)
Section Grp.
Context {K : Type}.
Variable eqb : K -> K -> bool.
Fixpoint grp (l : list (lit * lit * K)) : list (K * list (lit * lit)) := match l with
  | [] => []
  | (n, t, k) :: l => match grp l with (k', q) :: g => if eqb k k' then (k, (n, t) :: q) :: g else (k, [(n, t)]) :: (k', q) :: g | [] => [(k, [(n, t)])] end
  end.
Definition gs (tau : R) (l : list (lit * lit)) : R := lsum (fun r => Rlit (fst r) * Rpower tau (Rlit (snd r))) l.
Hypothesis eqb_ok : forall a b, eqb a b = true -> a = b.
Lemma grp_sum (F : K -> R) tau l : lsum (fun r => let '(n, t, k) := r in Rlit n * Rpower tau (Rlit t) * F k) l = lsum (fun g => gs tau (snd g) * F (fst g)) (grp l).
Proof.
  induction l as [|[[n t] k] l IH]; [reflexivity|]. unfold lsum in *. cbn [grp fold_right]. rewrite IH. destruct (grp l) as [|[k' q] g].
  - cbn [fold_right fst snd]. unfold gs, lsum. cbn [fold_right fst snd]. ring.
  - destruct (eqb k k') eqn:E; cbn [fold_right fst snd]; unfold gs, lsum; cbn [fold_right fst snd]; [apply eqb_ok in E; subst|]; ring.
Qed.
Lemma grp_all (P : K -> bool) l : forallb (fun r => P (snd r)) l = true -> forallb (fun g => P (fst g)) (grp l) = true.
Proof.
  induction l as [|[[n t] k] l IH]; [reflexivity|]. cbn [forallb grp snd]. intros H. apply andb_true_iff in H as [H1 H2]. specialize (IH H2). destruct (grp l) as [|[k' q] g].
  - cbn. now rewrite H1.
  - cbn [forallb fst] in IH. apply andb_true_iff in IH as [I1 I2]. destruct (eqb k k'); cbn [forallb fst]; rewrite ?H1, ?I1, I2; reflexivity.
Qed.
End Grp.
Definition eqk (a b : nat * nat) : bool := Nat.eqb (fst a) (fst b) && Nat.eqb (snd a) (snd b).
Lemma eqk_ok a b : eqk a b = true -> a = b.
Proof. destruct a, b. unfold eqk. cbn. intros H. apply andb_true_iff in H as [H1 H2]. apply Nat.eqb_eq in H1, H2. now subst. Qed.
Definition eql (a b : lit) : bool := let '(L m e) := a in let '(L n f) := b in Z.eqb m n && Z.eqb e f.
Fixpoint eqw (a b : list lit) : bool := match a, b with [], [] => true | x :: a, y :: b => eql x y && eqw a b | _, _ => false end.
Lemma eqw_ok a : forall b, eqw a b = true -> a = b.
Proof.
  induction a as [|[m e] a IH]; intros [|[n f] b]; cbn; try discriminate; [reflexivity|]. intros H. apply andb_true_iff in H as [H1 H2]. apply andb_true_iff in H1 as [H0 H1].
  apply Z.eqb_eq in H0, H1. apply IH in H2. now subst.
Qed.
Definition eqd (a b : nat * list lit) : bool := Nat.eqb (fst a) (fst b) && eqw (snd a) (snd b).
Lemma eqd_ok a b : eqd a b = true -> a = b.
Proof. destruct a, b. unfold eqd. cbn. intros H. apply andb_true_iff in H as [H1 H2]. apply Nat.eqb_eq in H1. apply eqw_ok in H2. now subst. Qed.
Definition pgrp (m : nat) := grp eqk (map (fun r : lit * nat * lit * nat => let '(n, d, t, c) := r in (n, t, (d, c))) (nth m PURE [])).
Definition dgrp (m : nat) := grp eqd (map (fun r : lit * nat * lit * list lit => let '(n, d, t, w) := r in (n, t, (d, w))) (dep_rows m)).
Lemma lsum_map {S T} (f : T -> R) (g : S -> T) l : lsum f (map g l) = lsum (fun r => f (g r)) l.
Proof. induction l as [|r l IH]; [reflexivity|]. unfold lsum in *. cbn. now rewrite IH. Qed.
Lemma lsum_ext' {T} (f g : T -> R) l : (forall r, In r l -> f r = g r) -> lsum f l = lsum g l.
Proof. induction l as [|r l IH]; [reflexivity|]. unfold lsum in *. cbn. intros H. rewrite IH; [rewrite H; [reflexivity|now left]|]. intros q Hq. apply H. now right. Qed.
Lemma pgrp_sum m v tau : lsum (pure_term v tau) (nth m PURE []) = lsum (fun g => gs tau (snd g) * (let '(d, c) := fst g in v ^ d * ek c v)) (pgrp m).
Proof.
  unfold pgrp. rewrite <- (grp_sum eqk eqk_ok (fun k => let '(d, c) := k in v ^ d * ek c v)), lsum_map. apply lsum_ext'. intros [[[n d] t] c] _. cbn [pure_term]. unfold ek. destruct c; ring.
Qed.
Lemma dgrp_sum m v tau : lsum (dep_term v tau) (dep_rows m) = lsum (fun g => gs tau (snd g) * dkf v (fst g)) (dgrp m).
Proof.
  unfold dgrp. rewrite <- (grp_sum eqd eqd_ok (fun k => dkf v k)), lsum_map. apply lsum_ext'. intros [[[n d] t] w] _. cbn [dep_term dkf]. cbv zeta. ring.
Qed.

Definition first (x : nat -> R) (tau : R) : R := tot 21 (fun m => x (S m) * lsum (fun g => gs tau (snd g) * key1 (fst g)) (pgrp (S m))).
Definition rest (x : nat -> R) (v tau : R) : R := tot 21 (fun m => x (S m) * lsum (fun g => Rabs (gs tau (snd g)) * keyz v (fst g)) (pgrp (S m)))
  + lsum (fun r => let '(i, j, f, m) := r in x i * x j * Rabs (Rlit f) * lsum (fun g => Rabs (gs tau (snd g)) * dkz v (fst g)) (dgrp m)) DEPARTS.
Lemma pgrp_ok m g : In g (pgrp m) -> (1 <= fst (fst g))%nat.
Proof.
  intros H. assert (K : forallb (fun g => Nat.leb 1 (fst (fst g))) (pgrp m) = true).
  { unfold pgrp. apply (grp_all eqk (fun k => Nat.leb 1 (fst k))). apply forallb_forall. intros r Hr. apply in_map_iff in Hr. destruct Hr as ([[[n d] t] c] & <- & Hr).
    apply pure_rows_ok in Hr. exact Hr. }
  apply Nat.leb_le. exact (proj1 (forallb_forall _ _) K _ H).
Qed.
Lemma dgrp_ok m g : In g (dgrp m) -> dk_ok (fst g) = true.
Proof.
  intros H. assert (K : forallb (fun g => dk_ok (fst g)) (dgrp m) = true).
  { unfold dgrp. apply (grp_all eqd dk_ok). apply forallb_forall. intros r Hr. apply in_map_iff in Hr. destruct Hr as ([[[n d] t] w] & <- & Hr).
    apply dep_rows_ok in Hr. exact Hr. }
  exact (proj1 (forallb_forall _ _) K _ H).
Qed.
Lemma residual_lins x tau : (forall i, 0 <= x i) -> lins (fun v => residual x v tau) (first x tau) (fun v => rest x v tau).
Proof.
  intros Hx. eapply lins_ext; [intros v; reflexivity|apply Rplus_0_r|reflexivity|]. unfold residual, first, rest. apply lins_plus.
  - apply (lins_tot (fun v m => x (S m) * lsum (pure_term v tau) (nth (S m) PURE [])) (fun v m => x (S m) * lsum (fun g => Rabs (gs tau (snd g)) * keyz v (fst g)) (pgrp (S m)))). intros m _.
    eapply lins_ext; [intros v; exact (f_equal (Rmult (x (S m))) (eq_sym (pgrp_sum (S m) v tau)))|reflexivity|intros v; exact (f_equal (fun k => k * _) (Rabs_pos_eq (x (S m)) (Hx _)))|].
    apply (lins_scal (x (S m)) (fun v => lsum (fun g => gs tau (snd g) * (let '(d, c) := fst g in v ^ d * ek c v)) (pgrp (S m))) _ (fun v => lsum (fun g => Rabs (gs tau (snd g)) * keyz v (fst g)) (pgrp (S m)))).
    apply (lins_lsum (fun v g => gs tau (snd g) * (let '(d, c) := fst g in v ^ d * ek c v)) (fun v g => Rabs (gs tau (snd g)) * keyz v (fst g))). intros [[d c] q] Hg. apply pgrp_ok in Hg. cbn [fst snd] in *.
    apply (lins_scal (gs tau q) (fun v => v ^ d * ek c v) (key1 (d, c)) (fun v => keyz v (d, c))). now apply lins_pow.
  - replace 0 with (lsum (fun _ : nat * nat * lit * nat => 0) DEPARTS) by (unfold lsum; induction DEPARTS as [|r l IH]; [reflexivity|]; cbn; rewrite IH; ring).
    apply (lins_lsum (fun v r => let '(i, j, f, m) := r in x i * x j * Rlit f * lsum (dep_term v tau) (dep_rows m))
      (fun v r => let '(i, j, f, m) := r in x i * x j * Rabs (Rlit f) * lsum (fun g => Rabs (gs tau (snd g)) * dkz v (fst g)) (dgrp m))).
    intros [[[i j] f] m] _. eapply lins_ext; [intros v; exact (f_equal (Rmult (x i * x j * Rlit f)) (eq_sym (dgrp_sum m v tau)))|apply (Rmult_0_r (x i * x j * Rlit f))| |].
    2: apply (lins_scal (x i * x j * Rlit f) (fun v => lsum (fun g => gs tau (snd g) * dkf v (fst g)) (dgrp m)) 0 (fun v => lsum (fun g => Rabs (gs tau (snd g)) * dkz v (fst g)) (dgrp m))).
    + intros v. cbv beta. rewrite !Rabs_mult, (Rabs_pos_eq (x i)), (Rabs_pos_eq (x j)) by apply Hx. reflexivity.
    + replace 0 with (lsum (fun g : (nat * list lit) * list (lit * lit) => gs tau (snd g) * 0) (dgrp m)) by (unfold lsum; induction (dgrp m) as [|r l IH]; [reflexivity|]; cbn; rewrite IH; ring).
      apply (lins_lsum (fun v g => gs tau (snd g) * dkf v (fst g)) (fun v g => Rabs (gs tau (snd g)) * dkz v (fst g))). intros [k q] Hg. apply dgrp_ok in Hg. cbn [fst snd] in *.
      apply (lins_scal (gs tau q) (fun v => dkf v k) 0 (fun v => dkz v k)). now apply lins_gauss.
Qed.
