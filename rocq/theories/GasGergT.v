(* How the residual of GERG-2008 of a natural gas changes with density and temperature together, to first order with its sign, between 270 K and 350 K. *)
From Coq Require Import Reals ZArith List Bool Lra Lia Psatz.
From Coquelicot Require Import Coquelicot.
From Verif Require Import FArith ArithR StdDetail StdGerg SpecStd SpecGas SpecConv SpecGerg SlopeReal ConvDetail ConvGerg FixUp GasDetail GasVirial GasThird GasVir2 GasRed GasRed2 GasRed3 GasGerg LinGerg GasGerg2.
From Verif Require Converge.
Import ListNotations.
Local Open Scope R_scope.

(* f (delta, tau): delta df/ddelta = f1, tau df1/dtau = g, and delta dh/ddelta = g *)
Definition mixT (f h : R -> R -> R) : Prop := exists f1 g : R -> R -> R, forall v tau, 0 < v -> 0 < tau ->
  is_derive (fun v => f v tau) v (f1 v tau / v) /\ is_derive (fun tau => f1 v tau) tau (g v tau / tau) /\ is_derive (fun v => h v tau) v (g v tau / v).
Lemma mixT_ext f g h k : (forall v tau, f v tau = g v tau) -> (forall v tau, h v tau = k v tau) -> mixT f h -> mixT g k.
Proof.
  intros E1 E2 (f1 & g1 & H). exists f1, g1. intros v tau Hv Ht. destruct (H v tau Hv Ht) as (A & B & C). split; [now apply (is_derive_ext (fun v => f v tau))|]. split; [exact B|].
  now apply (is_derive_ext (fun v => h v tau)).
Qed.
Lemma mixT_0 : mixT (fun _ _ => 0) (fun _ _ => 0).
Proof.
  exists (fun _ _ => 0), (fun _ _ => 0). intros v tau Hv Ht. replace (0 / v) with 0 by (field; lra). replace (0 / tau) with 0 by (field; lra).
  split; [apply (@is_derive_const R_AbsRing R_NormedModule)|]. split; apply (@is_derive_const R_AbsRing R_NormedModule).
Qed.
Lemma mixT_plus f g h k : mixT f h -> mixT g k -> mixT (fun v t => f v t + g v t) (fun v t => h v t + k v t).
Proof.
  intros (f1 & h1 & H) (g1 & k1 & K). exists (fun v t => f1 v t + g1 v t), (fun v t => h1 v t + k1 v t). intros v tau Hv Ht.
  destruct (H v tau Hv Ht) as (A & B & C). destruct (K v tau Hv Ht) as (A' & B' & C'). rewrite !Rdiv_plus_distr.
  split; [now apply (@is_derive_plus R_AbsRing R_NormedModule)|]. split; now apply (@is_derive_plus R_AbsRing R_NormedModule).
Qed.
Lemma mixT_scal c f h : mixT f h -> mixT (fun v t => c * f v t) (fun v t => c * h v t).
Proof.
  intros (f1 & h1 & H). exists (fun v t => c * f1 v t), (fun v t => c * h1 v t). intros v tau Hv Ht. destruct (H v tau Hv Ht) as (A & B & C).
  unfold Rdiv. rewrite !Rmult_assoc. split; [now apply is_derive_scal|]. split; now apply is_derive_scal.
Qed.
Lemma mixT_lsum {T} (f h : R -> R -> T -> R) l : (forall r, In r l -> mixT (fun v t => f v t r) (fun v t => h v t r)) ->
  mixT (fun v t => lsum (f v t) l) (fun v t => lsum (h v t) l).
Proof.
  induction l as [|r l IH]; intros H; [exact mixT_0|]. unfold lsum in *. cbn [fold_right]. apply (mixT_plus (fun v t => f v t r) _ (fun v t => h v t r)); [apply H; now left|].
  apply IH. intros q Hq. apply H. now right.
Qed.
Lemma mixT_tot (f h : R -> R -> nat -> R) n : (forall r, (r < n)%nat -> mixT (fun v t => f v t r) (fun v t => h v t r)) ->
  mixT (fun v t => tot n (f v t)) (fun v t => tot n (h v t)).
Proof.
  induction n as [|n IH]; intros H; [exact mixT_0|]. cbn [tot]. apply (mixT_plus _ (fun v t => f v t n) _ (fun v t => h v t n)); [|apply H; lia]. apply IH. intros q Hq. apply H. lia.
Qed.

(* coefficients multiplied by the exponents *)
Definition wq (r : lit * lit) : lit * lit := let '(L m e) := fst r in let '(L k f) := snd r in (L (m * k) (e + f), L k f).
Definition wg {K} (g : K * list (lit * lit)) : K * list (lit * lit) := (fst g, map wq (snd g)).
Definition pgT (m : nat) := map wg (pgrp m).
Definition dgT (m : nat) := map wg (dgrp m).

Definition wok (r : lit * lit) : bool := let '(L m e) := fst r in let '(L k f) := snd r in (e <=? 0)%Z && (f <=? 0)%Z.
Lemma Rlit_div m e : (e <= 0)%Z -> Rlit (L m e) = IZR m / IZR (10 ^ (- e)).
Proof. intros H. destruct e as [|p|p]; [|lia|reflexivity]. cbn [Rlit]. rewrite Z.pow_0_r. cbn. field. Qed.
Lemma wq_ok r : wok r = true -> Rlit (fst (wq r)) = Rlit (fst r) * Rlit (snd r) /\ snd (wq r) = snd r.
Proof.
  destruct r as [[m e] [k f]]. unfold wok, wq. cbn [fst snd]. intros H. apply andb_true_iff in H as [H1 H2]. apply Z.leb_le in H1, H2. split; [|reflexivity].
  rewrite !Rlit_div by lia. replace (- (e + f))%Z with (- e + - f)%Z by lia. rewrite Z.pow_add_r, !mult_IZR by lia.
  assert (forall a, (0 <= a)%Z -> IZR (10 ^ a) <> 0) as P by (intros a Ha; apply Rgt_not_eq; apply IZR_lt; apply Z.pow_pos_nonneg; lia).
  field. split; apply P; lia.
Qed.
Lemma gs_d tau q : 0 < tau -> forallb wok q = true -> is_derive (fun tau => gs tau q) tau (gs tau (map wq q) / tau).
Proof.
  intros Ht. induction q as [|r q IH]; intros H.
  - unfold gs, lsum. cbn. replace (0 / tau) with 0 by (field; lra). apply (@is_derive_const R_AbsRing R_NormedModule).
  - cbn [forallb] in H. apply andb_true_iff in H as [H1 H2]. specialize (IH H2). destruct (wq_ok r H1) as [E1 E2]. unfold gs, lsum in *. cbn [map fold_right]. rewrite E1, E2, Rdiv_plus_distr.
    apply (@is_derive_plus R_AbsRing R_NormedModule (fun tau => Rlit (fst r) * Rpower tau (Rlit (snd r)))); [|exact IH].
    evar_last; [apply is_derive_scal; unfold Rpower; apply (is_derive_comp exp (fun e => Rlit (snd r) * ln e)); [apply is_derive_exp|apply is_derive_scal, is_derive_ln, Ht]|].
    unfold scal, mult; cbn. unfold mult; cbn. fold (Rpower tau (Rlit (snd r))). field. lra.
Qed.
Lemma mixT_base q (h h1 : R -> R) : forallb wok q = true -> (forall v, 0 < v -> is_derive h v (h1 v / v)) -> mixT (fun v tau => gs tau q * h v) (fun v tau => gs tau (map wq q) * h v).
Proof.
  intros K H. exists (fun v tau => gs tau q * h1 v), (fun v tau => gs tau (map wq q) * h1 v). intros v tau Hv Ht. specialize (H v Hv). split; [|split].
  - unfold Rdiv. rewrite Rmult_assoc. now apply is_derive_scal.
  - apply (is_derive_ext (fun tau => h1 v * gs tau q)); [intros; apply Rmult_comm|]. evar_last; [apply is_derive_scal, gs_d; [exact Ht|exact K]|]. cbn. unfold Rdiv. ring.
  - unfold Rdiv. rewrite Rmult_assoc. now apply is_derive_scal.
Qed.
Definition residualT (x : nat -> R) (v tau : R) : R := tot 21 (fun m => x (S m) * lsum (fun g => gs tau (snd g) * (let '(d, c) := fst g in v ^ d * ek c v)) (pgT (S m)))
  + lsum (fun r => let '(i, j, f, m) := r in x i * x j * Rlit f * lsum (fun g => gs tau (snd g) * dkf v (fst g)) (dgT m)) DEPARTS.
Lemma pw_ok : forallb (fun m => forallb (fun g => forallb wok (snd g)) (pgrp (S m))) (seq 0 21) = true. Proof. vm_compute. reflexivity. Qed.
Lemma dw_ok : forallb (fun r : nat * nat * lit * nat => let '(i, j, f, m) := r in forallb (fun g => forallb wok (snd g)) (dgrp m)) DEPARTS = true. Proof. vm_compute. reflexivity. Qed.
Lemma mixT_residual x : mixT (fun v tau => residual x v tau) (fun v tau => residualT x v tau).
Proof.
  unfold residual, residualT. apply mixT_plus.
  - apply (mixT_tot (fun v tau m => x (S m) * lsum (pure_term v tau) (nth (S m) PURE [])) (fun v tau m => x (S m) * lsum (fun g => gs tau (snd g) * (let '(d, c) := fst g in v ^ d * ek c v)) (pgT (S m)))). intros m Hm.
    pose proof (proj1 (forallb_forall _ _) pw_ok m ltac:(apply in_seq; lia)) as K. cbv beta in K.
    apply (mixT_scal (x (S m)) (fun v tau => lsum (pure_term v tau) (nth (S m) PURE [])) (fun v tau => lsum (fun g => gs tau (snd g) * (let '(d, c) := fst g in v ^ d * ek c v)) (pgT (S m)))).
    eapply mixT_ext; [intros v tau; exact (eq_sym (pgrp_sum (S m) v tau))|intros v tau; exact (eq_sym (lsum_map (fun g => gs tau (snd g) * (let '(d, c) := fst g in v ^ d * ek c v)) wg (pgrp (S m))))|].
    apply (mixT_lsum (fun v tau g => gs tau (snd g) * (let '(d, c) := fst g in v ^ d * ek c v)) (fun v tau g => gs tau (snd (wg g)) * (let '(d, c) := fst (wg g) in v ^ d * ek c v))). intros [[d c] q] Hg.
    pose proof (proj1 (forallb_forall _ _) K _ Hg) as W. unfold wg. cbn [fst snd] in *. apply (mixT_base q (fun v => v ^ d * ek c v) (hb d c) W). intros v Hv. now apply is_hb.
  - apply (mixT_lsum (fun v tau r => let '(i, j, f, m) := r in x i * x j * Rlit f * lsum (dep_term v tau) (dep_rows m))
      (fun v tau r => let '(i, j, f, m) := r in x i * x j * Rlit f * lsum (fun g => gs tau (snd g) * dkf v (fst g)) (dgT m))).
    intros [[[i j] f] m] Hr. pose proof (proj1 (forallb_forall _ _) dw_ok _ Hr) as K. cbv beta iota in K.
    apply (mixT_scal (x i * x j * Rlit f) (fun v tau => lsum (dep_term v tau) (dep_rows m)) (fun v tau => lsum (fun g => gs tau (snd g) * dkf v (fst g)) (dgT m))).
    eapply mixT_ext; [intros v tau; exact (eq_sym (dgrp_sum m v tau))|intros v tau; exact (eq_sym (lsum_map (fun g => gs tau (snd g) * dkf v (fst g)) wg (dgrp m)))|].
    apply (mixT_lsum (fun v tau g => gs tau (snd g) * dkf v (fst g)) (fun v tau g => gs tau (snd (wg g)) * dkf v (fst (wg g)))). intros [k q] Hg.
    pose proof (proj1 (forallb_forall _ _) K _ Hg) as W. apply dgrp_ok in Hg. unfold wg. cbn [fst snd] in *. destruct (lins_gauss k Hg) as (_ & h1 & h2 & H).
    apply (mixT_base q (fun v => dkf v k) h1 W). intros v Hv. exact (proj1 (H v Hv)).
Qed.

Definition firstT (x : nat -> R) (tau : R) : R := tot 21 (fun m => x (S m) * lsum (fun g => gs tau (snd g) * key1 (fst g)) (pgT (S m))).
Definition restT (x : nat -> R) (v tau : R) : R := tot 21 (fun m => x (S m) * lsum (fun g => Rabs (gs tau (snd g)) * keyz v (fst g)) (pgT (S m)))
  + lsum (fun r => let '(i, j, f, m) := r in x i * x j * Rabs (Rlit f) * lsum (fun g => Rabs (gs tau (snd g)) * dkz v (fst g)) (dgT m)) DEPARTS.
Lemma pgT_ok m g : In g (pgT m) -> (1 <= fst (fst g))%nat.
Proof. intros H. apply in_map_iff in H. destruct H as (g' & <- & H). exact (pgrp_ok m g' H). Qed.
Lemma dgT_ok m g : In g (dgT m) -> dk_ok (fst g) = true.
Proof. intros H. apply in_map_iff in H. destruct H as (g' & <- & H). exact (dgrp_ok m g' H). Qed.
Lemma residualT_lins x tau : (forall i, 0 <= x i) -> lins (fun v => residualT x v tau) (firstT x tau) (fun v => restT x v tau).
Proof.
  intros Hx. eapply lins_ext; [intros v; reflexivity|apply Rplus_0_r|reflexivity|]. unfold residualT, firstT, restT. apply lins_plus.
  - apply (lins_tot (fun v m => x (S m) * lsum (fun g => gs tau (snd g) * (let '(d, c) := fst g in v ^ d * ek c v)) (pgT (S m))) (fun v m => x (S m) * lsum (fun g => Rabs (gs tau (snd g)) * keyz v (fst g)) (pgT (S m)))). intros m _.
    eapply lins_ext; [reflexivity|reflexivity|intros v; exact (f_equal (fun k => k * _) (Rabs_pos_eq (x (S m)) (Hx _)))|].
    apply (lins_scal (x (S m)) (fun v => lsum (fun g => gs tau (snd g) * (let '(d, c) := fst g in v ^ d * ek c v)) (pgT (S m))) _ (fun v => lsum (fun g => Rabs (gs tau (snd g)) * keyz v (fst g)) (pgT (S m)))).
    apply (lins_lsum (fun v g => gs tau (snd g) * (let '(d, c) := fst g in v ^ d * ek c v)) (fun v g => Rabs (gs tau (snd g)) * keyz v (fst g))). intros [[d c] q] Hg. apply pgT_ok in Hg. cbn [fst snd] in *.
    apply (lins_scal (gs tau q) (fun v => v ^ d * ek c v) (key1 (d, c)) (fun v => keyz v (d, c))). now apply lins_pow.
  - replace 0 with (lsum (fun _ : nat * nat * lit * nat => 0) DEPARTS) by (unfold lsum; induction DEPARTS as [|r l IH]; [reflexivity|]; cbn; rewrite IH; ring).
    apply (lins_lsum (fun v r => let '(i, j, f, m) := r in x i * x j * Rlit f * lsum (fun g => gs tau (snd g) * dkf v (fst g)) (dgT m))
      (fun v r => let '(i, j, f, m) := r in x i * x j * Rabs (Rlit f) * lsum (fun g => Rabs (gs tau (snd g)) * dkz v (fst g)) (dgT m))).
    intros [[[i j] f] m] _. eapply lins_ext; [reflexivity|apply (Rmult_0_r (x i * x j * Rlit f))| |].
    2: apply (lins_scal (x i * x j * Rlit f) (fun v => lsum (fun g => gs tau (snd g) * dkf v (fst g)) (dgT m)) 0 (fun v => lsum (fun g => Rabs (gs tau (snd g)) * dkz v (fst g)) (dgT m))).
    + intros v. cbv beta. rewrite !Rabs_mult, (Rabs_pos_eq (x i)), (Rabs_pos_eq (x j)) by apply Hx. reflexivity.
    + replace 0 with (lsum (fun g : (nat * list lit) * list (lit * lit) => gs tau (snd g) * 0) (dgT m)) by (unfold lsum; induction (dgT m) as [|r l IH]; [reflexivity|]; cbn; rewrite IH; ring).
      apply (lins_lsum (fun v g => gs tau (snd g) * dkf v (fst g)) (fun v g => Rabs (gs tau (snd g)) * dkz v (fst g))). intros [k q] Hg. apply dgT_ok in Hg. cbn [fst snd] in *.
      apply (lins_scal (gs tau q) (fun v => dkf v k) 0 (fun v => dkz v k)). now apply lins_gauss.
Qed.

Definition del3 : Z := Eval vm_compute in litU (L 6472 (-5)).
Lemma del3_num : del3 = litU (L 6472 (-5)). Proof. vm_compute. reflexivity. Qed.
Definition keyzV (k : nat * nat) : Z := let '(d, c) := k in
  if Nat.eqb d 1 then match c with O => 0%Z | _ => mulU (nU ((1 + c) * (1 + c))) (powU del3 c) end
  else let dc := powU del3 c in mulU (powU (nU d + mulU (nU c) dc) 2 + mulU (powU (nU c) 2) dc) (powU del3 (pred d)).
Definition dkzV (k : nat * list lit) : Z := let '(d, w) := k in
  let p c := litU (nth c w (L 0 0)) in
  let e := (mulU (mulU (mulU (nU 2) (p 0%nat)) del3) (del3 + p 1%nat) + mulU (p 2%nat) del3)%Z in
  mulU (mulU (powU (nU d + e) 2 + e + mulU (mulU (nU 2) (p 0%nat)) (powU del3 2)) (expyU (mulU (p 2%nat) (p 3%nat)))) (powU del3 (pred d)).
Definition pgtT (m : nat) : list (bool * Z * list row) := map (fun g => (Nat.eqb (fst (fst g)) 1, keyzV (fst g), map prow (snd g))) (pgT (S m)).
Definition PGTT : list (list (bool * Z * list row)) := Eval vm_compute in map pgtT (seq 0 21).
Lemma PGTT_num : PGTT = map pgtT (seq 0 21). Proof. vm_compute. reflexivity. Qed.
Definition dgtT (r : nat * nat * lit * nat) : Z * list (Z * list row) := let '(i, j, f, m) := r in (mulU (prodU i j) (litU f), map (fun g => (dkzV (fst g), map prow (snd g))) (dgT m)).
Definition DGTT : list (Z * list (Z * list row)) := Eval vm_compute in map dgtT DEPARTS.
Lemma DGTT_num : DGTT = map dgtT DEPARTS. Proof. vm_compute. reflexivity. Qed.
Definition mkpT (q : lit * lit) : list (Z * Z * Z) * Z := let G := ptD (litD (fst q)) SC 240 in let H := pt (litU (snd q)) SC 240 in (map (compZ G H) PGTT, depZ G H DGTT).
Definition PCT : list (list (Z * Z * Z) * Z) := Eval vm_compute in map mkpT BR.
Lemma PCT_num : PCT = map mkpT BR. Proof. vm_compute. reflexivity. Qed.
Lemma PCT_ok : forallb (fun p => (lowZ p <=? 1400800000)%Z && (uppZ p <=? 288300000)%Z) PCT = true. Proof. vm_compute. reflexivity. Qed.
Lemma pgT_tok : forallb (fun m => forallb (fun g => forallb (fun r => tok2 (snd r)) (snd g)) (pgT (S m))) (seq 0 21) = true. Proof. vm_compute. reflexivity. Qed.
Lemma dgT_tok : forallb (fun r : nat * nat * lit * nat => let '(i, j, f, m) := r in forallb (fun g => forallb (fun r => tok2 (snd r)) (snd g) && forallb nn_lit (snd (fst g))) (dgT m)) DEPARTS = true. Proof. vm_compute. reflexivity. Qed.


Section S.
Variable tau : R.
Variables lo hi : lit.
Hypothesis Hlo : 0 < Rlit lo.
Hypothesis Hhi : 0 < Rlit hi < 1.
Hypothesis Ht : Rlit lo ^ 8 <= tau <= Rlit hi ^ 8.
Hypothesis Ht1 : 3758 / 10000 <= tau.
Let G := ptD (litD lo) SC 240.
Let H := pt (litU hi) SC 240.
Lemma group_boxT l : forallb (fun r => tok2 (snd r)) l = true -> fx (fst (gLU G H (map prow l))) <= gs tau l <= fx (snd (gLU G H (map prow l))).
Proof. exact (group_box tau lo hi Hlo Hhi Ht Ht1 l). Qed.
Lemma group_absT l : forallb (fun r => tok2 (snd r)) l = true -> up (absZ (gLU G H (map prow l))) (Rabs (gs tau l)).
Proof. exact (group_abs tau lo hi Hlo Hhi Ht Ht1 l). Qed.
Variable v : R.
Hypothesis Hv : 0 <= v <= 6472 / 100000.
Lemma v_up3 : up del3 v. Proof. rewrite del3_num. apply lit_le; [lra|cbn; lra]. Qed.
Lemma keyz_up3 k : up (keyzV k) (keyz v k).
Proof.
  destruct k as [d c]. unfold keyzV, keyz. pose proof v_up3 as V. destruct (Nat.eqb d 1).
  - destruct c as [|c]; [exact up_0|]. apply up_mul; [apply up_INR|now apply up_pow].
  - apply up_mul; [|now apply up_pow]. unfold wt. apply up_add; [apply up_pow; apply up_add; [apply up_INR|apply up_mul; [apply up_INR|now apply up_pow]]|apply up_mul; [apply up_pow, up_INR|now apply up_pow]].
Qed.
Lemma dkz_up3 k : forallb nn_lit (snd k) = true -> up (dkzV k) (dkz v k).
Proof.
  destruct k as [d w]. cbn [snd]. intros H2. unfold dkzV, dkz. pose proof v_up3 as V.
  assert (P : forall c, up (litU (nth c w (L 0 0))) (Rlit (nth c w (L 0 0)))).
  { intros c. apply pos_up. destruct (nth_in_or_default c w (L 0 0)) as [K|K]; [apply nn_ok; exact (proj1 (forallb_forall _ _) H2 _ K)|rewrite K; cbn; lra]. }
  pose proof (up_INR 2) as I2. change (INR 2) with 2 in I2.
  assert (E : up (mulU (mulU (mulU (nU 2) (litU (nth 0 w (L 0 0)))) del3) (del3 + litU (nth 1 w (L 0 0))) + mulU (litU (nth 2 w (L 0 0))) del3)%Z
    (2 * Rlit (nth 0 w (L 0 0)) * v * (v + Rlit (nth 1 w (L 0 0))) + Rlit (nth 2 w (L 0 0)) * v)).
  { apply up_add; [apply up_mul; [apply up_mul; [apply up_mul; [exact I2|apply P]|exact V]|apply up_add; [exact V|apply P]]|apply up_mul; [apply P|exact V]]. }
  apply up_mul; [|now apply up_pow]. apply up_mul; [|apply up_expy; apply up_mul; apply P].
  apply up_add; [apply up_add; [apply up_pow; apply up_add; [apply up_INR|exact E]|exact E]|]. apply up_mul; [apply up_mul; [exact I2|apply P]|now apply up_pow].
Qed.
Lemma comp_boxT m : (m < 21)%nat -> let p := compZ G H (pgtT m) in
  fx (fst (fst p)) <= lsum (fun g => gs tau (snd g) * key1 (fst g)) (pgT (S m)) <= fx (snd (fst p)) /\ up (snd p) (lsum (fun g => Rabs (gs tau (snd g)) * keyz v (fst g)) (pgT (S m))).
Proof.
  intros Hm p. unfold p, pgtT. pose proof (proj1 (forallb_forall _ _) pgT_tok m ltac:(apply in_seq; lia)) as K. cbv beta in K. clear p Hm. revert K. generalize (pgT (S m)). intros l K.
  induction l as [|g l IH]; [unfold lsum; cbn; rewrite fx_0; split; [lra|exact up_0]|]. cbn [forallb] in K. apply andb_true_iff in K as [K1 K2]. destruct (IH K2) as [I1 I2].
  pose proof (group_boxT _ K1) as B. pose proof (group_absT _ K1) as A. unfold lsum in *. cbn [map fold_right]. unfold compZ in *. cbn [map fold_right]. set (q := fold_right _ _ (map _ l)) in *. unfold add3, grp3. cbn [fst snd]. split.
  - rewrite !fx_add. replace (key1 (fst g)) with (if Nat.eqb (fst (fst g)) 1 then 1 else 0) by reflexivity. destruct (Nat.eqb (fst (fst g)) 1); [lra|]. rewrite fx_0. lra.
  - apply up_add; [|exact I2]. apply up_mul; [exact A|apply keyz_up3].
Qed.
Variable x : nat -> R.
Hypothesis Hx : natural_gas (fun i => x (S i)).
Lemma dep_boxT : up (depZ G H DGTT) (lsum (fun r => let '(i, j, f, m) := r in x i * x j * Rabs (Rlit f) * lsum (fun g => Rabs (gs tau (snd g)) * dkz v (fst g)) (dgT m)) DEPARTS).
Proof.
  rewrite DGTT_num. unfold depZ. assert (E : forall (f : _ -> Z) l, lsumU f (map dgtT l) = lsumU (fun r => f (dgtT r)) l) by (intros f l; induction l as [|r l IH]; [reflexivity|]; unfold lsumU in *; cbn [map fold_right]; now rewrite IH).
  rewrite E. apply up_lsum. intros [[[i j] f] m] Hr. pose proof (proj1 (forallb_forall _ _) departs_ok _ Hr) as K. cbv beta iota in K. rewrite !andb_true_iff, !Nat.ltb_lt in K. destruct K as (((I1 & J1) & I2) & J2).
  pose proof (proj1 (forallb_forall _ _) dgT_tok _ Hr) as Q. cbv beta iota in Q. cbn [dgtT fst snd]. apply up_mul; [apply up_mul; [apply (prod_up hi Hhi x Hx); lia|apply up_lit]|].
  revert Q. generalize (dgT m). intros l Q. induction l as [|g l IH]; [exact up_0|]. cbn [forallb] in Q. apply andb_true_iff in Q as [Q1 Q2]. apply andb_true_iff in Q1 as [Q0 Q1]. unfold lsum in *. cbn [map lsumU fold_right fst snd].
  apply up_add; [apply up_mul; [now apply group_absT|now apply dkz_up3]|]. exact (IH Q2).
Qed.
Let p : list (Z * Z * Z) * Z := (map (compZ G H) PGTT, depZ G H DGTT).
Lemma c3_eqT m : (m < 21)%nat -> c3 (fst p) m = compZ G H (pgtT m).
Proof.
  intros Hm. unfold c3, p. cbn [fst]. rewrite PGTT_num, map_map. rewrite (nth_indep _ _ (compZ G H (pgtT 0))) by (rewrite map_length, seq_length; exact Hm). rewrite (map_nth (fun a => compZ G H (pgtT a))), seq_nth by exact Hm. reflexivity.
Qed.
Lemma rest_upT : restT x v tau <= fx (linU (fun i => snd (c3 (fst p) i)) + snd p).
Proof.
  unfold restT. rewrite fx_add. apply Rplus_le_compat; [|exact (proj2 dep_boxT)].
  apply (proj2 (up_lin (fun i => x (S i)) Hx (fun i => snd (c3 (fst p) i)) _ (fun i Hi => eq_ind_r (fun z => up (snd z) _) (proj2 (comp_boxT i Hi)) (c3_eqT i Hi)))).
Qed.
Lemma firstT_low : - fx (linU (fun i => Z.max 0 (- fst (fst (c3 (fst p) i))))) <= firstT x tau.
Proof.
  set (s m := lsum (fun g => gs tau (snd g) * key1 (fst g)) (pgT (S m))). assert (U : up (linU (fun i => Z.max 0 (- fst (fst (c3 (fst p) i))))) (tot 21 (fun m => x (S m) * Rmax 0 (- s m)))).
  { apply (up_lin (fun i => x (S i)) Hx (fun i => Z.max 0 (- fst (fst (c3 (fst p) i)))) (fun m => Rmax 0 (- s m))). intros i Hi. split; [apply Rmax_l|]. rewrite (c3_eqT i Hi). destruct (comp_boxT i Hi) as [[A _] _]. fold (s i) in A. set (a := fst (fst _)) in *.
    apply Rmax_lub; [rewrite <- fx_0; apply fx_le; lia|]. apply Rle_trans with (fx (- a)); [rewrite fx_opp; lra|apply fx_le; lia]. }
  destruct U as [_ U]. assert (- tot 21 (fun m => x (S m) * Rmax 0 (- s m)) <= firstT x tau); [|lra]. unfold firstT. replace (- tot 21 (fun m => x (S m) * Rmax 0 (- s m))) with (tot 21 (fun m => - (1) * (x (S m) * Rmax 0 (- s m)))) by (rewrite tot_scal; ring).
  apply tot_le. intros m Hm. fold (s m). pose proof (Rmax_r 0 (- s m)). pose proof (x_ge0 _ Hx m Hm) as X. cbv beta in X. nra.
Qed.
Lemma firstT_upp : firstT x tau <= fx (linU (fun i => Z.max 0 (snd (fst (c3 (fst p) i)))) - linD (fun i => Z.max 0 (- snd (fst (c3 (fst p) i))))).
Proof.
  set (q i := snd (fst (c3 (fst p) i))). set (s m := lsum (fun g => gs tau (snd g) * key1 (fst g)) (pgT (S m))).
  assert (U : up (linU (fun i => Z.max 0 (q i))) (tot 21 (fun m => x (S m) * fx (Z.max 0 (q m))))).
  { apply (up_lin (fun i => x (S i)) Hx (fun i => Z.max 0 (q i)) (fun m => fx (Z.max 0 (q m)))). intros i Hi. split; [apply fx_ge0; lia|lra]. }
  assert (D : fx (linD (fun i => Z.max 0 (- q i))) <= tot 21 (fun m => x (S m) * fx (Z.max 0 (- q m)))).
  { apply (dn_lin (fun i => x (S i)) (fun i => Z.max 0 (- q i)) (fun m => fx (Z.max 0 (- q m))) Hx). intros i Hi. split; [lia|lra]. }
  rewrite fx_sub. change (fun i => Z.max 0 (snd (fst (c3 (fst p) i)))) with (fun i => Z.max 0 (q i)). change (fun i => Z.max 0 (- snd (fst (c3 (fst p) i)))) with (fun i => Z.max 0 (- q i)).
  apply Rle_trans with (tot 21 (fun m => x (S m) * fx (Z.max 0 (q m)) + - (1) * (x (S m) * fx (Z.max 0 (- q m))))); [|rewrite tot_plus, tot_scal; destruct U as [_ U]; lra].
  unfold firstT. apply tot_le. intros m Hm. fold (s m). pose proof (x_ge0 _ Hx m Hm) as X. cbv beta in X. destruct (comp_boxT m Hm) as [[_ B] _]. fold (s m) in B. rewrite <- (c3_eqT m Hm) in B. fold (q m) in B.
  assert (E : fx (q m) = fx (Z.max 0 (q m)) - fx (Z.max 0 (- q m))) by (rewrite <- fx_sub; f_equal; lia). rewrite E in B. replace (x (S m) * fx (Z.max 0 (q m)) + - (1) * (x (S m) * fx (Z.max 0 (- q m)))) with (x (S m) * (fx (Z.max 0 (q m)) - fx (Z.max 0 (- q m)))) by ring. now apply Rmult_le_compat_l.
Qed.
Lemma piece_boxT : - fx (lowZ p) <= firstT x tau - restT x v tau /\ firstT x tau + restT x v tau <= fx (uppZ p).
Proof.
  pose proof rest_upT as R. pose proof firstT_low as A. pose proof firstT_upp as B. unfold lowZ, uppZ. rewrite (fx_add (linU (fun i => Z.max 0 (- fst (fst (c3 (fst p) i)))))), (fx_add (_ - _)). lra.
Qed.
End S.
Lemma gas_firstT x v tau : natural_gas (fun i => x (S i)) -> 0 <= v <= 6472 / 100000 -> 3765 / 10000 <= tau <= 93964 / 100000 ->
  - (5219 / 1000) <= firstT x tau - restT x v tau /\ firstT x tau + restT x v tau <= 1075 / 1000.
Proof.
  intros Hx Hv Ht. assert (Q : forall q, In q BR -> 0 < Rlit (fst q) /\ 0 < Rlit (snd q) < 1).
  { intros q Hq. repeat (destruct Hq as [<-|Hq]; [cbn; lra|]). destruct Hq. }
  assert (K : exists q, In q BR /\ Rlit (fst q) ^ 8 <= tau <= Rlit (snd q) ^ 8).
  { unfold BR.
    destruct (Rle_lt_dec tau (Rlit (L 915 (-3)) ^ 8)) as [K0|K0]; [exists ((L 885 (-3)), (L 915 (-3))); split; [now left|cbn [fst snd] in *; split; [cbn; lra|exact K0]]|].
    destruct (Rle_lt_dec tau (Rlit (L 94 (-2)) ^ 8)) as [K1|K1]; [exists ((L 915 (-3)), (L 94 (-2))); split; [do 1 right; now left|cbn [fst snd] in *; split; [left; exact K0|exact K1]]|].
    destruct (Rle_lt_dec tau (Rlit (L 96 (-2)) ^ 8)) as [K2|K2]; [exists ((L 94 (-2)), (L 96 (-2))); split; [do 2 right; now left|cbn [fst snd] in *; split; [left; exact K1|exact K2]]|].
    destruct (Rle_lt_dec tau (Rlit (L 972 (-3)) ^ 8)) as [K3|K3]; [exists ((L 96 (-2)), (L 972 (-3))); split; [do 3 right; now left|cbn [fst snd] in *; split; [left; exact K2|exact K3]]|].
    destruct (Rle_lt_dec tau (Rlit (L 98 (-2)) ^ 8)) as [K4|K4]; [exists ((L 972 (-3)), (L 98 (-2))); split; [do 4 right; now left|cbn [fst snd] in *; split; [left; exact K3|exact K4]]|].
    destruct (Rle_lt_dec tau (Rlit (L 985 (-3)) ^ 8)) as [K5|K5]; [exists ((L 98 (-2)), (L 985 (-3))); split; [do 5 right; now left|cbn [fst snd] in *; split; [left; exact K4|exact K5]]|].
    destruct (Rle_lt_dec tau (Rlit (L 9888 (-4)) ^ 8)) as [K6|K6]; [exists ((L 985 (-3)), (L 9888 (-4))); split; [do 6 right; now left|cbn [fst snd] in *; split; [left; exact K5|exact K6]]|].
    exists ((L 9888 (-4)), (L 99229 (-5))); split; [do 7 right; now left|cbn [fst snd]; split; [left; exact K6|cbn; lra]]. }
  destruct K as (q & Hq & Hb). destruct (Q q Hq) as [Q1 Q2]. assert (P : In (mkpT q) PCT) by (rewrite PCT_num; now apply in_map).
  pose proof (proj1 (forallb_forall _ _) PCT_ok _ P) as C. cbv beta in C. apply andb_true_iff in C as [C1 C2]. apply leU in C1, C2.
  pose proof (piece_boxT tau (fst q) (snd q) Q1 Q2 Hb ltac:(lra) v Hv x Hx) as [A B]. change (map (compZ (ptD (litD (fst q)) SC 240) (pt (litU (snd q)) SC 240)) PGTT, depZ (ptD (litD (fst q)) SC 240) (pt (litU (snd q)) SC 240) DGTT) with (mkpT q) in A, B.
  assert (fx 1400800000 <= 5219 / 1000) by (unfold fx; change SC with 268435456%Z; lra). assert (fx 288300000 <= 1075 / 1000) by (unfold fx; change SC with 268435456%Z; lra). lra.
Qed.

(* the mixed derivative with its sign *)
Lemma mixed_range x : (forall i, 0 <= x i) -> natural_gas (fun i => x (S i)) -> exists f1 g : R -> R -> R,
  (forall v tau, 0 < v -> 0 < tau -> is_derive (fun v => residual x v tau) v (f1 v tau / v) /\ is_derive (fun tau => f1 v tau) tau (g v tau / tau)) /\
  (forall v tau, 0 < v <= 6472 / 100000 -> 3765 / 10000 <= tau <= 93964 / 100000 -> - (5219 / 1000) * v <= g v tau <= 1075 / 1000 * v).
Proof.
  intros H0 Hx. destruct (mixT_residual x) as (f1 & g & M). exists f1, g. split; [intros v tau Hv Ht; destruct (M v tau Hv Ht) as (A & B & _); now split|].
  intros v tau Hv Ht. destruct (M v tau ltac:(lra) ltac:(lra)) as (_ & _ & C). destruct (residualT_lins x tau H0) as (_ & h1 & h2 & K). destruct (K v ltac:(lra)) as (D & _ & Q). destruct (Q ltac:(lra)) as [Q1 _].
  assert (E : g v tau = h1 v).
  { apply (Rmult_eq_reg_r (/ v)); [|apply Rinv_neq_0_compat; lra]. change (g v tau / v = h1 v / v). rewrite <- (is_derive_unique _ _ _ C). exact (is_derive_unique _ _ _ D). }
  rewrite E. destruct (gas_firstT x v tau Hx ltac:(lra) Ht) as [A B]. apply Converge.Rabs_le_inv in Q1. set (a := firstT x tau) in *. set (z := restT x v tau) in *. clearbody a z. split; nra.
Qed.
