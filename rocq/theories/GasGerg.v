(* The size of the residual terms of GERG-2008 for a natural gas at low density. *)
From Coq Require Import Reals ZArith List Bool Lra Lia Psatz.
From Verif Require Import FArith ArithR StdDetail StdGerg SpecStd SpecGas SpecConv SlopeReal ConvDetail FixUp GasDetail GasVirial GasThird GasRed GasRed2.
Import ListNotations.
Local Open Scope R_scope.

Definition delU : Z := litU (L 22776 (-6)).
Definition s8 : lit := L 99229 (-5).
Definition tauT : list Z := Eval vm_compute in pt (litU s8) SC 400.
Lemma tauT_num : tauT = pt (litU s8) SC 400. Proof. vm_compute. reflexivity. Qed.
(* tau^t for tau <= 0.9397; the exponent rounded down to eighths *)
Definition fl8 (l : lit) : nat := let '(L m e) := l in Z.to_nat (8 * m / 10 ^ (- e)).
Definition tok (l : lit) : bool := let '(L m e) := l in (e <=? 0)%Z && (if (m <? 0)%Z then (m =? -1)%Z && (e =? 0)%Z else Nat.leb (fl8 l) 400).
Definition tU (l : lit) : Z := let '(L m e) := l in if (m <? 0)%Z then litU (L 922 (-2)) else nth (fl8 l) tauT 0%Z.
Definition nn_lit (l : lit) : bool := let '(L m e) := l in Z.leb 0 m.
Lemma nn_ok l : nn_lit l = true -> 0 <= Rlit l.
Proof.
  destruct l as [m [|p|p]]; cbn [nn_lit Rlit]; intros H; apply Z.leb_le in H.
  - now apply IZR_le.
  - apply IZR_le. apply Z.mul_nonneg_nonneg; [exact H|]. now apply Z.pow_nonneg.
  - apply div0; [now apply IZR_le|]. apply IZR_lt. now apply Z.pow_pos_nonneg.
Qed.
Definition pureU (r : lit * nat * lit * nat) : Z := let '(n, d, t, c) := r in
  let dc := powU delU c in
  mulU (mulU (mulU (litU n) (tU t)) (powU (nU d + mulU (nU c) dc) 2 + mulU (powU (nU c) 2) dc)) (powU delU d).
Definition expyU (y : Z) : Z := powU (litU (L 1010102 (-6))) (Z.to_nat (y * 100 / SC + 1)).
Definition depU (r : lit * nat * lit * list lit) : Z := let '(n, d, t, w) := r in
  let p c := litU (nth c w (L 0 0)) in
  let e := (mulU (mulU (mulU (nU 2) (p 0%nat)) delU) (delU + p 1%nat) + mulU (p 2%nat) delU)%Z in
  mulU (mulU (mulU (mulU (litU n) (tU t)) (powU (nU d + e) 2 + e + mulU (mulU (nU 2) (p 0%nat)) (powU delU 2))) (expyU (mulU (p 2%nat) (p 3%nat)))) (powU delU d).
Definition gsprU : Z := (linU (fun m => lsumU pureU (nth (S m) PURE []))
  + lsumU (fun r => let '(i, j, f, m) := r in mulU (mulU (mulU (limU (Nat.pred i)) (limU (Nat.pred j))) (litU f)) (lsumU depU (dep_rows m))) DEPARTS)%Z.
Lemma gspr_num : (gsprU <=? 35500000)%Z = true. Proof. vm_compute. reflexivity. Qed.
Lemma pure_ok : forallb (forallb (fun r : lit * nat * lit * nat => let '(n, d, t, c) := r in tok t)) PURE = true. Proof. vm_compute. reflexivity. Qed.
Lemma dep_ok : forallb (fun q => forallb (fun r : lit * nat * lit * list lit => let '(n, d, t, w) := r in tok t && forallb nn_lit w) (snd q)) DEPARTURE = true. Proof. vm_compute. reflexivity. Qed.
Lemma departs_ok : forallb (fun r : nat * nat * lit * nat => let '(i, j, f, m) := r in Nat.ltb 0 i && Nat.ltb 0 j && Nat.ltb i 22 && Nat.ltb j 22) DEPARTS = true. Proof. vm_compute. reflexivity. Qed.

Lemma exp_small n : exp (INR n / 100) <= (100 / 99) ^ n.
Proof.
  replace (INR n / 100) with (/ 100 * INR n) by field. assert (E : exp (/ 100) <= 100 / 99).
  { pose proof (exp_ineq1_le (- / 100)) as H. rewrite exp_Ropp in H. pose proof (exp_pos (/ 100)) as P. apply (Rmult_le_compat_r (exp (/ 100))) in H; [|lra]. rewrite Rinv_l in H by lra. lra. }
  replace (exp (/ 100 * INR n)) with (exp (/ 100) ^ n).
  - apply pow_incr. split; [left; apply exp_pos|exact E].
  - induction n as [|n IH]; [cbn; now rewrite Rmult_0_r, exp_0|]. rewrite S_INR. cbn [pow]. rewrite IH, <- exp_plus. f_equal. ring.
Qed.
Lemma up_expy v y : up v y -> up (expyU v) (exp y).
Proof.
  intros H. pose proof (up_nn _ _ H) as V. destruct H as [A B]. unfold expyU. set (n := Z.to_nat (v * 100 / SC + 1)).
  assert (Y : y <= INR n / 100).
  { apply Rle_trans with (1 := B). unfold fx, n. assert (Q : (0 <= v * 100 / SC)%Z) by (apply Z.div_pos; [lia|reflexivity]). rewrite INR_IZR_INZ, Z2Nat.id by lia.
    pose proof (Z.mul_succ_div_gt (v * 100) SC ltac:(reflexivity)) as K. unfold Z.succ in K. apply IZR_lt in K. rewrite (mult_IZR SC), (mult_IZR v) in K. pose proof SC_pos as P. set (q := IZR (v * 100 / SC + 1)) in *.
    apply (Rmult_le_reg_r (IZR SC * 100)); [lra|]. replace (IZR v / IZR SC * (IZR SC * 100)) with (IZR v * 100) by (field; lra). replace (q / 100 * (IZR SC * 100)) with (IZR SC * q) by field. lra. }
  apply (up_le (powU (litU (L 1010102 (-6))) n) _ ((100 / 99) ^ n) (exp y)); [apply up_pow; apply (lit_le (L 1010102 (-6))); [lra|cbn; lra]| |apply Z.le_refl].
  split; [left; apply exp_pos|]. apply Rle_trans with (2 := exp_small n). destruct Y as [Y|Y]; [left; now apply exp_increasing|rewrite Y; lra].
Qed.

Section S.
Variable delta tau : R.
Hypothesis Hd : 0 <= delta <= 22776 / 1000000.
Hypothesis Ht : 38 / 350 <= tau <= 93964 / 100000.
Lemma del_up : up delU delta. Proof. apply lit_le; [lra|cbn; lra]. Qed.
Lemma tau_up l : tok l = true -> up (tU l) (Rpower tau (Rlit l)).
Proof.
  destruct l as [m e]. cbn [tok tU]. intros H. apply andb_true_iff in H as [He H]. apply Z.leb_le in He. destruct (Z.ltb_spec m 0) as [K|K].
  - apply andb_true_iff in H as [H1 H2]. apply Z.eqb_eq in H1, H2. subst. cbn [Rlit]. replace (Rpower tau (-1)) with (/ tau) by (change (-1) with (Ropp 1); rewrite Rpower_Ropp, Rpower_1; lra).
    assert (/ tau <= 922 / 100). { apply (Rmult_le_reg_r tau); [lra|]. rewrite Rinv_l by lra. lra. }
    apply lit_le; [left; apply Rinv_0_lt_compat; lra|cbn; lra].
  - apply Nat.leb_le in H. rewrite tauT_num. set (k := fl8 (L m e)) in *.
    assert (Q : INR k / 8 <= Rlit (L m e)).
    { unfold k. cbn [fl8]. assert (0 < 10 ^ (- e))%Z as Hp by (apply Z.pow_pos_nonneg; lia).
      assert (El : Rlit (L m e) = IZR m / IZR (10 ^ (- e))) by (destruct e as [|p|p]; [|lia|reflexivity]; cbn [Rlit]; rewrite Z.pow_0_r; cbn; field).
      rewrite El. assert (0 <= 8 * m / 10 ^ (- e))%Z by (apply Z.div_pos; lia). rewrite INR_IZR_INZ, Z2Nat.id by lia.
      pose proof (Z.mul_div_le (8 * m) (10 ^ (- e)) Hp) as D. apply IZR_le in D. apply IZR_lt in Hp. rewrite (mult_IZR (10 ^ (- e))), (mult_IZR 8) in D. set (t := IZR (10 ^ (- e))) in *. set (q := IZR (8 * m / _)) in *.
      apply (Rmult_le_reg_r (8 * t)); [lra|]. replace (q / 8 * (8 * t)) with (t * q) by field. replace (IZR m / t * (8 * t)) with (8 * IZR m) by (field; lra). exact D. }
    set (c := 93964 / 100000) in *. assert (C0 : 0 < c < 1) by (unfold c; lra).
    assert (P : 0 <= Rlit (L m e)) by (pose proof (pos_INR k); lra).
    pose proof (up_pt (litU s8) (Rlit s8) 400 (pos_up s8 ltac:(cbn; lra)) SC 1 k ltac:(lia) up_1) as U. rewrite Rmult_1_l in U.
    apply (up_le _ _ (Rlit s8 ^ k) _ U); [|apply Z.le_refl]. split; [left; apply exp_pos|].
    apply Rle_trans with (Rpower c (Rlit (L m e))); [apply Rle_Rpower_l; lra|]. apply Rle_trans with (Rpower c (INR k / 8)).
    + unfold Rpower. assert (ln c < 0) by (rewrite <- ln_1; apply ln_increasing; lra). assert (Rlit (L m e) * ln c <= INR k / 8 * ln c) as J by nra. destruct J as [J|J]; [left; now apply exp_increasing|rewrite J; lra].
    + replace (INR k / 8) with (1 / 8 * INR k) by field. rewrite <- Rpower_mult. rewrite Rpower_pow by apply exp_pos. apply pow_incr. split; [left; apply exp_pos|].
      assert (S8 : 0 < Rlit s8) by (cbn; lra). apply Rle_trans with (Rpower (Rlit s8 ^ 8) (1 / 8)).
      * apply Rle_Rpower_l; [lra|]. split; [lra|]. unfold c. cbn [Rlit s8]. change (IZR (10 ^ 5)) with 100000. lra.
      * rewrite <- (Rpower_pow 8) by exact S8. rewrite Rpower_mult. replace (INR 8 * (1 / 8)) with 1 by (cbn; lra). rewrite Rpower_1 by exact S8. lra.
Qed.
Lemma pure_up r : (let '(n, d, t, c) := r in tok t) = true -> up (pureU r) (pure_size delta tau r).
Proof.
  destruct r as [[[n d] t] c]. intros H. unfold pureU, pure_size. apply up_mul; [apply up_mul; [apply up_mul; [apply up_lit|now apply tau_up]|]|apply up_pow; exact del_up].
  apply up_add; [apply up_pow; apply up_add; [apply up_INR|apply up_mul; [apply up_INR|]]|apply up_mul; [apply up_pow; apply up_INR|]]; apply up_pow; exact del_up.
Qed.
Lemma dep_up r : (let '(n, d, t, w) := r in tok t && forallb nn_lit w) = true -> up (depU r) (dep_size delta tau r).
Proof.
  destruct r as [[[n d] t] w]. intros H. apply andb_true_iff in H as [H1 H2]. unfold depU, dep_size.
  assert (P : forall c, up (litU (nth c w (L 0 0))) (Rlit (nth c w (L 0 0)))).
  { intros c. apply pos_up. destruct (nth_in_or_default c w (L 0 0)) as [K|K]; [apply nn_ok; exact (proj1 (forallb_forall _ _) H2 _ K)|rewrite K; cbn; lra]. }
  pose proof (up_INR 2) as I2. change (INR 2) with 2 in I2.
  assert (E : up (mulU (mulU (mulU (nU 2) (litU (nth 0 w (L 0 0)))) delU) (delU + litU (nth 1 w (L 0 0))) + mulU (litU (nth 2 w (L 0 0))) delU)%Z
    (2 * Rlit (nth 0 w (L 0 0)) * delta * (delta + Rlit (nth 1 w (L 0 0))) + Rlit (nth 2 w (L 0 0)) * delta)).
  { apply up_add; [apply up_mul; [apply up_mul; [apply up_mul; [exact I2|apply P]|exact del_up]|apply up_add; [exact del_up|apply P]]|apply up_mul; [apply P|exact del_up]]. }
  apply up_mul; [|apply up_pow; exact del_up]. apply up_mul; [|apply up_expy; apply up_mul; apply P]. apply up_mul; [apply up_mul; [apply up_lit|now apply tau_up]|].
  apply up_add; [apply up_add; [apply up_pow; apply up_add; [apply up_INR|exact E]|exact E]|]. apply up_mul; [apply up_mul; [exact I2|apply P]|apply up_pow; exact del_up].
Qed.
Variable x : nat -> R.
Hypothesis Hx : natural_gas (fun i => x (S i)).
Lemma gspread_le : gerg_spread x delta tau <= 1 / 7.
Proof.
  apply Rle_trans with (fx gsprU); [|apply Rle_trans with (1 := leU _ _ gspr_num); unfold fx; change SC with 268435456%Z; lra].
  refine (proj2 (up_add _ _ _ _ (up_lin (fun i => x (S i)) Hx (fun m => lsumU pureU (nth (S m) PURE [])) (fun m => lsum (pure_size delta tau) (nth (S m) PURE [])) _) _)).
  - intros i _. apply up_lsum. intros r Hr. apply pure_up. destruct (nth_in_or_default (S i) PURE []) as [K|K]; [|rewrite K in Hr; destruct Hr].
    pose proof (proj1 (forallb_forall _ _) pure_ok _ K) as F. exact (proj1 (forallb_forall _ _) F r Hr).
  - apply up_lsum. intros [[[i j] f] m] Hr. pose proof (proj1 (forallb_forall _ _) departs_ok _ Hr) as K. cbv beta iota in K. rewrite !andb_true_iff, !Nat.ltb_lt in K. destruct K as (((I1 & J1) & I2) & J2).
    apply up_mul; [apply up_mul; [|apply up_lit]|].
    + apply up_mul; [replace (x i) with (x (S (Nat.pred i))) by (f_equal; lia); apply (x_lim _ Hx (Nat.pred i)); lia|replace (x j) with (x (S (Nat.pred j))) by (f_equal; lia); apply (x_lim _ Hx (Nat.pred j)); lia].
    + apply up_lsum. intros r Hr'. apply dep_up. unfold dep_rows in Hr'. destruct (find _ DEPARTURE) as [q|] eqn:F; [|destruct Hr']. apply find_some in F. destruct F as [F _].
      pose proof (proj1 (forallb_forall _ _) dep_ok _ F) as G. exact (proj1 (forallb_forall _ _) G r Hr').
Qed.
End S.
