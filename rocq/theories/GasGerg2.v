(* The residual of GERG-2008 for a natural gas between 270 K and 350 K, to first order with its sign. *)
From Coq Require Import Reals ZArith List Bool Lra Lia Psatz.
From Verif Require Import FArith ArithR StdDetail StdGerg SpecStd SpecGas SpecConv SlopeReal ConvDetail FixUp GasDetail GasVirial GasThird GasVir2 GasRed GasRed2 GasRed3 GasGerg LinGerg.
Import ListNotations.
Local Open Scope R_scope.

(* powers from below *)
Fixpoint ptD (z acc : Z) (n : nat) : list Z := acc :: match n with O => [] | S m => ptD z (mulD z acc) m end.
Lemma dn_pt z a n : dn z a -> forall acc b k, (k <= n)%nat -> dn acc b -> dn (nth k (ptD z acc n) 0%Z) (b * a ^ k).
Proof.
  intros H. induction n as [|n IH]; intros acc b k Hk Ha.
  - replace k with 0%nat by lia. cbn. now rewrite Rmult_1_r.
  - destruct k as [|k]; [cbn; now rewrite Rmult_1_r|]. cbn [ptD nth pow]. replace (b * (a * a ^ k)) with (a * b * a ^ k) by ring.
    apply IH; [lia|]. now apply dn_mul.
Qed.
(* exponents rounded to eighths *)
Definition ce8 (l : lit) : nat := let '(L m e) := l in Z.to_nat ((8 * m + 10 ^ (- e) - 1) / 10 ^ (- e)).
Definition tok2 (l : lit) : bool := let '(L m e) := l in (e <=? 0)%Z && (if (m <? 0)%Z then (m =? -1)%Z && (e =? 0)%Z else Nat.leb (fl8 l) 240 && Nat.leb (ce8 l) 240).
(* a row with its coefficient and exponents in fixed point; bounds of a row and of a group *)
Definition row : Type := (bool * Z * Z * option (nat * nat))%type.
Definition prow (r : lit * lit) : row := let '(L m e) := fst r in let '(L k f) := snd r in
  ((0 <=? m)%Z, litU (L (Z.abs m) e), litD (L (Z.abs m) e), if (k <? 0)%Z then None else Some (fl8 (snd r), ce8 (snd r))).
Definition inv2 : Z := Eval vm_compute in litU (L 2661 (-3)).
Lemma inv2_num : inv2 = litU (L 2661 (-3)). Proof. vm_compute. reflexivity. Qed.
Definition rowLU (G H : list Z) (p : row) : Z * Z := let '(s, u, d, o) := p in
  let h := match o with Some q => nth (fst q) H 0%Z | None => inv2 end in let g := match o with Some q => nth (snd q) G 0%Z | None => SC end in
  if s then (mulD d g, mulU u h) else ((- mulU u h)%Z, (- mulD d g)%Z).
Definition add2 (a b : Z * Z) : Z * Z := (fst a + fst b, snd a + snd b)%Z.
Definition gLU (G H : list Z) (l : list row) : Z * Z := fold_right (fun r s => add2 (rowLU G H r) s) (0%Z, 0%Z) l.
Definition absZ (p : Z * Z) : Z := Z.max 0 (Z.max (snd p) (- fst p)).
Definition del2 : Z := Eval vm_compute in litU (L 8697 (-5)).
Lemma del2_num : del2 = litU (L 8697 (-5)). Proof. vm_compute. reflexivity. Qed.
Definition keyzU (k : nat * nat) : Z := let '(d, c) := k in
  if Nat.eqb d 1 then match c with O => 0%Z | _ => mulU (nU ((1 + c) * (1 + c))) (powU del2 c) end
  else let dc := powU del2 c in mulU (powU (nU d + mulU (nU c) dc) 2 + mulU (powU (nU c) 2) dc) (powU del2 (pred d)).
Definition dkzU (k : nat * list lit) : Z := let '(d, w) := k in
  let p c := litU (nth c w (L 0 0)) in
  let e := (mulU (mulU (mulU (nU 2) (p 0%nat)) del2) (del2 + p 1%nat) + mulU (p 2%nat) del2)%Z in
  mulU (mulU (powU (nU d + e) 2 + e + mulU (mulU (nU 2) (p 0%nat)) (powU del2 2)) (expyU (mulU (p 2%nat) (p 3%nat)))) (powU del2 (pred d)).
Definition prodU (i j : nat) : Z := if Nat.eqb i 2 && Nat.eqb j 3 then litU (L 784 (-4)) else if Nat.eqb i 1 && Nat.eqb j 2 then litU (L 25503 (-5)) else mulU (limU (Nat.pred i)) (limU (Nat.pred j)).
(* a component: first order from below and above, and the rest *)
Definition add3 (a b : Z * Z * Z) : Z * Z * Z := (fst (fst a) + fst (fst b), snd (fst a) + snd (fst b), snd a + snd b)%Z.
Definition grp3 (G H : list Z) (g : bool * Z * list row) : Z * Z * Z := let p := gLU G H (snd g) in
  (if fst (fst g) then fst p else 0%Z, if fst (fst g) then snd p else 0%Z, mulU (absZ p) (snd (fst g))).
Definition compZ (G H : list Z) (l : list (bool * Z * list row)) : Z * Z * Z := fold_right (fun g s => add3 (grp3 G H g) s) (0%Z, 0%Z, 0%Z) l.
Definition pgt (m : nat) : list (bool * Z * list row) := map (fun g => (Nat.eqb (fst (fst g)) 1, keyzU (fst g), map prow (snd g))) (pgrp (S m)).
Definition PGT : list (list (bool * Z * list row)) := Eval vm_compute in map pgt (seq 0 21).
Lemma PGT_num : PGT = map pgt (seq 0 21). Proof. vm_compute. reflexivity. Qed.
Definition dgt (r : nat * nat * lit * nat) : Z * list (Z * list row) := let '(i, j, f, m) := r in (mulU (prodU i j) (litU f), map (fun g => (dkzU (fst g), map prow (snd g))) (dgrp m)).
Definition DGT : list (Z * list (Z * list row)) := Eval vm_compute in map dgt DEPARTS.
Lemma DGT_num : DGT = map dgt DEPARTS. Proof. vm_compute. reflexivity. Qed.
Definition depZ (G H : list Z) (l : list (Z * list (Z * list row))) : Z := lsumU (fun r => mulU (fst r) (lsumU (fun g => mulU (absZ (gLU G H (snd g))) (fst g)) (snd r))) l.
Definition mkp (q : lit * lit) : list (Z * Z * Z) * Z := let G := ptD (litD (fst q)) SC 240 in let H := pt (litU (snd q)) SC 240 in (map (compZ G H) PGT, depZ G H DGT).
Definition BR : list (lit * lit) := [(L 885 (-3), L 915 (-3)); (L 915 (-3), L 94 (-2)); (L 94 (-2), L 96 (-2)); (L 96 (-2), L 972 (-3)); (L 972 (-3), L 98 (-2)); (L 98 (-2), L 985 (-3)); (L 985 (-3), L 9888 (-4)); (L 9888 (-4), L 99229 (-5))].
Definition PC : list (list (Z * Z * Z) * Z) := Eval vm_compute in map mkp BR.
Lemma PC_num : PC = map mkp BR. Proof. vm_compute. reflexivity. Qed.
Definition c3 (l : list (Z * Z * Z)) (i : nat) := nth i l (0%Z, 0%Z, 0%Z).
Definition lowZ (p : list (Z * Z * Z) * Z) : Z := (linU (fun i => Z.max 0 (- fst (fst (c3 (fst p) i)))) + (linU (fun i => snd (c3 (fst p) i)) + snd p))%Z.
Definition uppZ (p : list (Z * Z * Z) * Z) : Z := (linU (fun i => Z.max 0 (snd (fst (c3 (fst p) i)))) - linD (fun i => Z.max 0 (- snd (fst (c3 (fst p) i)))) + (linU (fun i => snd (c3 (fst p) i)) + snd p))%Z.
Lemma PC_ok : forallb (fun p => (lowZ p <=? 547300000)%Z && (uppZ p <=? 118000000)%Z) PC = true. Proof. vm_compute. reflexivity. Qed.
Lemma pg_ok : forallb (fun m => forallb (fun g => forallb (fun r => tok2 (snd r)) (snd g)) (pgrp (S m))) (seq 0 21) = true. Proof. vm_compute. reflexivity. Qed.
Lemma dg_ok : forallb (fun r : nat * nat * lit * nat => let '(i, j, f, m) := r in forallb (fun g => forallb (fun r => tok2 (snd r)) (snd g) && forallb nn_lit (snd (fst g))) (dgrp m)) DEPARTS = true. Proof. vm_compute. reflexivity. Qed.

Lemma dn_1 : dn SC 1. Proof. split; [discriminate|]. rewrite fx_1. lra. Qed.
Section S.
Variable tau : R.
Variables lo hi : lit.
Hypothesis Hlo : 0 < Rlit lo.
Hypothesis Hhi : 0 < Rlit hi < 1.
Hypothesis Ht : Rlit lo ^ 8 <= tau <= Rlit hi ^ 8.
Hypothesis Ht1 : 3758 / 10000 <= tau.
Let G := ptD (litD lo) SC 240.
Let H := pt (litU hi) SC 240.
Lemma tau_lt1 : tau < 1.
Proof. destruct Ht as [_ B]. assert (0 < Rlit hi ^ 8 < 1); [|lra]. split; [apply pow_lt; lra|]. destruct Hhi as [A C]. assert (Q : forall n, 0 < Rlit hi ^ S n < 1) by (induction n as [|n IH]; cbn [pow] in *; nra). apply (Q 7%nat). Qed.
Lemma eighth k : Rpower tau (INR k / 8) = Rpower tau (1 / 8) ^ k.
Proof. replace (INR k / 8) with (1 / 8 * INR k) by field. rewrite <- Rpower_mult. apply Rpower_pow. apply exp_pos. Qed.
Lemma root8 r : 0 < r -> Rpower (r ^ 8) (1 / 8) = r.
Proof. intros P. rewrite <- (Rpower_pow 8) by exact P. rewrite Rpower_mult. replace (INR 8 * (1 / 8)) with 1 by (cbn; lra). now apply Rpower_1. Qed.
Lemma eighth_box : Rlit lo <= Rpower tau (1 / 8) <= Rlit hi.
Proof.
  split; [rewrite <- (root8 (Rlit lo) Hlo)|rewrite <- (root8 (Rlit hi) (proj1 Hhi))]; apply Rle_Rpower_l; try lra; split; try lra; apply pow_lt; lra.
Qed.
Lemma ln_tau : ln tau < 0. Proof. rewrite <- ln_1. apply ln_increasing; pose proof tau_lt1; lra. Qed.
Lemma pow_dec a b : a <= b -> Rpower tau b <= Rpower tau a.
Proof. intros J. unfold Rpower. pose proof ln_tau. assert (b * ln tau <= a * ln tau) as [K|K] by nra; [left; now apply exp_increasing|rewrite K; lra]. Qed.
Lemma exps k f : (f <= 0)%Z -> (0 <= k)%Z -> INR (fl8 (L k f)) / 8 <= Rlit (L k f) <= INR (ce8 (L k f)) / 8.
Proof.
  intros Hf Hk. cbn [fl8 ce8]. assert (0 < 10 ^ (- f))%Z as Hp by (apply Z.pow_pos_nonneg; lia).
  assert (El : Rlit (L k f) = IZR k / IZR (10 ^ (- f))) by (destruct f as [|p|p]; [|lia|reflexivity]; cbn [Rlit]; rewrite Z.pow_0_r; cbn; field).
  rewrite El. set (t := (10 ^ (- f))%Z) in *. assert (0 <= 8 * k / t)%Z by (apply Z.div_pos; lia). assert (0 <= (8 * k + t - 1) / t)%Z by (apply Z.div_pos; lia).
  rewrite !INR_IZR_INZ, !Z2Nat.id by lia. pose proof (Z.mul_div_le (8 * k) t Hp) as D. pose proof (Z.mul_succ_div_gt (8 * k + t - 1) t Hp) as D'. unfold Z.succ in D'.
  assert (D2 : (8 * k <= t * ((8 * k + t - 1) / t))%Z) by lia. apply IZR_le in D, D2. apply IZR_lt in Hp. rewrite (mult_IZR t), (mult_IZR 8) in D. rewrite (mult_IZR t), (mult_IZR 8) in D2.
  set (q := IZR (8 * k / t)) in *. set (q' := IZR ((8 * k + t - 1) / t)) in *. set (u := IZR t) in *. clearbody q q' u. split; apply (Rmult_le_reg_r (8 * u)); try lra.
  - replace (q / 8 * (8 * u)) with (u * q) by field. replace (IZR k / u * (8 * u)) with (8 * IZR k) by (field; lra). exact D.
  - replace (q' / 8 * (8 * u)) with (u * q') by field. replace (IZR k / u * (8 * u)) with (8 * IZR k) by (field; lra). exact D2.
Qed.
Lemma pows l : tok2 l = true -> let o := snd (prow (L 0 0, l)) in
  up (match o with Some q => nth (fst q) H 0%Z | None => inv2 end) (Rpower tau (Rlit l)) /\ dn (match o with Some q => nth (snd q) G 0%Z | None => SC end) (Rpower tau (Rlit l)).
Proof.
  destruct l as [k f]. cbn [tok2 prow fst snd]. intros E. apply andb_true_iff in E as [He E]. apply Z.leb_le in He. pose proof tau_lt1 as T1. destruct (Z.ltb_spec k 0) as [K|K].
  - apply andb_true_iff in E as [E1 E2]. apply Z.eqb_eq in E1, E2. subst. cbn [Rlit]. replace (Rpower tau (-1)) with (/ tau) by (change (-1) with (Ropp 1); rewrite Rpower_Ropp, Rpower_1; lra). rewrite inv2_num. split.
    + assert (/ tau <= 2661 / 1000). { apply (Rmult_le_reg_r tau); [lra|]. rewrite Rinv_l by lra. lra. }
      apply lit_le; [left; apply Rinv_0_lt_compat; lra|cbn; lra].
    + split; [discriminate|]. rewrite fx_1. rewrite <- Rinv_1. apply Rinv_le_contravar; lra.
  - apply andb_true_iff in E as [E1 E2]. apply Nat.leb_le in E1, E2. destruct (exps k f He K) as [X1 X2]. cbn [fst snd]. pose proof eighth_box as [B1 B2]. split.
    + pose proof (up_pt (litU hi) (Rlit hi) 240 (pos_up hi ltac:(lra)) SC 1 _ E1 up_1) as U. rewrite Rmult_1_l in U. fold H in U.
      apply (up_le _ _ (Rlit hi ^ fl8 (L k f)) _ U); [|apply Z.le_refl]. split; [left; apply exp_pos|].
      apply Rle_trans with (1 := pow_dec _ _ X1). rewrite eighth. apply pow_incr. split; [left; apply exp_pos|exact B2].
    + pose proof (dn_pt (litD lo) (Rlit lo) 240 (dn_lit lo ltac:(lra)) SC 1 _ E2 dn_1) as U. rewrite Rmult_1_l in U. fold G in U. destruct U as [U1 U2]. split; [exact U1|].
      apply Rle_trans with (1 := U2). apply Rle_trans with (2 := pow_dec _ _ X2). rewrite eighth. apply pow_incr. lra.
Qed.
Lemma lit_opp m e : Rlit (L (- m) e) = - Rlit (L m e).
Proof. destruct e as [|p|p]; cbn [Rlit]; [now rewrite opp_IZR|now rewrite Z.mul_opp_l, opp_IZR|rewrite opp_IZR; unfold Rdiv; ring]. Qed.
Lemma lit_nn m e : (0 <= m)%Z -> 0 <= Rlit (L m e).
Proof. intros M. apply nn_ok. now apply Z.leb_le. Qed.
Lemma fx_opp a : fx (- a) = - fx a. Proof. unfold fx. rewrite opp_IZR. unfold Rdiv. ring. Qed.
Lemma row_box r : tok2 (snd r) = true -> fx (fst (rowLU G H (prow r))) <= Rlit (fst r) * Rpower tau (Rlit (snd r)) <= fx (snd (rowLU G H (prow r))).
Proof.
  destruct r as [[m e] l]. cbn [fst snd]. intros K. destruct (pows l K) as [U D]. destruct l as [k f]. unfold prow in *. cbn [fst snd] in *. unfold rowLU.
  set (h := match _ with Some q => nth (fst q) H 0%Z | None => inv2 end) in *. set (g := match _ with Some q => nth (snd q) G 0%Z | None => SC end) in *. set (X := Rpower tau _) in *. clearbody h g X.
  destruct (Z.leb_spec 0 m) as [M|M]; cbn [fst snd].
  - rewrite Z.abs_eq by exact M. pose proof (lit_nn m e M) as N. split; [apply (dn_mul _ _ _ _ (dn_lit _ N) D)|apply (up_mul _ _ _ _ (pos_up _ N) U)].
  - rewrite Z.abs_neq by lia. assert (N : 0 <= Rlit (L (- m) e)) by (apply lit_nn; lia). pose proof (proj2 (dn_mul _ _ _ _ (dn_lit _ N) D)) as A. pose proof (proj2 (up_mul _ _ _ _ (pos_up _ N) U)) as B.
    rewrite lit_opp in A, B. rewrite !fx_opp. lra.
Qed.
Lemma group_box l : forallb (fun r => tok2 (snd r)) l = true -> fx (fst (gLU G H (map prow l))) <= gs tau l <= fx (snd (gLU G H (map prow l))).
Proof.
  induction l as [|r l IH]; intros K; [unfold gs, lsum; cbn; rewrite fx_0; lra|]. cbn [forallb] in K. apply andb_true_iff in K as [K1 K2]. specialize (IH K2). pose proof (row_box r K1) as R.
  unfold gs, lsum in *. cbn [map fold_right]. unfold gLU in *. cbn [map fold_right add2 fst snd]. rewrite !fx_add. lra.
Qed.
Lemma group_abs l : forallb (fun r => tok2 (snd r)) l = true -> up (absZ (gLU G H (map prow l))) (Rabs (gs tau l)).
Proof.
  intros K. destruct (group_box l K) as [A B]. split; [apply Rabs_pos|]. unfold absZ. set (p := gLU _ _ _) in *. apply Rabs_le. split.
  - assert (fx (- fst p) <= fx (Z.max 0 (Z.max (snd p) (- fst p)))) by (apply fx_le; lia). rewrite fx_opp in *. lra.
  - apply Rle_trans with (1 := B). apply fx_le. lia.
Qed.
Variable v : R.
Hypothesis Hv : 0 <= v <= 8697 / 100000.
Lemma v_up : up del2 v. Proof. rewrite del2_num. apply lit_le; [lra|cbn; lra]. Qed.
Lemma keyz_up k : up (keyzU k) (keyz v k).
Proof.
  destruct k as [d c]. unfold keyzU, keyz. pose proof v_up as V. destruct (Nat.eqb d 1).
  - destruct c as [|c]; [exact up_0|]. apply up_mul; [apply up_INR|now apply up_pow].
  - apply up_mul; [|now apply up_pow]. unfold wt. apply up_add; [apply up_pow; apply up_add; [apply up_INR|apply up_mul; [apply up_INR|now apply up_pow]]|apply up_mul; [apply up_pow, up_INR|now apply up_pow]].
Qed.
Lemma dkz_up k : forallb nn_lit (snd k) = true -> up (dkzU k) (dkz v k).
Proof.
  destruct k as [d w]. cbn [snd]. intros H2. unfold dkzU, dkz. pose proof v_up as V.
  assert (P : forall c, up (litU (nth c w (L 0 0))) (Rlit (nth c w (L 0 0)))).
  { intros c. apply pos_up. destruct (nth_in_or_default c w (L 0 0)) as [K|K]; [apply nn_ok; exact (proj1 (forallb_forall _ _) H2 _ K)|rewrite K; cbn; lra]. }
  pose proof (up_INR 2) as I2. change (INR 2) with 2 in I2.
  assert (E : up (mulU (mulU (mulU (nU 2) (litU (nth 0 w (L 0 0)))) del2) (del2 + litU (nth 1 w (L 0 0))) + mulU (litU (nth 2 w (L 0 0))) del2)%Z
    (2 * Rlit (nth 0 w (L 0 0)) * v * (v + Rlit (nth 1 w (L 0 0))) + Rlit (nth 2 w (L 0 0)) * v)).
  { apply up_add; [apply up_mul; [apply up_mul; [apply up_mul; [exact I2|apply P]|exact V]|apply up_add; [exact V|apply P]]|apply up_mul; [apply P|exact V]]. }
  apply up_mul; [|now apply up_pow]. apply up_mul; [|apply up_expy; apply up_mul; apply P].
  apply up_add; [apply up_add; [apply up_pow; apply up_add; [apply up_INR|exact E]|exact E]|]. apply up_mul; [apply up_mul; [exact I2|apply P]|now apply up_pow].
Qed.
Lemma comp_box m : (m < 21)%nat -> let p := compZ G H (pgt m) in
  fx (fst (fst p)) <= lsum (fun g => gs tau (snd g) * key1 (fst g)) (pgrp (S m)) <= fx (snd (fst p)) /\ up (snd p) (lsum (fun g => Rabs (gs tau (snd g)) * keyz v (fst g)) (pgrp (S m))).
Proof.
  intros Hm p. unfold p, pgt. pose proof (proj1 (forallb_forall _ _) pg_ok m ltac:(apply in_seq; lia)) as K. cbv beta in K. clear p Hm. revert K. generalize (pgrp (S m)). intros l K.
  induction l as [|g l IH]; [unfold lsum; cbn; rewrite fx_0; split; [lra|exact up_0]|]. cbn [forallb] in K. apply andb_true_iff in K as [K1 K2]. destruct (IH K2) as [I1 I2].
  pose proof (group_box _ K1) as B. pose proof (group_abs _ K1) as A. unfold lsum in *. cbn [map fold_right]. unfold compZ in *. cbn [map fold_right]. set (q := fold_right _ _ (map _ l)) in *. unfold add3, grp3. cbn [fst snd]. split.
  - rewrite !fx_add. replace (key1 (fst g)) with (if Nat.eqb (fst (fst g)) 1 then 1 else 0) by reflexivity. destruct (Nat.eqb (fst (fst g)) 1); [lra|]. rewrite fx_0. lra.
  - apply up_add; [|exact I2]. apply up_mul; [exact A|apply keyz_up].
Qed.
Variable x : nat -> R.
Hypothesis Hx : natural_gas (fun i => x (S i)).
Lemma two_le i j : (i < 21)%nat -> (j < 21)%nat -> i <> j -> x (S i) + x (S j) <= tot 21 (fun i => x (S i)).
Proof.
  intros Hi Hj Hij. assert (E : tot 21 (fun k => if Nat.eqb k i then x (S k) else if Nat.eqb k j then x (S k) else 0) = x (S i) + x (S j)).
  { clear - Hi Hj Hij. assert (Q : forall n, tot n (fun k => if Nat.eqb k i then x (S k) else if Nat.eqb k j then x (S k) else 0) = (if Nat.ltb i n then x (S i) else 0) + (if Nat.ltb j n then x (S j) else 0)).
    { induction n as [|n IH]; [cbn; ring|]. cbn [tot]. rewrite IH. destruct (Nat.eqb_spec n i) as [->|E1].
      - replace (Nat.ltb i i) with false by (symmetry; apply Nat.ltb_ge; lia). replace (Nat.ltb i (S i)) with true by (symmetry; apply Nat.ltb_lt; lia).
        assert (X : Nat.ltb j (S i) = Nat.ltb j i) by (destruct (Nat.ltb_spec j (S i)), (Nat.ltb_spec j i); trivial; lia). rewrite X. ring.
      - assert (X : Nat.ltb i (S n) = Nat.ltb i n) by (destruct (Nat.ltb_spec i (S n)), (Nat.ltb_spec i n); trivial; lia). rewrite X. destruct (Nat.eqb_spec n j) as [->|E2].
        + replace (Nat.ltb j j) with false by (symmetry; apply Nat.ltb_ge; lia). replace (Nat.ltb j (S j)) with true by (symmetry; apply Nat.ltb_lt; lia). ring.
        + assert (Y : Nat.ltb j (S n) = Nat.ltb j n) by (destruct (Nat.ltb_spec j (S n)), (Nat.ltb_spec j n); trivial; lia). rewrite Y. ring. }
    rewrite Q. apply Nat.ltb_lt in Hi, Hj. now rewrite Hi, Hj. }
  rewrite <- E. apply tot_le. intros k Hk. destruct (Nat.eqb k i); [lra|]. destruct (Nat.eqb k j); [lra|]. exact (x_ge0 _ Hx k Hk).
Qed.
Lemma three_le : x 1%nat + x 2%nat + x 3%nat <= tot 21 (fun i => x (S i)).
Proof.
  change 21%nat with (3 + 18)%nat. rewrite (GasTight.tot_split 3 18). assert (K : 0 <= tot 18 (fun m => x (S (3 + m)))) by (apply tot_ge0; intros i Hi; apply (x_ge0 _ Hx (3 + i)); lia). set (t := tot 18 _) in *. clearbody t. cbn [tot]. lra.
Qed.
Lemma prod_up i j : (0 < i < 22)%nat -> (0 < j < 22)%nat -> up (prodU i j) (x i * x j).
Proof.
  intros Hi Hj. pose proof (x_ge0 _ Hx 0 ltac:(lia)) as X1. pose proof (x_ge0 _ Hx 1 ltac:(lia)) as X2. pose proof (x_ge0 _ Hx 2 ltac:(lia)) as X3. cbv beta in X1, X2, X3. pose proof three_le as T3. destruct Hx as (X0 & _ & Xt).
  unfold prodU. destruct (Nat.eqb_spec i 2) as [->|E1]; [destruct (Nat.eqb_spec j 3) as [->|E2]|]; cbn [andb].
  - apply lit_le; [apply Rmult_le_pos; lra|]. change (Rlit (L 784 (-4))) with (784 / 10000). assert (x 2%nat + x 3%nat <= 56 / 100) by lra. pose proof (pow2_ge_0 (x 2%nat - x 3%nat)). nra.
  - cbn [Nat.eqb andb]. apply up_mul; [apply (x_lim _ Hx 1); lia|]. replace (x j) with (x (S (Nat.pred j))) by (f_equal; lia). apply (x_lim _ Hx (Nat.pred j)). lia.
  - destruct (Nat.eqb_spec i 1) as [->|E2]; [destruct (Nat.eqb_spec j 2) as [->|E3]|]; cbn [andb].
    + apply lit_le; [apply Rmult_le_pos; lra|]. change (Rlit (L 25503 (-5))) with (25503 / 100000). assert (x 1%nat + x 2%nat <= 101 / 100) by lra. pose proof (pow2_ge_0 (x 1%nat - x 2%nat)). nra.
    + apply up_mul; [apply (x_lim _ Hx 0); lia|]. replace (x j) with (x (S (Nat.pred j))) by (f_equal; lia). apply (x_lim _ Hx (Nat.pred j)). lia.
    + apply up_mul; [replace (x i) with (x (S (Nat.pred i))) by (f_equal; lia); apply (x_lim _ Hx (Nat.pred i)); lia|]. replace (x j) with (x (S (Nat.pred j))) by (f_equal; lia). apply (x_lim _ Hx (Nat.pred j)). lia.
Qed.
Lemma dep_box : up (depZ G H DGT) (lsum (fun r => let '(i, j, f, m) := r in x i * x j * Rabs (Rlit f) * lsum (fun g => Rabs (gs tau (snd g)) * dkz v (fst g)) (dgrp m)) DEPARTS).
Proof.
  rewrite DGT_num. unfold depZ. assert (E : forall (f : _ -> Z) l, lsumU f (map dgt l) = lsumU (fun r => f (dgt r)) l) by (intros f l; induction l as [|r l IH]; [reflexivity|]; unfold lsumU in *; cbn [map fold_right]; now rewrite IH).
  rewrite E. apply up_lsum. intros [[[i j] f] m] Hr. pose proof (proj1 (forallb_forall _ _) departs_ok _ Hr) as K. cbv beta iota in K. rewrite !andb_true_iff, !Nat.ltb_lt in K. destruct K as (((I1 & J1) & I2) & J2).
  pose proof (proj1 (forallb_forall _ _) dg_ok _ Hr) as Q. cbv beta iota in Q. cbn [dgt fst snd]. apply up_mul; [apply up_mul; [apply prod_up; lia|apply up_lit]|].
  revert Q. generalize (dgrp m). intros l Q. induction l as [|g l IH]; [exact up_0|]. cbn [forallb] in Q. apply andb_true_iff in Q as [Q1 Q2]. apply andb_true_iff in Q1 as [Q0 Q1]. unfold lsum in *. cbn [map lsumU fold_right fst snd].
  apply up_add; [apply up_mul; [now apply group_abs|now apply dkz_up]|]. exact (IH Q2).
Qed.
Let p : list (Z * Z * Z) * Z := (map (compZ G H) PGT, depZ G H DGT).
Lemma c3_eq m : (m < 21)%nat -> c3 (fst p) m = compZ G H (pgt m).
Proof.
  intros Hm. unfold c3, p. cbn [fst]. rewrite PGT_num, map_map. rewrite (nth_indep _ _ (compZ G H (pgt 0))) by (rewrite map_length, seq_length; exact Hm). rewrite (map_nth (fun a => compZ G H (pgt a))), seq_nth by exact Hm. reflexivity.
Qed.
Lemma rest_up : rest x v tau <= fx (linU (fun i => snd (c3 (fst p) i)) + snd p).
Proof.
  unfold rest. rewrite fx_add. apply Rplus_le_compat; [|exact (proj2 dep_box)].
  apply (proj2 (up_lin (fun i => x (S i)) Hx (fun i => snd (c3 (fst p) i)) _ (fun i Hi => eq_ind_r (fun z => up (snd z) _) (proj2 (comp_box i Hi)) (c3_eq i Hi)))).
Qed.
Lemma first_low : - fx (linU (fun i => Z.max 0 (- fst (fst (c3 (fst p) i))))) <= first x tau.
Proof.
  set (s m := lsum (fun g => gs tau (snd g) * key1 (fst g)) (pgrp (S m))). assert (U : up (linU (fun i => Z.max 0 (- fst (fst (c3 (fst p) i))))) (tot 21 (fun m => x (S m) * Rmax 0 (- s m)))).
  { apply (up_lin (fun i => x (S i)) Hx (fun i => Z.max 0 (- fst (fst (c3 (fst p) i)))) (fun m => Rmax 0 (- s m))). intros i Hi. split; [apply Rmax_l|]. rewrite (c3_eq i Hi). destruct (comp_box i Hi) as [[A _] _]. fold (s i) in A. set (a := fst (fst _)) in *.
    apply Rmax_lub; [rewrite <- fx_0; apply fx_le; lia|]. apply Rle_trans with (fx (- a)); [rewrite fx_opp; lra|apply fx_le; lia]. }
  destruct U as [_ U]. assert (- tot 21 (fun m => x (S m) * Rmax 0 (- s m)) <= first x tau); [|lra]. unfold first. replace (- tot 21 (fun m => x (S m) * Rmax 0 (- s m))) with (tot 21 (fun m => - (1) * (x (S m) * Rmax 0 (- s m)))) by (rewrite tot_scal; ring).
  apply tot_le. intros m Hm. fold (s m). pose proof (Rmax_r 0 (- s m)). pose proof (x_ge0 _ Hx m Hm) as X. cbv beta in X. nra.
Qed.
Lemma first_upp : first x tau <= fx (linU (fun i => Z.max 0 (snd (fst (c3 (fst p) i)))) - linD (fun i => Z.max 0 (- snd (fst (c3 (fst p) i))))).
Proof.
  set (q i := snd (fst (c3 (fst p) i))). set (s m := lsum (fun g => gs tau (snd g) * key1 (fst g)) (pgrp (S m))).
  assert (U : up (linU (fun i => Z.max 0 (q i))) (tot 21 (fun m => x (S m) * fx (Z.max 0 (q m))))).
  { apply (up_lin (fun i => x (S i)) Hx (fun i => Z.max 0 (q i)) (fun m => fx (Z.max 0 (q m)))). intros i Hi. split; [apply fx_ge0; lia|lra]. }
  assert (D : fx (linD (fun i => Z.max 0 (- q i))) <= tot 21 (fun m => x (S m) * fx (Z.max 0 (- q m)))).
  { apply (dn_lin (fun i => x (S i)) (fun i => Z.max 0 (- q i)) (fun m => fx (Z.max 0 (- q m))) Hx). intros i Hi. split; [lia|lra]. }
  rewrite fx_sub. change (fun i => Z.max 0 (snd (fst (c3 (fst p) i)))) with (fun i => Z.max 0 (q i)). change (fun i => Z.max 0 (- snd (fst (c3 (fst p) i)))) with (fun i => Z.max 0 (- q i)).
  apply Rle_trans with (tot 21 (fun m => x (S m) * fx (Z.max 0 (q m)) + - (1) * (x (S m) * fx (Z.max 0 (- q m))))); [|rewrite tot_plus, tot_scal; destruct U as [_ U]; lra].
  unfold first. apply tot_le. intros m Hm. fold (s m). pose proof (x_ge0 _ Hx m Hm) as X. cbv beta in X. destruct (comp_box m Hm) as [[_ B] _]. fold (s m) in B. rewrite <- (c3_eq m Hm) in B. fold (q m) in B.
  assert (E : fx (q m) = fx (Z.max 0 (q m)) - fx (Z.max 0 (- q m))) by (rewrite <- fx_sub; f_equal; lia). rewrite E in B. replace (x (S m) * fx (Z.max 0 (q m)) + - (1) * (x (S m) * fx (Z.max 0 (- q m)))) with (x (S m) * (fx (Z.max 0 (q m)) - fx (Z.max 0 (- q m)))) by ring. now apply Rmult_le_compat_l.
Qed.
Lemma piece_box : - fx (lowZ p) <= first x tau - rest x v tau /\ first x tau + rest x v tau <= fx (uppZ p).
Proof.
  pose proof rest_up as R. pose proof first_low as A. pose proof first_upp as B. unfold lowZ, uppZ. rewrite (fx_add (linU (fun i => Z.max 0 (- fst (fst (c3 (fst p) i)))))), (fx_add (_ - _)). lra.
Qed.
End S.
Lemma gas_first x v tau : natural_gas (fun i => x (S i)) -> 0 <= v <= 8697 / 100000 -> 3765 / 10000 <= tau <= 93964 / 100000 ->
  - (2039 / 1000) <= first x tau - rest x v tau /\ first x tau + rest x v tau <= 44 / 100.
Proof.
  intros Hx Hv Ht. assert (Q : forall q, In q BR -> 0 < Rlit (fst q) /\ 0 < Rlit (snd q) < 1).
  { intros q Hq. repeat (destruct Hq as [<-|Hq]; [cbn; lra|]). destruct Hq. }
  assert (K : exists q, In q BR /\ Rlit (fst q) ^ 8 <= tau <= Rlit (snd q) ^ 8).
  { unfold BR.
    destruct (Rle_lt_dec tau (Rlit (L 915 (-3)) ^ 8)) as [K0|K0]; [exists ((L 885 (-3)), (L 915 (-3))); split; [now left|cbn [fst snd] in *; split; [cbn; lra|exact K0]]|].
    destruct (Rle_lt_dec tau (Rlit (L 94 (-2)) ^ 8)) as [K1|K1]; [exists ((L 915 (-3)), (L 94 (-2))); split; [do 1 right; now left|cbn [fst snd] in *; split; [left; exact K0|exact K1]]|].
    destruct (Rle_lt_dec tau (Rlit (L 96 (-2)) ^ 8)) as [K2|K2]; [exists ((L 94 (-2)), (L 96 (-2))); split; [do 2 right; now left|cbn [fst snd] in *; split; [left; exact K1|exact K2]]|].
    destruct (Rle_lt_dec tau (Rlit (L 972 (-3)) ^ 8)) as [K3|K3]; [exists ((L 96 (-2)), (L 972 (-3))); split; [do 3 right; now left|cbn [fst snd] in *; split; [left; exact K2|exact K3]]|].
    destruct (Rle_lt_dec tau (Rlit (L 98 (-2)) ^ 8)) as [K4|K4]; [exists ((L 972 (-3)), (L 98 (-2))); split; [do 4 right; now left|cbn [fst snd] in *; split; [left; exact K3|exact K4]]|].
    destruct (Rle_lt_dec tau (Rlit (L 985 (-3)) ^ 8)) as [K5|K5]; [exists ((L 98 (-2)), (L 985 (-3))); split; [do 5 right; now left|cbn [fst snd] in *; split; [left; exact K4|exact K5]]|].
    destruct (Rle_lt_dec tau (Rlit (L 9888 (-4)) ^ 8)) as [K6|K6]; [exists ((L 985 (-3)), (L 9888 (-4))); split; [do 6 right; now left|cbn [fst snd] in *; split; [left; exact K5|exact K6]]|].
    exists ((L 9888 (-4)), (L 99229 (-5))); split; [do 7 right; now left|cbn [fst snd]; split; [left; exact K6|cbn; lra]]. }
  destruct K as (q & Hq & Hb). destruct (Q q Hq) as [Q1 Q2]. assert (P : In (mkp q) PC) by (rewrite PC_num; now apply in_map).
  pose proof (proj1 (forallb_forall _ _) PC_ok _ P) as C. cbv beta in C. apply andb_true_iff in C as [C1 C2]. apply leU in C1, C2.
  pose proof (piece_box tau (fst q) (snd q) Q1 Q2 Hb ltac:(lra) v Hv x Hx) as [A B]. change (map (compZ (ptD (litD (fst q)) SC 240) (pt (litU (snd q)) SC 240)) PGT, depZ (ptD (litD (fst q)) SC 240) (pt (litU (snd q)) SC 240) DGT) with (mkp q) in A, B.
  assert (fx 547300000 <= 2039 / 1000) by (unfold fx; change SC with 268435456%Z; lra). assert (fx 118000000 <= 44 / 100) by (unfold fx; change SC with 268435456%Z; lra). lra.
Qed.
