(* The second virial coefficient of a natural gas between 270 K and 350 K, with its sign. *)
From Coq Require Import Reals ZArith List Bool Lra Lia Psatz.
From Verif Require Import FArith ArithR StdDetail SpecStd SpecGas SpecAcc SpecSlope SpecConv SlopeReal ConvDetail FixUp GasDetail GasVirial GasThird.
Import ListNotations.
Local Open Scope R_scope.

(* lower bounds in fixed point *)
Definition dn (v : Z) (r : R) : Prop := (0 <= v)%Z /\ fx v <= r.
Lemma fx_ge0 v : (0 <= v)%Z -> 0 <= fx v. Proof. intros H. rewrite <- fx_0. now apply fx_le. Qed.
Lemma dn_pos v r : dn v r -> 0 <= r. Proof. intros [A B]. apply fx_ge0 in A. lra. Qed.
Lemma dn_add a b r s : dn a r -> dn b s -> dn (a + b) (r + s).
Proof. intros [A B] [C D]. split; [lia|]. rewrite fx_add. lra. Qed.
Definition mulD (a b : Z) : Z := Z.shiftr (a * b) 28.
Lemma dn_mul a b r s : dn a r -> dn b s -> dn (mulD a b) (r * s).
Proof.
  intros [A B] [C D]. unfold mulD. rewrite Z.shiftr_div_pow2 by lia. fold SC. split; [apply Z.div_pos; [now apply Z.mul_nonneg_nonneg|reflexivity]|].
  apply Rle_trans with (fx a * fx b); [|apply Rmult_le_compat; trivial; now apply fx_ge0]. unfold fx. pose proof SC_pos as P.
  pose proof (Z.mul_div_le (a * b) SC ltac:(reflexivity)) as H. apply IZR_le in H. rewrite (mult_IZR SC), (mult_IZR a) in H. set (q := IZR (a * b / SC)) in *.
  apply (Rmult_le_reg_r (IZR SC * IZR SC)); [now apply Rmult_lt_0_compat|].
  replace (IZR a / IZR SC * (IZR b / IZR SC) * (IZR SC * IZR SC)) with (IZR a * IZR b) by (field; lra).
  replace (q / IZR SC * (IZR SC * IZR SC)) with (IZR SC * q) by (field; lra). lra.
Qed.
Definition litD (l : lit) : Z := let '(L m e) := l in
  match e with Zneg p => (Z.max 0 m * SC / 10 ^ Zpos p)%Z | _ => (Z.max 0 m * 10 ^ e * SC)%Z end.
Lemma dn_lit l : 0 <= Rlit l -> dn (litD l) (Rlit l).
Proof.
  destruct l as [m e]. intros H. assert (M : (0 <= m)%Z).
  { destruct (Z.le_gt_cases 0 m) as [G|G]; [exact G|exfalso]. apply IZR_lt in G. destruct e as [|p|p]; cbn [Rlit] in H; [lra| |].
    - apply lt_IZR in G. apply le_IZR in H. assert (0 < 10 ^ Zpos p)%Z by (apply Z.pow_pos_nonneg; lia). nia.
    - assert (0 < 10 ^ Zpos p)%Z as Hp by (apply Z.pow_pos_nonneg; lia). apply IZR_lt in Hp. assert (IZR m / IZR (10 ^ Zpos p) < 0); [|lra]. unfold Rdiv. assert (0 < / IZR (10 ^ Zpos p)) by now apply Rinv_0_lt_compat. nra. }
  clear H. destruct e as [|p|p]; cbn [litD Rlit]; rewrite Z.max_r by exact M; split; unfold fx.
  - rewrite Z.pow_0_r, Z.mul_1_r. apply Z.mul_nonneg_nonneg; [exact M|]. discriminate.
  - rewrite Z.pow_0_r, Z.mul_1_r, mult_IZR. right. field. exact SC_n0.
  - apply Z.mul_nonneg_nonneg; [|discriminate]. apply Z.mul_nonneg_nonneg; [exact M|]. apply Z.pow_nonneg. lia.
  - rewrite !mult_IZR. right. field. exact SC_n0.
  - apply Z.div_pos; [apply Z.mul_nonneg_nonneg; [exact M|discriminate]|]. apply Z.pow_pos_nonneg; lia.
  - assert (0 < 10 ^ Zpos p)%Z as Hp by (apply Z.pow_pos_nonneg; lia). set (t := (10 ^ Zpos p)%Z) in *.
    pose proof (Z.mul_div_le (m * SC) t Hp) as H. apply IZR_le in H. apply IZR_lt in Hp. rewrite (mult_IZR t), (mult_IZR m) in H.
    set (q := IZR (_ / t)) in *. pose proof SC_pos as P. apply (Rmult_le_reg_r (IZR SC * IZR t)); [now apply Rmult_lt_0_compat|].
    replace (IZR m / IZR t * (IZR SC * IZR t)) with (IZR m * IZR SC) by (field; lra).
    replace (q / IZR SC * (IZR SC * IZR t)) with (IZR t * q) by (field; lra). lra.
Qed.
(* square roots and inverses *)
Definition sqrtU (z : Z) : Z := (Z.sqrt (z * SC) + 1)%Z.
Definition sqrtD (z : Z) : Z := Z.sqrt (z * SC).
Lemma fx_sq a b : (a * a <= b * SC)%Z -> fx a * fx a <= fx b.
Proof.
  intros H. apply IZR_le in H. rewrite !mult_IZR in H. unfold fx. pose proof SC_pos as P. apply (Rmult_le_reg_r (IZR SC * IZR SC)); [now apply Rmult_lt_0_compat|].
  replace (IZR a / IZR SC * (IZR a / IZR SC) * (IZR SC * IZR SC)) with (IZR a * IZR a) by (field; lra).
  replace (IZR b / IZR SC * (IZR SC * IZR SC)) with (IZR b * IZR SC) by (field; lra). exact H.
Qed.
Lemma fx_sq' a b : (b * SC <= a * a)%Z -> fx b <= fx a * fx a.
Proof.
  intros H. apply IZR_le in H. rewrite !mult_IZR in H. unfold fx. pose proof SC_pos as P. apply (Rmult_le_reg_r (IZR SC * IZR SC)); [now apply Rmult_lt_0_compat|].
  replace (IZR a / IZR SC * (IZR a / IZR SC) * (IZR SC * IZR SC)) with (IZR a * IZR a) by (field; lra).
  replace (IZR b / IZR SC * (IZR SC * IZR SC)) with (IZR b * IZR SC) by (field; lra). exact H.
Qed.
Lemma up_sqrt z a : up z a -> up (sqrtU z) (sqrt a).
Proof.
  intros [A B]. assert (N := up_nn _ _ (conj A B)). split; [apply sqrt_pos|]. unfold sqrtU. assert (M : (0 <= z * SC)%Z) by (apply Z.mul_nonneg_nonneg; [exact N|discriminate]).
  pose proof (Z.sqrt_spec (z * SC) M) as [_ H]. unfold Z.succ in H. pose proof (Z.sqrt_nonneg (z * SC)) as S0. set (s := (Z.sqrt (z * SC) + 1)%Z) in *.
  assert (F : 0 <= fx s) by (apply fx_ge0; lia). rewrite <- (sqrt_square (fx s)) by exact F. apply sqrt_le_1_alt. apply Rle_trans with (1 := B). apply fx_sq'. lia.
Qed.
Lemma dn_sqrt z a : dn z a -> dn (sqrtD z) (sqrt a).
Proof.
  intros [A B]. unfold sqrtD. pose proof (Z.sqrt_nonneg (z * SC)) as S0. split; [exact S0|]. assert (M : (0 <= z * SC)%Z) by (apply Z.mul_nonneg_nonneg; [exact A|discriminate]).
  pose proof (Z.sqrt_spec (z * SC) M) as [H _]. set (s := Z.sqrt (z * SC)) in *. assert (F : 0 <= fx s) by now apply fx_ge0.
  rewrite <- (sqrt_square (fx s)) by exact F. apply sqrt_le_1_alt. apply Rle_trans with (2 := B). now apply fx_sq.
Qed.
Definition invU (z : Z) : Z := (SC * SC / Z.max 1 z + 1)%Z.
Definition invD (z : Z) : Z := (SC * SC / Z.max 1 z)%Z.
Lemma up_inv z a : (0 < z)%Z -> dn z a -> up (invU z) (/ a).
Proof.
  intros Hz [A B]. unfold invU. rewrite Z.max_r by lia. pose proof SC_pos as P. assert (F : 0 < fx z) by (unfold fx; apply Rdiv_lt_0_compat; [now apply IZR_lt|exact P]).
  split; [left; apply Rinv_0_lt_compat; lra|]. apply Rle_trans with (/ fx z); [apply Rinv_le_contravar; lra|].
  pose proof (Z.mul_succ_div_gt (SC * SC) z Hz) as H. unfold Z.succ in H. apply IZR_lt in H, Hz. rewrite (mult_IZR z), (mult_IZR SC) in H. set (q := IZR (_ + 1)) in *.
  unfold fx. fold q. apply (Rmult_le_reg_r (IZR z * IZR SC)); [now apply Rmult_lt_0_compat|].
  replace (/ (IZR z / IZR SC) * (IZR z * IZR SC)) with (IZR SC * IZR SC) by (field; lra). replace (q / IZR SC * (IZR z * IZR SC)) with (IZR z * q) by (field; lra). lra.
Qed.
Lemma dn_inv z a : 0 < a -> up z a -> dn (invD z) (/ a).
Proof.
  intros Ha [A B]. unfold invD. pose proof SC_pos as P.
  assert (Hz : (0 < z)%Z). { apply lt_IZR. assert (0 < fx z) as F by lra. unfold fx in F. apply (Rmult_lt_compat_r (IZR SC)) in F; [|exact P]. replace (IZR z / IZR SC * IZR SC) with (IZR z) in F by (field; lra). lra. }
  rewrite Z.max_r by lia. split; [apply Z.div_pos; [discriminate|exact Hz]|].
  apply Rle_trans with (/ fx z); [|apply Rinv_le_contravar; lra].
  pose proof (Z.mul_div_le (SC * SC) z Hz) as H. apply IZR_le in H. apply IZR_lt in Hz. rewrite (mult_IZR z), (mult_IZR SC) in H. set (q := IZR (_ / z)) in *.
  unfold fx. fold q. apply (Rmult_le_reg_r (IZR z * IZR SC)); [now apply Rmult_lt_0_compat|].
  replace (/ (IZR z / IZR SC) * (IZR z * IZR SC)) with (IZR SC * IZR SC) by (field; lra). replace (q / IZR SC * (IZR z * IZR SC)) with (IZR z * q) by (field; lra). lra.
Qed.

(* the table *)
Definition pairD (c i j : nat) : Z :=
  match find (fun r => Nat.eqb (fst (fst r)) (Nat.min i j) && Nat.eqb (snd (fst r)) (Nat.max i j))%bool PAIRS with
  | Some r => litD (nth c (snd r) (L 1 0)) | None => SC end.
Lemma pairD_ok c i j : dn (pairD c i j) (pair c i j).
Proof.
  pose proof (proj2 (pairU_ok c i j)) as P. unfold pairD, pair in *. destruct (find _ PAIRS) as [r|]; [apply dn_lit; lra|]. split; [discriminate|]. rewrite fx_1. lra.
Qed.
Definition compD (c i : nat) : Z := litD (compl c i).
Lemma dn_comp c i : dn (compD c i) (comp c i). Proof. apply dn_lit. apply comp_ge0. Qed.
(* 270 K over the energy parameters gives their lower roots *)
Definition SEd (i : nat) : Z := Z.pred (Z.pred (Z.pred (zn SE i))).
Definition rootD (l : lit) (k s : Z) : bool := let '(L m e) := l in
  match e with Zpos _ => false | _ => (0 <=? s)%Z && (k * (s * s) * 10 ^ (- e) <=? m * SC * SC)%Z end.
Lemma dn_root l k s : (0 < k)%Z -> rootD l k s = true -> dn s (sqrt (Rlit l / IZR k)).
Proof.
  intros Hk. destruct l as [m e]. unfold rootD. intros H. assert (H' : (0 <= s)%Z /\ (k * (s * s) * 10 ^ (- e) <= m * SC * SC)%Z /\ (e <= 0)%Z).
  { destruct e; [|discriminate|]; apply andb_true_iff in H as [H2 H3]; apply Z.leb_le in H2, H3; repeat split; trivial; lia. }
  destruct H' as (Hs & H3 & He). clear H. split; [exact Hs|].
  assert (0 < 10 ^ (- e))%Z as Ht by (apply Z.pow_pos_nonneg; lia).
  assert (El : Rlit (L m e) = IZR m / IZR (10 ^ (- e))).
  { destruct e as [|p|p]; [|lia|reflexivity]. cbn [Rlit]. rewrite Z.pow_0_r. cbn. field. }
  rewrite El. pose proof (fx_ge0 s Hs) as F0. apply IZR_le in H3. apply IZR_lt in Hk, Ht. rewrite !mult_IZR in H3. pose proof SC_pos as P. set (t := IZR (10 ^ (- e))) in *.
  rewrite <- (sqrt_square (fx s)) by exact F0. apply sqrt_le_1_alt. unfold fx. apply (Rmult_le_reg_r (t * IZR k * (IZR SC * IZR SC))); [repeat apply Rmult_lt_0_compat; lra|].
  replace (IZR m / t / IZR k * (t * IZR k * (IZR SC * IZR SC))) with (IZR m * IZR SC * IZR SC) by (field; lra).
  replace (IZR s / IZR SC * (IZR s / IZR SC) * (t * IZR k * (IZR SC * IZR SC))) with (IZR k * (IZR s * IZR s) * t) by (field; lra). exact H3.
Qed.
Lemma SEd_num : forallb (fun i => rootD (compl 0 i) 270 (SEd i)) (seq 0 21) = true. Proof. vm_compute. reflexivity. Qed.
Lemma SEd_ok i : (i < 21)%nat -> dn (SEd i) (sqrt (E_ i / 270)).
Proof. intros Hi. apply (dn_root (compl 0 i) 270); [reflexivity|]. apply (proj1 (forallb_forall _ _) SEd_num). apply in_seq. lia. Qed.

(* the two signs of the sum over the terms; v is the root of the reduced inverse temperature, g and q the pair's
   orientation and quadrupole *)
Definition negR (v g q : R) : R := 2998583 / 1000000 * v ^ 2 + 4831228 / 100000000 * v ^ 7 + 4363864 / 10000000 * v ^ 6 + 3433888 / 1000000000 * v ^ 4
  + g * (1589575 / 1000000 * v ^ 9) + q * (5358847 / 100000000 * v + 4408159 / 100000000 * v ^ 4).
Definition posR (v g : R) : R := 1538326 / 10000000 + 1341953 / 1000000 * v + 1576724 / 10000000 * v ^ 4 + 3205905 / 100000000 * v ^ 22 + g * (3757965 / 10000000 * / v).
Definition negZ (mul : Z -> Z -> Z) (lt : lit -> Z) (v g q : Z) : Z :=
  let v2 := mul v v in let v4 := mul v2 v2 in let v6 := mul v2 v4 in let v7 := mul v v6 in let v9 := mul v2 v7 in
  (mul (lt (L 2998583 (-6))) v2 + mul (lt (L 4831228 (-8))) v7 + mul (lt (L 4363864 (-7))) v6 + mul (lt (L 3433888 (-9))) v4
   + mul g (mul (lt (L 1589575 (-6))) v9) + mul q (mul (lt (L 5358847 (-8))) v + mul (lt (L 4408159 (-8))) v4))%Z.
Definition posZ (mul : Z -> Z -> Z) (lt : lit -> Z) (v iv g : Z) : Z :=
  let v2 := mul v v in let v4 := mul v2 v2 in let v6 := mul v2 v4 in let v7 := mul v v6 in let v11 := mul v4 v7 in
  (lt (L 1538326 (-7)) + mul (lt (L 1341953 (-6))) v + mul (lt (L 1576724 (-7))) v4 + mul (lt (L 3205905 (-8))) (mul v11 v11)
   + mul g (mul (lt (L 3757965 (-7))) iv))%Z.
Lemma sign_up (Q : Z -> R -> Prop) mul lt : (forall a b r s, Q a r -> Q b s -> Q (a + b)%Z (r + s)) -> (forall a b r s, Q a r -> Q b s -> Q (mul a b) (r * s)) ->
  (forall l, 0 <= Rlit l -> Q (lt l) (Rlit l)) -> forall v iv g q a b c, Q v a -> Q iv (/ a) -> Q g b -> Q q c -> Q (negZ mul lt v g q) (negR a b c) /\ Q (posZ mul lt v iv g) (posR a b).
Proof.
  intros A M Lt v iv g q a b c Hv Hi Hg Hq.
  assert (H2 : Q (mul v v) (a ^ 2)) by (replace (a ^ 2) with (a * a) by ring; now apply M).
  assert (H4 : Q (mul (mul v v) (mul v v)) (a ^ 4)) by (replace (a ^ 4) with (a ^ 2 * a ^ 2) by ring; now apply M).
  assert (H6 : Q (mul (mul v v) (mul (mul v v) (mul v v))) (a ^ 6)) by (replace (a ^ 6) with (a ^ 2 * a ^ 4) by ring; now apply M).
  unfold negZ, posZ. cbv zeta. set (v2 := mul v v) in *. set (v4 := mul v2 v2) in *. set (v6 := mul v2 v4) in *.
  assert (H7 : Q (mul v v6) (a ^ 7)) by (replace (a ^ 7) with (a * a ^ 6) by ring; now apply M). set (v7 := mul v v6) in *.
  assert (H9 : Q (mul v2 v7) (a ^ 9)) by (replace (a ^ 9) with (a ^ 2 * a ^ 7) by ring; now apply M).
  assert (H11 : Q (mul v4 v7) (a ^ 11)) by (replace (a ^ 11) with (a ^ 4 * a ^ 7) by ring; now apply M).
  assert (H22 : Q (mul (mul v4 v7) (mul v4 v7)) (a ^ 22)) by (replace (a ^ 22) with (a ^ 11 * a ^ 11) by ring; now apply M).
  unfold negR, posR. assert (LL : forall m p, (0 <= m)%Z -> Q (lt (L m (Zneg p))) (IZR m / IZR (10 ^ Zpos p))).
  { intros m p Hm. apply (Lt (L m (Zneg p))). cbn [Rlit]. apply div0; [now apply IZR_le|]. apply IZR_lt. now apply Z.pow_pos_nonneg. }
  set (v9 := mul v2 v7) in *. set (v11 := mul v4 v7) in *. set (v22 := mul v11 v11) in *. clearbody v9 v22. clear H11. clearbody v11. clearbody v7. clearbody v6. clearbody v4. clearbody v2.
  generalize dependent (a ^ 2). intros a2 H2. generalize dependent (a ^ 4). intros a4 H4. generalize dependent (a ^ 6). intros a6 H6. generalize dependent (a ^ 7). intros a7 H7.
  generalize dependent (a ^ 9). intros a9 H9. generalize dependent (a ^ 22). intros a22 H22. split.
  - repeat apply A; repeat apply M; trivial; first [apply (LL _ 6%positive); discriminate | apply (LL _ 7%positive); discriminate | apply (LL _ 8%positive); discriminate | apply (LL _ 9%positive); discriminate | idtac].
    apply A; apply M; trivial; apply (LL _ 8%positive); discriminate.
  - repeat apply A; repeat apply M; trivial; first [apply (LL _ 6%positive); discriminate | apply (LL _ 7%positive); discriminate | apply (LL _ 8%positive); discriminate].
Qed.

(* the terms of the printed table *)
Lemma phi_eq i j th : 0 < th -> F_ i * F_ j = 0 -> S_ i * S_ j = 0 -> W_ i * W_ j = 0 ->
  tot 18 (fun n => a_ n * (B_n n i j * Rpower th (u_ n))) = posR (sqrt th) (pair 3 i j * (G_ i + G_ j) / 2) - negR (sqrt th) (pair 3 i j * (G_ i + G_ j) / 2) (Q_ i * Q_ j).
Proof.
  intros Ht HF HS HW. assert (Pp : forall n k, (n < 18)%nat -> hu n = Z.of_nat k -> Rpower th (u_ n) = sqrt th ^ k).
  { intros n k Hn E. rewrite u_half by lia. rewrite E, <- INR_IZR_INZ. now apply Rpower_half. }
  assert (Pm : Rpower th (u_ 4) = / sqrt th).
  { rewrite u_half by lia. change (IZR (hu 4) / 2) with (- (1) / 2). replace (- (1) / 2) with (- (1 / 2)) by lra. rewrite Rpower_Ropp. f_equal. replace (1 / 2) with (/ 2) by lra. now apply Rpower_sqrt. }
  set (g := pair 3 i j * (G_ i + G_ j) / 2). set (q := Q_ i * Q_ j). set (v := sqrt th) in *.
  assert (B : forall n, B_n n i j = when (g_ n) g * when (q_ n) q * when (f_ n) 0 * when (s_ n) 0 * when (w_ n) 0) by (intros n; unfold B_n; now rewrite !F_sqrt, HF, HS, HW).
  cbn [tot]. rewrite !B. rewrite Pm.
  rewrite (Pp 0%nat 0%nat), (Pp 1%nat 1%nat), (Pp 2%nat 2%nat), (Pp 3%nat 7%nat) by (first [lia | reflexivity]).
  rewrite (Pp 5%nat 9%nat), (Pp 6%nat 1%nat), (Pp 13%nat 4%nat), (Pp 14%nat 6%nat), (Pp 15%nat 4%nat), (Pp 16%nat 4%nat), (Pp 17%nat 22%nat) by (first [lia | reflexivity]).
  generalize (Rpower th (u_ 7)) (Rpower th (u_ 8)) (Rpower th (u_ 9)) (Rpower th (u_ 10)) (Rpower th (u_ 11)) (Rpower th (u_ 12)). intros p7 p8 p9 p10 p11 p12.
  unfold posR, negR. clearbody g q v. clear. generalize (v ^ 2) (v ^ 4) (v ^ 6) (v ^ 7) (v ^ 9) (v ^ 22) (/ v). intros v2 v4 v6 v7 v9 v22 iv.
  assert (W0 : forall r, when 0 r = 1) by reflexivity. assert (W1 : forall r, when 1 r = r) by (intros r; unfold when; cbn; ring).
  repeat match goal with |- context [when (?f ?n) ?r] => let y := eval vm_compute in (f n) in change (f n) with y end. rewrite !W0, !W1.
  repeat match goal with |- context [a_ ?n] => let y := eval vm_compute in (fst (fst (term n))) in change (a_ n) with (Rlit y) end. cbn [Rlit]. rewrite !Rmult_0_r, !Rmult_0_l.
  change (10 ^ 6)%Z with 1000000%Z. change (10 ^ 7)%Z with 10000000%Z. change (10 ^ 8)%Z with 100000000%Z. change (10 ^ 9)%Z with 1000000000%Z. cbn [pow]. lra.
Qed.

(* pairs with a term for hydrogen, for water or for hydrogen sulfide, counted by size *)
Definition zl (c i j : nat) : bool := let '(L m e) := compl c i in let '(L n f) := compl c j in (m =? 0)%Z || (n =? 0)%Z.
Lemma zl_ok c i j : zl c i j = true -> comp c i * comp c j = 0.
Proof.
  unfold zl, comp. fold (compl c i) (compl c j). assert (Z0 : forall e, Rlit (L 0 e) = 0).
  { intros [|p|p]; cbn [Rlit]; try reflexivity. unfold Rdiv. apply Rmult_0_l. }
  destruct (compl c i) as [m e]. destruct (compl c j) as [n f]. intros H. apply orb_true_iff in H as [H|H]; apply Z.eqb_eq in H; subst; rewrite Z0; [apply Rmult_0_l|apply Rmult_0_r].
Qed.
Definition usual (i j : nat) : bool := zl 4 i j && zl 5 i j && zl 6 i j.
Definition thD (i j : nat) : Z := mulD (pairD 0 i j) (mulD (SEd i) (SEd j)).
(* bounds of a pair and of its opposite when 270/T is between d and u *)
Definition pieceV (d u : lit) (i j : nat) : Z * Z * Z :=
  let vu := sqrtU (mulU (litU u) (thU i j)) in let vd := sqrtD (mulD (litD d) (thD i j)) in
  let gu := mulU (pairU 3 i j) (mulU (litU (L 5 (-1))) (compU 2 i + compU 2 j)) in
  let gd := mulD (pairD 3 i j) (mulD (litD (L 5 (-1))) (compD 2 i + compD 2 j)) in
  let qu := mulU (compU 3 i) (compU 3 j) in let qd := mulD (compD 3 i) (compD 3 j) in
  let k := powU (mulU (zn SK i) (zn SK j)) 3 in
  (mulU k (Z.max 0 (negZ mulU litU vu gu qu - posZ mulD litD vd (invD vu) gd)),
   mulU k (Z.max 0 (posZ mulU litU vu (invU vd) gu - negZ mulD litD vd gd qd)), vd).
Definition c1d : lit := L 931 (-3). Definition c1u : lit := L 1 0. Definition c2d : lit := L 771428 (-6). Definition c2u : lit := L 93104 (-5).
Definition both (i j : nat) : Z * Z :=
  if usual i j then let '(a, b, _) := pieceV c1d c1u i j in let '(a', b', _) := pieceV c2d c2u i j in (Z.max a a', Z.max b b')
  else let v := virU i j in (v, v).
Definition rowsV : list (list (Z * Z)) := Eval vm_compute in map (fun i => map (fun j => both i j) (seq 0 (S i))) (seq 0 21).
Definition entry (i j : nat) : Z * Z := nth (Nat.min i j) (nth (Nat.max i j) rowsV []) (0, 0)%Z.
Definition ckp (d u : lit) (i j : nat) (e : Z * Z) : bool := let '(a, b, v) := pieceV d u i j in ((a <=? fst e) && (b <=? snd e) && (0 <? v))%Z.
Definition ckV (i j : nat) : bool := let e := entry i j in
  if usual i j then ckp c1d c1u i j e && ckp c2d c2u i j e else let v := virU i j in ((v <=? fst e) && (v <=? snd e))%Z.
Lemma ckV_num : forallb (fun i => forallb (fun j => ckV i j) (seq 0 (S i))) (seq 0 21) = true. Proof. vm_compute. reflexivity. Qed.
Lemma neg_num : (linU (fun i => linU (fun j => fst (entry i j))) <=? 33420000)%Z = true. Proof. vm_compute. reflexivity. Qed.
Lemma pos_num : (linU (fun i => linU (fun j => snd (entry i j))) <=? 3220000)%Z = true. Proof. vm_compute. reflexivity. Qed.

Section V.
Variable x : nat -> R.
Hypothesis Hx : natural_gas x.
Variable T : R.
Hypothesis HT : 270 <= T <= 350.
Let th i j : R := pair 0 i j * sqrt (E_ i * E_ j) / T.
Let s i j : R := Rpower (K_ i * K_ j) (3 / 2) * tot 18 (fun n => a_ n * (B_n n i j * Rpower (th i j) (u_ n))).
Lemma th_eq i j : (i < 21)%nat -> (j < 21)%nat -> th i j = 270 / T * (pair 0 i j * (sqrt (E_ i / 270) * sqrt (E_ j / 270))).
Proof.
  intros Hi Hj. destruct (roots i Hi) as (Ei & _). destruct (roots j Hj) as (Ej & _).
  assert (S : sqrt (E_ i * E_ j) = 270 * (sqrt (E_ i / 270) * sqrt (E_ j / 270))).
  { rewrite <- sqrt_mult by (apply div0; lra). transitivity (sqrt (270 * 270) * sqrt (E_ i / 270 * (E_ j / 270))); [|rewrite (sqrt_square 270) by lra; reflexivity]. rewrite <- sqrt_mult; [f_equal; field|lra|apply Rmult_le_pos; apply div0; lra]. }
  unfold th. rewrite S. field. lra.
Qed.
Lemma piece_ok d u i j e : (i < 21)%nat -> (j < 21)%nat -> usual i j = true -> 0 <= Rlit d <= 270 / T -> 270 / T <= Rlit u -> ckp d u i j e = true ->
  - s i j <= fx (fst e) /\ s i j <= fx (snd e) /\ (0 <= fst e)%Z /\ (0 <= snd e)%Z.
Proof.
  intros Hi Hj Hu Hd Hu' H. destruct (roots i Hi) as (Ei & Ki & si & ki & _). destruct (roots j Hj) as (Ej & Kj & sj & kj & _).
  destruct (th_ok T HT i j Hi Hj) as (P & _). change (0 < th i j) in P. pose proof (th_eq i j Hi Hj) as TE.
  assert (U : up (mulU (litU u) (thU i j)) (th i j)).
  { rewrite TE. apply up_mul; [apply lit_le; lra|]. apply up_mul; [apply pairU_ok|]. now apply up_mul. }
  assert (D : dn (mulD (litD d) (thD i j)) (th i j)).
  { rewrite TE. destruct (dn_mul (litD d) (thD i j) (Rlit d) (pair 0 i j * (sqrt (E_ i / 270) * sqrt (E_ j / 270)))) as [A B].
    - apply dn_lit. lra.
    - apply dn_mul; [apply pairD_ok|]. apply dn_mul; now apply SEd_ok.
    - split; [exact A|]. apply Rle_trans with (1 := B). apply Rmult_le_compat_r; [|lra]. apply Rmult_le_pos; [left; apply pairU_ok|]. apply Rmult_le_pos; apply sqrt_pos. }
  apply up_sqrt in U. apply dn_sqrt in D. assert (PV : 0 < sqrt (th i j)) by now apply sqrt_lt_R0.
  unfold usual in Hu. rewrite !andb_true_iff in Hu. destruct Hu as ((HF & HS) & HW). apply zl_ok in HF, HS, HW.
  unfold ckp, pieceV in H. cbv zeta in H. rewrite !andb_true_iff in H. destruct H as ((H1 & H2) & H3). apply Z.leb_le in H1, H2. apply Z.ltb_lt in H3.
  set (vu := sqrtU (mulU (litU u) (thU i j))) in *. set (vd := sqrtD (mulD (litD d) (thD i j))) in *. clearbody vu vd.
  assert (G : pair 3 i j * (G_ i + G_ j) / 2 = pair 3 i j * (Rlit (L 5 (-1)) * (G_ i + G_ j))) by (change (Rlit (L 5 (-1))) with (5 / 10); field).
  assert (GU : up (mulU (pairU 3 i j) (mulU (litU (L 5 (-1))) (compU 2 i + compU 2 j))) (pair 3 i j * (G_ i + G_ j) / 2)).
  { rewrite G. apply up_mul; [apply pairU_ok|]. apply up_mul; [apply pos_up; cbn; lra|]. apply up_add; apply up_comp. }
  assert (GD : dn (mulD (pairD 3 i j) (mulD (litD (L 5 (-1))) (compD 2 i + compD 2 j))) (pair 3 i j * (G_ i + G_ j) / 2)).
  { rewrite G. apply dn_mul; [apply pairD_ok|]. apply dn_mul; [apply dn_lit; cbn; lra|]. apply dn_add; apply dn_comp. }
  assert (QU' : up (mulU (compU 3 i) (compU 3 j)) (Q_ i * Q_ j)) by (apply up_mul; apply up_comp).
  assert (QD : dn (mulD (compD 3 i) (compD 3 j)) (Q_ i * Q_ j)) by (apply dn_mul; apply dn_comp).
  pose proof (up_inv vd _ H3 D) as IU. pose proof (dn_inv vu _ PV U) as ID.
  destruct (sign_up up mulU litU up_add up_mul pos_up _ _ _ _ _ _ _ U IU GU QU') as [NU PU].
  destruct (sign_up dn mulD litD dn_add dn_mul dn_lit _ _ _ _ _ _ _ D ID GD QD) as [ND PD].
  assert (KU : up (powU (mulU (zn SK i) (zn SK j)) 3) (Rpower (K_ i * K_ j) (3 / 2))) by (rewrite K32 by assumption; apply up_pow; now apply up_mul).
  unfold s. rewrite (phi_eq i j (th i j) P HF HS HW).
  set (g := pair 3 i j * (G_ i + G_ j) / 2) in *. set (q := Q_ i * Q_ j) in *. set (N := negR _ g q) in *. set (O := posR _ g) in *. set (K := Rpower _ (3 / 2)) in *.
  assert (Sub : forall a b, fx a - fx b <= fx (Z.max 0 (a - b))).
  { intros a b. apply Rle_trans with (fx (a - b)); [|apply fx_le; lia]. right. unfold Z.sub. rewrite fx_add. unfold fx. rewrite opp_IZR. field. exact SC_n0. }
  assert (M : forall nu pd r, up nu (fst r) -> dn pd (snd r) -> up (Z.max 0 (nu - pd)) (Rmax 0 (fst r - snd r))).
  { intros nu pd r [_ A] [_ B]. split; [apply Rmax_l|]. apply Rmax_lub; [apply fx_ge0; lia|]. pose proof (Sub nu pd). lra. }
  pose proof (up_mul _ _ _ _ KU (M _ _ (N, O) NU PD)) as [A1 A2]. pose proof (up_mul _ _ _ _ KU (M _ _ (O, N) PU ND)) as [B1 B2]. cbn [fst snd] in *.
  pose proof (up_nn _ _ (conj A1 A2)) as A0. pose proof (up_nn _ _ (conj B1 B2)) as B0. pose proof (fx_le _ _ H1) as C1. pose proof (fx_le _ _ H2) as C2.
  destruct KU as [K0 _]. pose proof (Rmax_r 0 (N - O)) as R1. pose proof (Rmax_r 0 (O - N)) as R2. clearbody N O K.
  assert (K * (N - O) <= K * Rmax 0 (N - O)) by now apply Rmult_le_compat_l. assert (K * (O - N) <= K * Rmax 0 (O - N)) by now apply Rmult_le_compat_l.
  repeat split; [lra|lra|lia|lia].
Qed.
Lemma s_sym i j : s i j = s j i.
Proof.
  unfold s. rewrite (Rmult_comm (K_ i)). f_equal. apply tot_ext. intros n _. unfold th, B_n. rewrite (pair_sym 0 i j), (pair_sym 3 i j), (Rmult_comm (E_ i)), (Rplus_comm (G_ i)), (Rmult_comm (Q_ i)), (Rmult_comm (sqrt (F_ i))), (Rmult_comm (S_ i)), (Rmult_comm (W_ i)). reflexivity.
Qed.
Lemma entry_sym i j : entry i j = entry j i. Proof. unfold entry. now rewrite Nat.min_comm, Nat.max_comm. Qed.
Lemma pair_ok i j : (i < 21)%nat -> (j < 21)%nat -> - s i j <= fx (fst (entry i j)) /\ s i j <= fx (snd (entry i j)) /\ (0 <= fst (entry i j))%Z /\ (0 <= snd (entry i j))%Z.
Proof.
  assert (W : forall i j, (i < 21)%nat -> (j <= i)%nat -> - s i j <= fx (fst (entry i j)) /\ s i j <= fx (snd (entry i j)) /\ (0 <= fst (entry i j))%Z /\ (0 <= snd (entry i j))%Z).
  { clear i j. intros i j Hi Hj. pose proof (proj1 (forallb_forall _ _) ckV_num i ltac:(apply in_seq; lia)) as H. cbv beta in H.
    apply (proj1 (forallb_forall _ _)) with (x := j) in H; [|apply in_seq; lia]. unfold ckV in H. cbv zeta in H. destruct (usual i j) eqn:Hu.
    - apply andb_true_iff in H as [H1 H2]. assert (PT : 0 < T) by lra. destruct (Rle_lt_dec T 290) as [L1|L1].
      + apply (piece_ok c1d c1u); trivial; [lia| |].
        * change (Rlit c1d) with (931 / 1000). split; [lra|]. apply (Rmult_le_reg_r T); [lra|]. replace (270 / T * T) with 270 by (field; lra). lra.
        * change (Rlit c1u) with 1. apply (Rmult_le_reg_r T); [lra|]. replace (270 / T * T) with 270 by (field; lra). lra.
      + apply (piece_ok c2d c2u); trivial; [lia| |].
        * change (Rlit c2d) with (771428 / 1000000). split; [lra|]. apply (Rmult_le_reg_r T); [lra|]. replace (270 / T * T) with 270 by (field; lra). lra.
        * change (Rlit c2u) with (93104 / 100000). apply (Rmult_le_reg_r T); [lra|]. replace (270 / T * T) with 270 by (field; lra). lra.
    - apply andb_true_iff in H as [H1 H2]. apply Z.leb_le in H1, H2. pose proof (vir_up T HT i j Hi ltac:(lia)) as V. change (pair 0 i j * sqrt (E_ i * E_ j) / T) with (th i j) in V.
      pose proof (up_nn _ _ V) as V0. destruct V as [_ V]. apply fx_le in H1 as F1. apply fx_le in H2 as F2.
      assert (A : Rabs (s i j) <= fx (virU i j)).
      { apply Rle_trans with (2 := V). unfold s. rewrite Rabs_mult, (Rabs_pos_eq (Rpower _ _)) by (left; apply exp_pos). apply Rmult_le_compat_l; [left; apply exp_pos|]. apply tot_abs. intros n Hn.
        rewrite Rabs_mult. apply Rmult_le_compat_l; [apply Rabs_pos|]. rewrite Rabs_pos_eq; [right; reflexivity|]. apply Rmult_le_pos; [exact (proj1 (B_up n i j Hn))|left; apply exp_pos]. }
      pose proof (Rle_abs (s i j)). pose proof (Rle_abs (- s i j)) as N. rewrite Rabs_Ropp in N. repeat split; [lra|lra|lia|lia]. }
  intros Hi Hj. destruct (Nat.le_ge_cases j i) as [G|G]; [now apply W|]. rewrite s_sym, entry_sym. now apply W.
Qed.
Lemma second_eq : second_virial x T = tot 21 (fun i => tot 21 (fun j => x i * x j * s i j)).
Proof.
  rewrite second_v. transitivity (tot 18 (fun n => tot 21 (fun i => tot 21 (fun j => x i * x j * (Rpower (K_ i * K_ j) (3 / 2) * (a_ n * (B_n n i j * Rpower (th i j) (u_ n)))))))).
  - apply tot_ext. intros n Hn. unfold virial_n. rewrite <- tot_scal. apply tot_ext. intros i Hi. rewrite <- tot_scal. apply tot_ext. intros j Hj.
    assert (E : Rpower (th i j) (u_ n) = Rpower T (- u_ n) * Rpower (pair 0 i j * sqrt (E_ i * E_ j)) (u_ n)).
    { replace (th i j) with (pair 0 i j * sqrt (E_ i * E_ j) * / T) by reflexivity. destruct (roots i Hi) as (Ei & _). destruct (roots j Hj) as (Ej & _). destruct (pairU_ok 0 i j) as [_ pp].
      rewrite <- Rpower_mult_distr; [| apply Rmult_lt_0_compat; [exact pp|apply sqrt_lt_R0; now apply Rmult_lt_0_compat] | apply Rinv_0_lt_compat; lra].
      rewrite Rmult_comm. f_equal. unfold Rpower. rewrite ln_Rinv by lra. f_equal. ring. }
    rewrite E. ring.
  - rewrite tot_swap. apply tot_ext. intros i Hi. rewrite tot_swap. apply tot_ext. intros j Hj. unfold s. rewrite <- !tot_scal. apply tot_ext. intros n _. ring.
Qed.
Lemma second_bounds : - (1245 / 10000) <= second_virial x T <= 12 / 1000.
Proof.
  rewrite second_eq.
  assert (X : forall i j, (i < 21)%nat -> (j < 21)%nat -> 0 <= x i * x j) by (intros; apply Rmult_le_pos; now apply (x_ge0 x Hx)).
  pose proof (up_rows x Hx (fun i j => fst (entry i j)) (fun i j => Rmax 0 (- s i j))) as N. pose proof (up_rows x Hx (fun i j => snd (entry i j)) (fun i j => Rmax 0 (s i j))) as P. cbv beta in N, P.
  destruct N as [_ N]. { intros i j Hi Hj. destruct (pair_ok i j Hi Hj) as (A & B & C & D). split; [apply Rmax_l|]. apply Rmax_lub; [now apply fx_ge0|exact A]. }
  destruct P as [_ P]. { intros i j Hi Hj. destruct (pair_ok i j Hi Hj) as (A & B & C & D). split; [apply Rmax_l|]. apply Rmax_lub; [now apply fx_ge0|exact B]. }
  pose proof (leU _ _ neg_num) as N2. pose proof (leU _ _ pos_num) as P2.
  assert (F1 : fx 33420000 <= 1245 / 10000) by (unfold fx; change SC with 268435456%Z; lra). assert (F2 : fx 3220000 <= 12 / 1000) by (unfold fx; change SC with 268435456%Z; lra).
  split.
  - assert (H : - tot 21 (fun i => tot 21 (fun j => x i * x j * s i j)) <= tot 21 (fun i => tot 21 (fun j => x i * x j * Rmax 0 (- s i j)))); [|lra].
    replace (- tot 21 (fun i => tot 21 (fun j => x i * x j * s i j))) with (-1 * tot 21 (fun i => tot 21 (fun j => x i * x j * s i j))) by ring. rewrite <- tot_scal. apply tot_le. intros i Hi.
    rewrite <- tot_scal. apply tot_le. intros j Hj. pose proof (X i j Hi Hj). pose proof (Rmax_r 0 (- s i j)) as M. replace (-1 * (x i * x j * s i j)) with (x i * x j * (- s i j)) by ring. now apply Rmult_le_compat_l.
  - apply Rle_trans with (tot 21 (fun i => tot 21 (fun j => x i * x j * Rmax 0 (s i j)))); [|lra]. apply tot_le. intros i Hi. apply tot_le. intros j Hj. apply Rmult_le_compat_l; [now apply X|apply Rmax_r].
Qed.
End V.
