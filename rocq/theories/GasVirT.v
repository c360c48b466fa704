(* The second virial coefficient of a natural gas between 270 K and 350 K and its slope in temperature, with its sign. *)
From Coq Require Import Reals ZArith List Bool Lra Lia Psatz.
From Verif Require Import FArith ArithR StdDetail SpecStd SpecGas SpecAcc SpecSlope SpecConv SlopeReal ConvDetail FixUp GasDetail GasVirial GasThird GasVir2.
Import ListNotations.
Local Open Scope R_scope.

(* twice the temperature exponents times the terms of the printed table, by sign; v is the root of the reduced inverse
   temperature, g and q the pair's orientation and quadrupole *)
Definition negT (v g q : R) : R := 5997166 / 1000000 * v ^ 2 + 33818596 / 100000000 * v ^ 7 + 26183184 / 10000000 * v ^ 6 + 13735552 / 1000000000 * v ^ 4
  + g * (14306175 / 1000000 * v ^ 9) + q * (5358847 / 100000000 * v + 17632636 / 100000000 * v ^ 4) + g * (3757965 / 10000000 * / v).
Definition posT (v : R) : R := 1341953 / 1000000 * v + 6306896 / 10000000 * v ^ 4 + 70529910 / 100000000 * v ^ 22.
Definition negTZ (mul : Z -> Z -> Z) (lt : lit -> Z) (v iv g q : Z) : Z :=
  let v2 := mul v v in let v4 := mul v2 v2 in let v6 := mul v2 v4 in let v7 := mul v v6 in let v9 := mul v2 v7 in
  (mul (lt (L 5997166 (-6))) v2 + mul (lt (L 33818596 (-8))) v7 + mul (lt (L 26183184 (-7))) v6 + mul (lt (L 13735552 (-9))) v4
   + mul g (mul (lt (L 14306175 (-6))) v9) + mul q (mul (lt (L 5358847 (-8))) v + mul (lt (L 17632636 (-8))) v4) + mul g (mul (lt (L 3757965 (-7))) iv))%Z.
Definition posTZ (mul : Z -> Z -> Z) (lt : lit -> Z) (v : Z) : Z :=
  let v2 := mul v v in let v4 := mul v2 v2 in let v6 := mul v2 v4 in let v7 := mul v v6 in let v11 := mul v4 v7 in
  (mul (lt (L 1341953 (-6))) v + mul (lt (L 6306896 (-7))) v4 + mul (lt (L 70529910 (-8))) (mul v11 v11))%Z.
Lemma signT_up (Q : Z -> R -> Prop) mul lt : (forall a b r s, Q a r -> Q b s -> Q (a + b)%Z (r + s)) -> (forall a b r s, Q a r -> Q b s -> Q (mul a b) (r * s)) ->
  (forall l, 0 <= Rlit l -> Q (lt l) (Rlit l)) -> forall v iv g q a b c, Q v a -> Q iv (/ a) -> Q g b -> Q q c -> Q (negTZ mul lt v iv g q) (negT a b c) /\ Q (posTZ mul lt v) (posT a).
Proof.
  intros A M Lt v iv g q a b c Hv Hi Hg Hq.
  assert (H2 : Q (mul v v) (a ^ 2)) by (replace (a ^ 2) with (a * a) by ring; now apply M).
  assert (H4 : Q (mul (mul v v) (mul v v)) (a ^ 4)) by (replace (a ^ 4) with (a ^ 2 * a ^ 2) by ring; now apply M).
  assert (H6 : Q (mul (mul v v) (mul (mul v v) (mul v v))) (a ^ 6)) by (replace (a ^ 6) with (a ^ 2 * a ^ 4) by ring; now apply M).
  unfold negTZ, posTZ. cbv zeta. set (v2 := mul v v) in *. set (v4 := mul v2 v2) in *. set (v6 := mul v2 v4) in *.
  assert (H7 : Q (mul v v6) (a ^ 7)) by (replace (a ^ 7) with (a * a ^ 6) by ring; now apply M). set (v7 := mul v v6) in *.
  assert (H9 : Q (mul v2 v7) (a ^ 9)) by (replace (a ^ 9) with (a ^ 2 * a ^ 7) by ring; now apply M).
  assert (H11 : Q (mul v4 v7) (a ^ 11)) by (replace (a ^ 11) with (a ^ 4 * a ^ 7) by ring; now apply M).
  assert (H22 : Q (mul (mul v4 v7) (mul v4 v7)) (a ^ 22)) by (replace (a ^ 22) with (a ^ 11 * a ^ 11) by ring; now apply M).
  unfold negT, posT. assert (LL : forall m p, (0 <= m)%Z -> Q (lt (L m (Zneg p))) (IZR m / IZR (10 ^ Zpos p))).
  { intros m p Hm. apply (Lt (L m (Zneg p))). cbn [Rlit]. apply div0; [now apply IZR_le|]. apply IZR_lt. now apply Z.pow_pos_nonneg. }
  set (v9 := mul v2 v7) in *. set (v11 := mul v4 v7) in *. set (v22 := mul v11 v11) in *. clearbody v9 v22. clear H11. clearbody v11. clearbody v7. clearbody v6. clearbody v4. clearbody v2.
  generalize dependent (a ^ 2). intros a2 H2. generalize dependent (a ^ 4). intros a4 H4. generalize dependent (a ^ 6). intros a6 H6. generalize dependent (a ^ 7). intros a7 H7.
  generalize dependent (/ a). intros ia Hi. generalize dependent (a ^ 9). intros a9 H9. generalize dependent (a ^ 22). intros a22 H22. split.
  - repeat apply A; repeat apply M; trivial; first [apply (LL _ 6%positive); discriminate | apply (LL _ 7%positive); discriminate | apply (LL _ 8%positive); discriminate | apply (LL _ 9%positive); discriminate | idtac].
    apply A; apply M; trivial; apply (LL _ 8%positive); discriminate.
  - repeat apply A; repeat apply M; trivial; first [apply (LL _ 6%positive); discriminate | apply (LL _ 7%positive); discriminate | apply (LL _ 8%positive); discriminate].
Qed.

(* the terms of the printed table *)
Lemma phiT_eq i j th : 0 < th -> F_ i * F_ j = 0 -> S_ i * S_ j = 0 -> W_ i * W_ j = 0 ->
  tot 18 (fun n => IZR (hu n) * (a_ n * (B_n n i j * Rpower th (u_ n)))) = posT (sqrt th) - negT (sqrt th) (pair 3 i j * (G_ i + G_ j) / 2) (Q_ i * Q_ j).
Proof.
  intros Ht HF HS HW. assert (Pp : forall n k, (n < 18)%nat -> hu n = Z.of_nat k -> Rpower th (u_ n) = sqrt th ^ k).
  { intros n k Hn E. rewrite u_half by lia. rewrite E, <- INR_IZR_INZ. now apply Rpower_half. }
  assert (Pm : Rpower th (u_ 4) = / sqrt th).
  { rewrite u_half by lia. change (IZR (hu 4) / 2) with (- (1) / 2). replace (- (1) / 2) with (- (1 / 2)) by lra. rewrite Rpower_Ropp. f_equal. replace (1 / 2) with (/ 2) by lra. now apply Rpower_sqrt. }
  set (g := pair 3 i j * (G_ i + G_ j) / 2). set (q := Q_ i * Q_ j). set (v := sqrt th) in *.
  assert (B : forall n, B_n n i j = when (g_ n) g * when (q_ n) q * when (f_ n) 0 * when (s_ n) 0 * when (w_ n) 0) by (intros n; unfold B_n; now rewrite !F_sqrt, HF, HS, HW).
  cbn [tot]. rewrite !B. rewrite Pm.
  rewrite (Pp 0%nat 0%nat), (Pp 1%nat 1%nat), (Pp 2%nat 2%nat), (Pp 3%nat 7%nat) by (first [lia | reflexivity]).
  rewrite (Pp 5%nat 9%nat), (Pp 6%nat 1%nat), (Pp 13%nat 4%nat), (Pp 14%nat 6%nat), (Pp 15%nat 4%nat), (Pp 16%nat 4%nat), (Pp 17%nat 22%nat) by (first [lia | reflexivity]).
  generalize (Rpower th (u_ 7)) (Rpower th (u_ 8)) (Rpower th (u_ 9)) (Rpower th (u_ 10)) (Rpower th (u_ 11)) (Rpower th (u_ 12)). intros p7 p8 p9 p10 p11 p12.
  unfold posT, negT. clearbody g q v. clear. generalize (v ^ 2) (v ^ 4) (v ^ 6) (v ^ 7) (v ^ 9) (v ^ 22) (/ v). intros v2 v4 v6 v7 v9 v22 iv.
  assert (W0 : forall r, when 0 r = 1) by reflexivity. assert (W1 : forall r, when 1 r = r) by (intros r; unfold when; cbn; ring).
  repeat match goal with |- context [when (?f ?n) ?r] => let y := eval vm_compute in (f n) in change (f n) with y end. rewrite !W0, !W1.
  repeat match goal with |- context [IZR (hu ?n)] => let y := eval vm_compute in (hu n) in change (hu n) with y end. repeat match goal with |- context [a_ ?n] => let y := eval vm_compute in (fst (fst (term n))) in change (a_ n) with (Rlit y) end. cbn [Rlit]. rewrite !Rmult_0_r, !Rmult_0_l.
  change (10 ^ 6)%Z with 1000000%Z. change (10 ^ 7)%Z with 10000000%Z. change (10 ^ 8)%Z with 100000000%Z. change (10 ^ 9)%Z with 1000000000%Z. cbn [pow]. lra.
Qed.

(* bounds of a pair and of its opposite when 270/T is between d and u *)
Definition pieceT (d u : lit) (i j : nat) : Z * Z * Z :=
  let vu := sqrtU (mulU (litU u) (thU i j)) in let vd := sqrtD (mulD (litD d) (thD i j)) in
  let gu := mulU (pairU 3 i j) (mulU (litU (L 5 (-1))) (compU 2 i + compU 2 j)) in
  let gd := mulD (pairD 3 i j) (mulD (litD (L 5 (-1))) (compD 2 i + compD 2 j)) in
  let qu := mulU (compU 3 i) (compU 3 j) in let qd := mulD (compD 3 i) (compD 3 j) in
  let k := powU (mulU (zn SK i) (zn SK j)) 3 in
  (mulU k (Z.max 0 (negTZ mulU litU vu (invU vd) gu qu - posTZ mulD litD vd)),
   mulU k (Z.max 0 (posTZ mulU litU vu - negTZ mulD litD vd (invD vu) gd qd)), vd).
Definition virTU (i j : nat) : Z :=
  let th := thU i j in let y := yU i j in
  let tz := pt th SC 13 in let ty := pt y SC 6 in let zr := sqU (L 6945 (-4)) (L 36 (-2)) th in let yr := sqU (L 2632 (-4)) (L 95 (-2)) y in
  mulU (powU (mulU (zn SK i) (zn SK j)) 3) (lsumU (fun r => let '(a, h, fl) := r in mulU (nU (Z.abs_nat h)) (mulU a (mulU (BU fl i j) (expU tz ty zr yr h)))) VT).
Definition bothT (i j : nat) : Z * Z :=
  if usual i j then let '(a, b, _) := pieceT c1d c1u i j in let '(a', b', _) := pieceT c2d c2u i j in (Z.max a a', Z.max b b')
  else let v := virTU i j in (v, v).
Definition rowsT : list (list (Z * Z)) := Eval vm_compute in map (fun i => map (fun j => bothT i j) (seq 0 (S i))) (seq 0 21).
Definition entryT (i j : nat) : Z * Z := nth (Nat.min i j) (nth (Nat.max i j) rowsT []) (0, 0)%Z.
Definition ckpT (d u : lit) (i j : nat) (e : Z * Z) : bool := let '(a, b, v) := pieceT d u i j in ((a <=? fst e) && (b <=? snd e) && (0 <? v))%Z.
Definition ckT (i j : nat) : bool := let e := entryT i j in
  if usual i j then ckpT c1d c1u i j e && ckpT c2d c2u i j e else let v := virTU i j in ((v <=? fst e) && (v <=? snd e))%Z.
Lemma ckT_num : forallb (fun i => forallb (fun j => ckT i j) (seq 0 (S i))) (seq 0 21) = true. Proof. vm_compute. reflexivity. Qed.
Lemma negT_num : (linU (fun i => linU (fun j => fst (entryT i j))) <=? 144600000)%Z = true. Proof. vm_compute. reflexivity. Qed.
Lemma posT_num : (linU (fun i => linU (fun j => snd (entryT i j))) <=? 1620000)%Z = true. Proof. vm_compute. reflexivity. Qed.

Section V.
Variable x : nat -> R.
Hypothesis Hx : natural_gas x.
Variable T : R.
Hypothesis HT : 270 <= T <= 350.
Let th i j : R := pair 0 i j * sqrt (E_ i * E_ j) / T.
Let s i j : R := Rpower (K_ i * K_ j) (3 / 2) * tot 18 (fun n => IZR (hu n) * (a_ n * (B_n n i j * Rpower (th i j) (u_ n)))).
Let m n i j : R := IZR (Z.abs (hu n)) * (Rabs (a_ n) * (B_n n i j * Rpower (th i j) (u_ n))).
Lemma habs h : IZR (Z.abs h) = INR (Z.abs_nat h). Proof. now rewrite INR_IZR_INZ, Zabs2Nat.id_abs. Qed.
Lemma virT_up i j : (i < 21)%nat -> (j < 21)%nat -> up (virTU i j) (Rpower (K_ i * K_ j) (3 / 2) * tot 18 (fun n => m n i j)).
Proof.
  intros Hi Hj. destruct (roots i Hi) as (_ & Ki & _ & ki & _). destruct (roots j Hj) as (_ & Kj & _ & kj & _). unfold virTU. rewrite K32 by assumption. apply up_mul.
  - apply up_pow. now apply up_mul.
  - rewrite <- lsum_seq, <- VT_ok, lsum_map. apply up_lsum. intros n Hn. apply in_seq in Hn. unfold m. rewrite habs. apply up_mul; [apply up_INR|]. apply up_mul; [apply up_a|]. apply up_mul; [apply B_up; lia|].
    apply exp_th; trivial; lia.
Qed.
Lemma pieceT_ok d u i j e : (i < 21)%nat -> (j < 21)%nat -> usual i j = true -> 0 <= Rlit d <= 270 / T -> 270 / T <= Rlit u -> ckpT d u i j e = true ->
  - s i j <= fx (fst e) /\ s i j <= fx (snd e) /\ (0 <= fst e)%Z /\ (0 <= snd e)%Z.
Proof.
  intros Hi Hj Hu Hd Hu' H. destruct (roots i Hi) as (Ei & Ki & si & ki & _). destruct (roots j Hj) as (Ej & Kj & sj & kj & _).
  destruct (th_ok T HT i j Hi Hj) as (P & _). change (0 < th i j) in P. pose proof (th_eq T HT i j Hi Hj : th i j = _) as TE.
  assert (U : up (mulU (litU u) (thU i j)) (th i j)).
  { rewrite TE. apply up_mul; [apply lit_le; lra|]. apply up_mul; [apply pairU_ok|]. now apply up_mul. }
  assert (D : dn (mulD (litD d) (thD i j)) (th i j)).
  { rewrite TE. destruct (dn_mul (litD d) (thD i j) (Rlit d) (pair 0 i j * (sqrt (E_ i / 270) * sqrt (E_ j / 270)))) as [A B].
    - apply dn_lit. lra.
    - apply dn_mul; [apply pairD_ok|]. apply dn_mul; now apply SEd_ok.
    - split; [exact A|]. apply Rle_trans with (1 := B). apply Rmult_le_compat_r; [|lra]. apply Rmult_le_pos; [left; apply pairU_ok|]. apply Rmult_le_pos; apply sqrt_pos. }
  apply up_sqrt in U. apply dn_sqrt in D. assert (PV : 0 < sqrt (th i j)) by now apply sqrt_lt_R0.
  unfold usual in Hu. rewrite !andb_true_iff in Hu. destruct Hu as ((HF & HS) & HW). apply zl_ok in HF, HS, HW.
  unfold ckpT, pieceT in H. cbv zeta in H. rewrite !andb_true_iff in H. destruct H as ((H1 & H2) & H3). apply Z.leb_le in H1, H2. apply Z.ltb_lt in H3.
  set (vu := sqrtU (mulU (litU u) (thU i j))) in *. set (vd := sqrtD (mulD (litD d) (thD i j))) in *. clearbody vu vd.
  assert (G : pair 3 i j * (G_ i + G_ j) / 2 = pair 3 i j * (Rlit (L 5 (-1)) * (G_ i + G_ j))) by (change (Rlit (L 5 (-1))) with (5 / 10); field).
  assert (GU : up (mulU (pairU 3 i j) (mulU (litU (L 5 (-1))) (compU 2 i + compU 2 j))) (pair 3 i j * (G_ i + G_ j) / 2)).
  { rewrite G. apply up_mul; [apply pairU_ok|]. apply up_mul; [apply pos_up; cbn; lra|]. apply up_add; apply up_comp. }
  assert (GD : dn (mulD (pairD 3 i j) (mulD (litD (L 5 (-1))) (compD 2 i + compD 2 j))) (pair 3 i j * (G_ i + G_ j) / 2)).
  { rewrite G. apply dn_mul; [apply pairD_ok|]. apply dn_mul; [apply dn_lit; cbn; lra|]. apply dn_add; apply dn_comp. }
  assert (QU' : up (mulU (compU 3 i) (compU 3 j)) (Q_ i * Q_ j)) by (apply up_mul; apply up_comp).
  assert (QD : dn (mulD (compD 3 i) (compD 3 j)) (Q_ i * Q_ j)) by (apply dn_mul; apply dn_comp).
  pose proof (up_inv vd _ H3 D) as IU. pose proof (dn_inv vu _ PV U) as ID.
  destruct (signT_up up mulU litU up_add up_mul pos_up _ _ _ _ _ _ _ U IU GU QU') as [NU PU].
  destruct (signT_up dn mulD litD dn_add dn_mul dn_lit _ _ _ _ _ _ _ D ID GD QD) as [ND PD].
  assert (KU : up (powU (mulU (zn SK i) (zn SK j)) 3) (Rpower (K_ i * K_ j) (3 / 2))) by (rewrite K32 by assumption; apply up_pow; now apply up_mul).
  unfold s. rewrite (phiT_eq i j (th i j) P HF HS HW).
  set (g := pair 3 i j * (G_ i + G_ j) / 2) in *. set (q := Q_ i * Q_ j) in *. set (N := negT _ g q) in *. set (O := posT _) in *. set (K := Rpower _ (3 / 2)) in *.
  assert (Sub : forall a b, fx a - fx b <= fx (Z.max 0 (a - b))).
  { intros a b. apply Rle_trans with (fx (a - b)); [|apply fx_le; lia]. right. unfold Z.sub. rewrite fx_add. unfold fx. rewrite opp_IZR. field. exact SC_n0. }
  assert (M : forall nu pd r, up nu (fst r) -> dn pd (snd r) -> up (Z.max 0 (nu - pd)) (Rmax 0 (fst r - snd r))).
  { intros nu pd r [_ A] [_ B]. split; [apply Rmax_l|]. apply Rmax_lub; [apply fx_ge0; lia|]. pose proof (Sub nu pd). lra. }
  pose proof (up_mul _ _ _ _ KU (M _ _ (N, O) NU PD)) as [A1 A2]. pose proof (up_mul _ _ _ _ KU (M _ _ (O, N) PU ND)) as [B1 B2]. cbn [fst snd] in *.
  pose proof (up_nn _ _ (conj A1 A2)) as A0. pose proof (up_nn _ _ (conj B1 B2)) as B0. pose proof (fx_le _ _ H1) as C1. pose proof (fx_le _ _ H2) as C2.
  destruct KU as [K0 _]. pose proof (Rmax_r 0 (N - O)) as R1. pose proof (Rmax_r 0 (O - N)) as R2. clearbody N O K.
  assert (K * (N - O) <= K * Rmax 0 (N - O)) by now apply Rmult_le_compat_l. assert (K * (O - N) <= K * Rmax 0 (O - N)) by now apply Rmult_le_compat_l.
  repeat split; [lra|lra|lia|lia].
Qed.
Lemma sT_sym i j : s i j = s j i.
Proof.
  unfold s. rewrite (Rmult_comm (K_ i)). f_equal. apply tot_ext. intros n _. unfold th, B_n. rewrite (pair_sym 0 i j), (pair_sym 3 i j), (Rmult_comm (E_ i)), (Rplus_comm (G_ i)), (Rmult_comm (Q_ i)), (Rmult_comm (sqrt (F_ i))), (Rmult_comm (S_ i)), (Rmult_comm (W_ i)). reflexivity.
Qed.
Lemma entryT_sym i j : entryT i j = entryT j i. Proof. unfold entryT. now rewrite Nat.min_comm, Nat.max_comm. Qed.
Lemma pairT_ok i j : (i < 21)%nat -> (j < 21)%nat -> - s i j <= fx (fst (entryT i j)) /\ s i j <= fx (snd (entryT i j)) /\ (0 <= fst (entryT i j))%Z /\ (0 <= snd (entryT i j))%Z.
Proof.
  assert (W : forall i j, (i < 21)%nat -> (j <= i)%nat -> - s i j <= fx (fst (entryT i j)) /\ s i j <= fx (snd (entryT i j)) /\ (0 <= fst (entryT i j))%Z /\ (0 <= snd (entryT i j))%Z).
  { clear i j. intros i j Hi Hj. pose proof (proj1 (forallb_forall _ _) ckT_num i ltac:(apply in_seq; lia)) as H. cbv beta in H.
    apply (proj1 (forallb_forall _ _)) with (x := j) in H; [|apply in_seq; lia]. unfold ckT in H. cbv zeta in H. destruct (usual i j) eqn:Hu.
    - apply andb_true_iff in H as [H1 H2]. assert (PT : 0 < T) by lra. destruct (Rle_lt_dec T 290) as [L1|L1].
      + apply (pieceT_ok c1d c1u); trivial; [lia| |].
        * change (Rlit c1d) with (931 / 1000). split; [lra|]. apply (Rmult_le_reg_r T); [lra|]. replace (270 / T * T) with 270 by (field; lra). lra.
        * change (Rlit c1u) with 1. apply (Rmult_le_reg_r T); [lra|]. replace (270 / T * T) with 270 by (field; lra). lra.
      + apply (pieceT_ok c2d c2u); trivial; [lia| |].
        * change (Rlit c2d) with (771428 / 1000000). split; [lra|]. apply (Rmult_le_reg_r T); [lra|]. replace (270 / T * T) with 270 by (field; lra). lra.
        * change (Rlit c2u) with (93104 / 100000). apply (Rmult_le_reg_r T); [lra|]. replace (270 / T * T) with 270 by (field; lra). lra.
    - apply andb_true_iff in H as [H1 H2]. apply Z.leb_le in H1, H2. pose proof (virT_up i j Hi ltac:(lia)) as V.
      pose proof (up_nn _ _ V) as V0. destruct V as [_ V]. apply fx_le in H1 as F1. apply fx_le in H2 as F2.
      assert (A : Rabs (s i j) <= fx (virTU i j)).
      { apply Rle_trans with (2 := V). unfold s. rewrite Rabs_mult, (Rabs_pos_eq (Rpower _ _)) by (left; apply exp_pos). apply Rmult_le_compat_l; [left; apply exp_pos|]. apply tot_abs. intros n Hn.
        unfold m. rewrite Rabs_mult, abs_IZR. apply Rmult_le_compat_l; [apply Rabs_pos|]. rewrite Rabs_mult. apply Rmult_le_compat_l; [apply Rabs_pos|]. rewrite Rabs_pos_eq; [right; reflexivity|]. apply Rmult_le_pos; [exact (proj1 (B_up n i j Hn))|left; apply exp_pos]. }
      pose proof (Rle_abs (s i j)). pose proof (Rle_abs (- s i j)) as N. rewrite Rabs_Ropp in N. repeat split; [lra|lra|lia|lia]. }
  intros Hi Hj. destruct (Nat.le_ge_cases j i) as [G|G]; [now apply W|]. rewrite sT_sym, entryT_sym. now apply W.
Qed.
(* twice the slope of the second virial coefficient in the logarithm of the temperature, opposite sign *)
Definition slopeT : R := tot 18 (fun n => IZR (hu n) * virial_n x T n).
Lemma slopeT_eq : slopeT = tot 21 (fun i => tot 21 (fun j => x i * x j * s i j)).
Proof.
  unfold slopeT. transitivity (tot 18 (fun n => tot 21 (fun i => tot 21 (fun j => x i * x j * (Rpower (K_ i * K_ j) (3 / 2) * (IZR (hu n) * (a_ n * (B_n n i j * Rpower (th i j) (u_ n))))))))).
  - apply tot_ext. intros n Hn. unfold virial_n. rewrite <- !tot_scal. apply tot_ext. intros i Hi. rewrite <- !tot_scal. apply tot_ext. intros j Hj.
    assert (E : Rpower (th i j) (u_ n) = Rpower T (- u_ n) * Rpower (pair 0 i j * sqrt (E_ i * E_ j)) (u_ n)).
    { replace (th i j) with (pair 0 i j * sqrt (E_ i * E_ j) * / T) by reflexivity. destruct (roots i Hi) as (Ei & _). destruct (roots j Hj) as (Ej & _). destruct (pairU_ok 0 i j) as [_ pp].
      rewrite <- Rpower_mult_distr; [| apply Rmult_lt_0_compat; [exact pp|apply sqrt_lt_R0; now apply Rmult_lt_0_compat] | apply Rinv_0_lt_compat; lra].
      rewrite Rmult_comm. f_equal. unfold Rpower. rewrite ln_Rinv by lra. f_equal. ring. }
    rewrite E. ring.
  - rewrite tot_swap. apply tot_ext. intros i Hi. rewrite tot_swap. apply tot_ext. intros j Hj. unfold s. rewrite <- !tot_scal. apply tot_ext. intros n _. ring.
Qed.
Lemma slopeT_bounds : - (5387 / 10000) <= slopeT <= 604 / 100000.
Proof.
  rewrite slopeT_eq.
  assert (X : forall i j, (i < 21)%nat -> (j < 21)%nat -> 0 <= x i * x j) by (intros; apply Rmult_le_pos; now apply (x_ge0 x Hx)).
  pose proof (up_rows x Hx (fun i j => fst (entryT i j)) (fun i j => Rmax 0 (- s i j))) as N. pose proof (up_rows x Hx (fun i j => snd (entryT i j)) (fun i j => Rmax 0 (s i j))) as P. cbv beta in N, P.
  destruct N as [_ N]. { intros i j Hi Hj. destruct (pairT_ok i j Hi Hj) as (A & B & C & D). split; [apply Rmax_l|]. apply Rmax_lub; [now apply fx_ge0|exact A]. }
  destruct P as [_ P]. { intros i j Hi Hj. destruct (pairT_ok i j Hi Hj) as (A & B & C & D). split; [apply Rmax_l|]. apply Rmax_lub; [now apply fx_ge0|exact B]. }
  pose proof (leU _ _ negT_num) as N2. pose proof (leU _ _ posT_num) as P2.
  assert (F1 : fx 144600000 <= 5387 / 10000) by (unfold fx; change SC with 268435456%Z; lra). assert (F2 : fx 1620000 <= 604 / 100000) by (unfold fx; change SC with 268435456%Z; lra).
  split.
  - assert (H : - tot 21 (fun i => tot 21 (fun j => x i * x j * s i j)) <= tot 21 (fun i => tot 21 (fun j => x i * x j * Rmax 0 (- s i j)))); [|lra].
    replace (- tot 21 (fun i => tot 21 (fun j => x i * x j * s i j))) with (-1 * tot 21 (fun i => tot 21 (fun j => x i * x j * s i j))) by ring. rewrite <- tot_scal. apply tot_le. intros i Hi.
    rewrite <- tot_scal. apply tot_le. intros j Hj. pose proof (X i j Hi Hj). pose proof (Rmax_r 0 (- s i j)) as M. replace (-1 * (x i * x j * s i j)) with (x i * x j * (- s i j)) by ring. now apply Rmult_le_compat_l.
  - apply Rle_trans with (tot 21 (fun i => tot 21 (fun j => x i * x j * Rmax 0 (s i j)))); [|lra]. apply tot_le. intros i Hi. apply tot_le. intros j Hj. apply Rmult_le_compat_l; [now apply X|apply Rmax_r].
Qed.
End V.
