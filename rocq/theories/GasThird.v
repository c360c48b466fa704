(* The other terms of the DETAIL equation for a natural gas; spread and slope at low density. *)
From Coq Require Import Reals ZArith List Bool Lra Lia Psatz.
From Verif Require Import FArith ArithR StdDetail SpecStd SpecGas SpecAcc SpecSlope SpecConv SlopeReal ConvDetail FixUp GasDetail GasVirial.
Import ListNotations.
Local Open Scope R_scope.

Definition form5U (c : nat) (s : list Z) : Z := linU (fun i => linU (fun j => powU (mulU (pairU c i j) (mulU (zn s i) (zn s j))) 5)).
Definition pdl (l : lit) : lit := let '(L m e) := l in match e with Zneg p => L (m - 10 ^ Zpos p) e | _ => L (m * 10 ^ e - 1) 0 end.
Definition pdU (c i j : nat) : Z :=
  match find (fun r => Nat.eqb (fst (fst r)) (Nat.min i j) && Nat.eqb (snd (fst r)) (Nat.max i j))%bool PAIRS with
  | Some r => litU (pdl (nth c (snd r) (L 1 0))) | None => 0%Z end.
Definition GU : Z := (linU (compU 2) + totU 21 (fun j => totU j (fun i => mulU (mulU (limU i) (limU j)) (mulU (pdU 3 i j) (compU 2 i + compU 2 j)))))%Z.
Definition QU : Z := powU (linU (compU 3)) 2.
Definition HU : Z := totU 21 (fun i => mulU (powU (limU i) 2) (compU 4 i)).

(* constants: the size parameter, the energy parameter over 270 K, orientation, quadrupole squared, high temperature *)
Definition kq : lit := L 4847 (-4). Definition zq : lit := L 7927 (-4). Definition yq : lit := L 32 (-1).
Definition gq : lit := L 1183 (-4). Definition qq : lit := L 432 (-4). Definition fq : lit := L 10001 (-6).
Definition tzC : list Z := Eval vm_compute in pt (litU zq) SC 23.
Definition tyC : list Z := Eval vm_compute in pt (litU yq) SC 13.
Definition zrC : Z := litU (L 8904 (-4)). Definition yrC : Z := litU (L 17889 (-4)).
Definition CT : list (Z * nat * nat) := Eval vm_compute in map (fun n =>
  (mulU (aU n) (whenU (f_ n) (litU fq) (whenU (q_ n) (litU qq) (whenU (g_ n) (litU gq) (expU tzC tyC zrC yrC (hu n))))), b_ n, k_ n)) (seq 12 46).
Definition Dq : Z := Eval vm_compute in mulU (powU (litU kq) 3) (litU (L 196 (-3))).
Definition nU (n : nat) : Z := (Z.of_nat n * SC)%Z.
Definition wtU (b k : nat) : Z := let t := powU Dq k in (powU (nU b + mulU (nU k) t) 2 + mulU (powU (nU k) 2) t)%Z.
Definition spreadU : Z := (mulU (litU (L 196 (-3))) (litU (L 4384 (-4))) + mulU Dq (lsumU (fun r => fst (fst r)) (firstn 6 CT))
  + lsumU (fun r => let '(c, b, k) := r in mulU (mulU c (wtU b k)) (powU Dq b)) CT)%Z.
Definition topU : Z := (SC + mulU (nU 2) (mulU (litU (L 196 (-3))) (litU (L 4384 (-4)))) + mulU (nU 2) (mulU Dq (lsumU (fun r => fst (fst r)) (firstn 6 CT)))
  + lsumU (fun r => let '(c, b, k) := r in mulU (mulU c (nU ((b + k) * (b + k + 3) + k * k))) (powU Dq b)) CT)%Z.

Lemma leU a b : (a <=? b)%Z = true -> fx a <= fx b. Proof. intros H. apply fx_le. now apply Z.leb_le. Qed.
Lemma K5_num : (form5U 2 SK <=? 7181331)%Z = true. Proof. vm_compute. reflexivity. Qed.
Lemma U5_num : (form5U 1 SE <=? 84020288)%Z = true. Proof. vm_compute. reflexivity. Qed.
Lemma G_num : (GU <=? 31755900)%Z = true. Proof. vm_compute. reflexivity. Qed.
Lemma Q_num : (QU <=? 11596000)%Z = true. Proof. vm_compute. reflexivity. Qed.
Lemma H_num : (HU <=? 2684600)%Z = true. Proof. vm_compute. reflexivity. Qed.
Lemma tz_num : tzC = pt (litU zq) SC 23. Proof. vm_compute. reflexivity. Qed.
Lemma ty_num : tyC = pt (litU yq) SC 13. Proof. vm_compute. reflexivity. Qed.
Lemma Dq_num : Dq = mulU (powU (litU kq) 3) (litU (L 196 (-3))). Proof. vm_compute. reflexivity. Qed.
Lemma CT_num : CT = map (fun n => (mulU (aU n) (whenU (f_ n) (litU fq) (whenU (q_ n) (litU qq) (whenU (g_ n) (litU gq) (expU tzC tyC zrC yrC (hu n))))), b_ n, k_ n)) (seq 12 46).
Proof. vm_compute. reflexivity. Qed.
Lemma spread_num : (spreadU <=? 27195000)%Z = true. Proof. vm_compute. reflexivity. Qed.
Lemma top_num : (topU <=? 364000000)%Z = true. Proof. vm_compute. reflexivity. Qed.

Lemma pos_up l : (0 <= Rlit l) -> up (litU l) (Rlit l). Proof. intros H. rewrite <- (Rabs_pos_eq (Rlit l)) by exact H. apply up_lit. Qed.
Lemma up_INR n : up (nU n) (INR n).
Proof. unfold up, fx, nU. rewrite mult_IZR, <- INR_IZR_INZ. split; [apply pos_INR|]. right. field. exact SC_n0. Qed.
Lemma pdl_ok l : Rlit (pdl l) = Rlit l - 1.
Proof.
  destruct l as [m [|p|p]]; cbn [pdl Rlit].
  - rewrite Z.pow_0_r, Z.mul_1_r, minus_IZR. reflexivity.
  - rewrite minus_IZR. reflexivity.
  - rewrite minus_IZR. field. apply IZR_neq. pose proof (Z.pow_pos_nonneg 10 (Zpos p)). lia.
Qed.
Lemma pd_up c i j : up (pdU c i j) (Rabs (pair c i j - 1)).
Proof.
  unfold pdU, pair. destruct (find _ PAIRS) as [r|].
  - rewrite <- pdl_ok. apply up_lit.
  - replace (1 - 1) with 0 by ring. rewrite Rabs_R0. exact up_0.
Qed.
(* the mixing rule for the size and energy parameters *)
Lemma form5 x v c : (forall i, (i < 21)%nat -> 0 < v i) ->
  (tot 21 (fun i => x i * Rpower (v i) (5/2))) ^ 2 + 2 * tot 21 (fun j => tot j (fun i => x i * x j * (pair c i j ^ 5 - 1) * Rpower (v i * v j) (5/2)))
  = tot 21 (fun i => tot 21 (fun j => x i * x j * (pair c i j * (sqrt (v i) * sqrt (v j))) ^ 5)).
Proof.
  intros V. assert (H : forall i, (i < 21)%nat -> Rpower (v i) (5/2) = sqrt (v i) ^ 5) by (intros i Hi; replace (5/2) with (INR 5 / 2) by (cbn; lra); apply Rpower_half; auto).
  rewrite (tot_ext 21 (fun i => x i * Rpower (v i) (5/2)) (fun i => x i * sqrt (v i) ^ 5)) by (intros i Hi; now rewrite H).
  rewrite (tot_ext 21 (fun j => tot j (fun i => x i * x j * (pair c i j ^ 5 - 1) * Rpower (v i * v j) (5/2))) (fun j => tot j (fun i => (x i * sqrt (v i) ^ 5) * (x j * sqrt (v j) ^ 5) * (pair c i j ^ 5 - 1)))).
  - rewrite (form_one 21 (fun i => x i * sqrt (v i) ^ 5) (fun i j => pair c i j ^ 5)).
    + apply tot_ext. intros i _. apply tot_ext. intros j _. rewrite !Rpow_mult_distr. ring.
    + intros i j. now rewrite pair_sym.
    + intros i. rewrite pair_diag. ring.
  - intros j Hj. apply tot_ext. intros i Hi. rewrite <- Rpower_mult_distr by (apply V; lia). rewrite !H by lia. ring.
Qed.
Lemma root5 a b : 0 < a -> 0 < b -> a <= b ^ 5 -> Rpower a (1 / 5) <= b.
Proof.
  intros A B H. apply Rle_trans with (Rpower (b ^ 5) (1 / 5)); [apply Rle_Rpower_l; lra|]. rewrite <- (Rpower_pow 5 b B), Rpower_mult.
  replace (INR 5 * (1 / 5)) with 1 by (cbn; lra). right. now apply Rpower_1.
Qed.
Lemma root5' a b : 0 < a -> 0 < b -> b ^ 5 <= a -> b <= Rpower a (1 / 5).
Proof.
  intros A B H. apply Rle_trans with (Rpower (b ^ 5) (1 / 5)); [|apply Rle_Rpower_l; [lra|split; [now apply pow_lt|lra]]]. rewrite <- (Rpower_pow 5 b B), Rpower_mult.
  replace (INR 5 * (1 / 5)) with 1 by (cbn; lra). right. symmetry. now apply Rpower_1.
Qed.

Section W.
Variable x : nat -> R.
Hypothesis Hx : natural_gas x.
Lemma form_pos v c : (forall i, (i < 21)%nat -> 0 < v i) ->
  (45 / 100) ^ 2 * v 0%nat ^ 5 <= tot 21 (fun i => tot 21 (fun j => x i * x j * (pair c i j * (sqrt (v i) * sqrt (v j))) ^ 5)).
Proof.
  intros V. assert (N : forall i j, (i < 21)%nat -> (j < 21)%nat -> 0 <= x i * x j * (pair c i j * (sqrt (v i) * sqrt (v j))) ^ 5).
  { intros i j Hi Hj. apply Rmult_le_pos; [apply Rmult_le_pos; now apply (x_ge0 x Hx)|]. apply pow_le. apply Rmult_le_pos; [left; apply pairU_ok|apply Rmult_le_pos; apply sqrt_pos]. }
  rewrite (tot_first 20). assert (H1 : 0 <= tot 20 (fun i => tot 21 (fun j => x (S i) * x j * (pair c (S i) j * (sqrt (v (S i)) * sqrt (v j))) ^ 5))).
  { apply tot_ge0. intros i Hi. apply tot_ge0. intros j Hj. apply N; lia. }
  rewrite (tot_first 20 (fun j => x 0%nat * x j * _)). assert (H2 : 0 <= tot 20 (fun i => x 0%nat * x (S i) * (pair c 0 (S i) * (sqrt (v 0%nat) * sqrt (v (S i)))) ^ 5)) by (apply tot_ge0; intros j Hj; apply N; lia).
  rewrite pair_diag, Rmult_1_l, sqrt_sqrt by (left; apply V; lia). destruct Hx as (X0 & _). assert (0 < v 0%nat ^ 5) by (apply pow_lt; apply V; lia).
  assert ((45 / 100) ^ 2 <= x 0%nat * x 0%nat) by nra. assert ((45 / 100) ^ 2 * v 0%nat ^ 5 <= x 0%nat * x 0%nat * v 0%nat ^ 5) by (apply Rmult_le_compat_r; lra). lra.
Qed.
Lemma form5_up c s v : (forall i, (i < 21)%nat -> up (zn s i) (v i)) -> up (form5U c s) (tot 21 (fun i => tot 21 (fun j => x i * x j * (pair c i j * (v i * v j)) ^ 5))).
Proof. intros V. unfold form5U. apply (up_rows x Hx). intros i j Hi Hj. apply up_pow. apply up_mul; [apply pairU_ok|]. apply up_mul; now apply V. Qed.
Lemma K5_le : 0 < sizeK5 x <= (4847 / 10000) ^ 5.
Proof.
  unfold sizeK5. rewrite form5 by (intros; now apply roots). split.
  - apply Rlt_le_trans with (2 := form_pos K_ 2 ltac:(intros; now apply roots)). apply Rmult_lt_0_compat; [lra|]. apply pow_lt. apply roots. lia.
  - destruct (form5_up 2 SK (fun i => sqrt (K_ i))) as [_ H].
    + intros i Hi. now apply roots.
    + apply Rle_trans with (1 := H). apply Rle_trans with (1 := leU _ _ K5_num). unfold fx. change SC with 268435456%Z. lra.
Qed.
Lemma kap_le : Rpower (sizeK5 x) (1 / 5) <= 4847 / 10000.
Proof. apply root5; [apply K5_le|lra|apply K5_le]. Qed.
Lemma U5_le : (1095 / 10) ^ 5 <= energyU5 x <= (7927 / 10000 * 270) ^ 5.
Proof.
  unfold energyU5. rewrite form5 by (intros; now apply roots). split.
  - apply Rle_trans with (2 := form_pos E_ 1 ltac:(intros; now apply roots)). unfold E_, comp. cbn [nth COMPONENTS Rlit]. change (10 ^ 4)%Z with 10000%Z. lra.
  - assert (E : tot 21 (fun i => tot 21 (fun j => x i * x j * (pair 1 i j * (sqrt (E_ i) * sqrt (E_ j))) ^ 5)) = 270 ^ 5 * tot 21 (fun i => tot 21 (fun j => x i * x j * (pair 1 i j * (sqrt (E_ i / 270) * sqrt (E_ j / 270))) ^ 5))).
    { rewrite <- tot_scal. apply tot_ext. intros i Hi. rewrite <- tot_scal. apply tot_ext. intros j Hj. destruct (roots i Hi) as (Ei & _). destruct (roots j Hj) as (Ej & _).
      assert (R : forall w, 0 < w -> sqrt w = sqrt 270 * sqrt (w / 270)) by (intros w W; rewrite <- sqrt_mult by (try apply div0; lra); f_equal; field).
      rewrite (R (E_ i) Ei), (R (E_ j) Ej). replace (sqrt 270 * sqrt (E_ i / 270) * (sqrt 270 * sqrt (E_ j / 270))) with (270 * (sqrt (E_ i / 270) * sqrt (E_ j / 270))) by (rewrite <- (sqrt_sqrt 270) at 1 by lra; ring). ring. }
    rewrite E. rewrite Rpow_mult_distr, Rmult_comm. apply Rmult_le_compat_r; [apply pow_le; lra|].
    destruct (form5_up 1 SE (fun i => sqrt (E_ i / 270))) as [_ H].
    + intros i Hi. now apply roots.
    + apply Rle_trans with (1 := H). apply Rle_trans with (1 := leU _ _ U5_num). unfold fx. change SC with 268435456%Z. lra.
Qed.
Lemma U_le : 1095 / 10 <= Rpower (energyU5 x) (1 / 5) <= 7927 / 10000 * 270.
Proof.
  destruct U5_le as [A B]. assert (0 < energyU5 x) by lra. split; [apply root5'|apply root5]; trivial; lra.
Qed.
Lemma orient_le : Rabs (orient x) <= 1183 / 10000.
Proof.
  unfold orient. apply Rle_trans with (fx GU).
  - apply Rle_trans with (tot 21 (fun i => x i * G_ i) + tot 21 (fun j => tot j (fun i => x i * x j * (Rabs (pair 3 i j - 1) * (G_ i + G_ j))))).
    + apply Rle_trans with (1 := Rabs_triang _ _). apply Rplus_le_compat.
      * rewrite Rabs_pos_eq; [lra|]. apply tot_ge0. intros i Hi. apply Rmult_le_pos; [now apply (x_ge0 x Hx)|apply comp_ge0].
      * apply tot_abs. intros j Hj. apply tot_abs. intros i Hi. rewrite !Rabs_mult, (Rabs_pos_eq (x i)), (Rabs_pos_eq (x j)), (Rabs_pos_eq (G_ i + G_ j)); [right; ring|apply Rplus_le_le_0_compat; apply comp_ge0|apply (x_ge0 x Hx); lia|apply (x_ge0 x Hx); lia].
    + refine (proj2 (up_add _ _ _ _ (up_lin x Hx (compU 2) G_ (fun i _ => up_comp 2 i)) (up_tot 21 _ _ _))). intros j Hj. apply up_tot. intros i Hi.
      apply up_mul; [apply up_mul; apply (x_lim x Hx); lia|]. apply up_mul; [apply pd_up|]. apply up_add; apply up_comp.
  - apply Rle_trans with (1 := leU _ _ G_num). unfold fx. change SC with 268435456%Z. lra.
Qed.
Lemma quad_le : quad x ^ 2 <= 432 / 10000.
Proof.
  apply Rle_trans with (fx QU); [|apply Rle_trans with (1 := leU _ _ Q_num); unfold fx; change SC with 268435456%Z; lra].
  exact (proj2 (up_pow _ _ 2 (up_lin x Hx (compU 3) Q_ (fun i _ => up_comp 3 i)))).
Qed.
Lemma high_le : 0 <= high x <= 10001 / 1000000.
Proof.
  assert (U : up HU (high x)).
  { unfold HU, high. apply up_tot. intros i Hi. apply up_mul; [apply up_pow; now apply (x_lim x Hx)|apply up_comp]. }
  split; [apply U|]. apply Rle_trans with (1 := proj2 U). apply Rle_trans with (1 := leU _ _ H_num). unfold fx. change SC with 268435456%Z. lra.
Qed.
Lemma when_abs g v : (g <= 1)%nat -> Rabs (when g v) = when g (Rabs v).
Proof. intros Hg. destruct g as [|[|g]]; [| |lia]; unfold when; cbn [pow INR]; [apply Rabs_R1|]. replace (v + 1 - 1) with v by ring. replace (Rabs v + 1 - 1) with (Rabs v) by ring. now rewrite !Rmult_1_r. Qed.

Variable T : R.
Hypothesis HT : 270 <= T <= 350.
Definition cT n := Rabs (C_n x n) * Rpower T (- u_ n).
Lemma lit_le l r : 0 <= r -> r <= Rlit l -> up (litU l) r.
Proof. intros A B. apply (up_le (litU l) _ (Rabs (Rlit l)) _ (up_lit l)); [|apply Z.le_refl]. rewrite Rabs_pos_eq; lra. Qed.
Lemma C_up n : (n < 58)%nat -> up (mulU (aU n) (whenU (f_ n) (litU fq) (whenU (q_ n) (litU qq) (whenU (g_ n) (litU gq) (expU tzC tyC zrC yrC (hu n)))))) (cT n).
Proof.
  intros Hn. destruct (flags n Hn) as (G & Q & F & _). unfold cT, C_n. pose proof U_le as UL. set (U := Rpower (energyU5 x) (1 / 5)) in *. assert (0 < U) as PU by lra.
  assert (E : Rabs (a_ n * when (g_ n) (orient x) * when (q_ n) (quad x ^ 2) * when (f_ n) (high x) * Rpower U (u_ n)) * Rpower T (- u_ n)
    = Rabs (a_ n) * (Rpower (U / T) (u_ n) * when (g_ n) (Rabs (orient x)) * when (q_ n) (quad x ^ 2) * when (f_ n) (high x))).
  { rewrite !Rabs_mult, !when_abs by assumption. rewrite (Rabs_pos_eq (quad x ^ 2)) by apply pow2_ge_0. rewrite (Rabs_pos_eq (high x)) by apply high_le. rewrite (Rabs_pos_eq (Rpower U _)) by (left; apply exp_pos).
    unfold Rdiv. rewrite <- Rpower_mult_distr; [|exact PU|apply Rinv_0_lt_compat; lra]. replace (Rpower (/ T) (u_ n)) with (Rpower T (- u_ n)); [ring|]. unfold Rpower. rewrite ln_Rinv by lra. f_equal. ring. }
  rewrite E. apply up_mul; [apply up_a|].
  assert (iT : 0 < / T) by (apply Rinv_0_lt_compat; lra). assert (Z1 : U / T <= 7927 / 10000) by (apply (Rmult_le_reg_r T); [lra|]; unfold Rdiv; rewrite Rmult_assoc, Rinv_l by lra; nra).
  assert (Z2 : / (U / T) <= 32 / 10) by (replace (/ (U / T)) with (T * / U) by (field; lra); apply (Rmult_le_reg_r U); [lra|]; rewrite Rmult_assoc, Rinv_l by lra; lra).
  assert (0 < U / T) as Z0 by (apply Rdiv_lt_0_compat; lra). assert (0 < / (U / T)) as Z3 by now apply Rinv_0_lt_compat.
  apply up_when; [exact F|apply lit_le; [apply high_le|apply high_le]|]. apply up_when; [exact Q|apply lit_le; [apply pow2_ge_0|apply quad_le]|].
  apply up_when; [exact G|apply lit_le; [apply Rabs_pos|apply orient_le]|].
  rewrite (u_half n Hn), tz_num, ty_num. apply up_exp; [exact Z0|apply lit_le; [lra|exact Z1]| |apply lit_le; [lra|exact Z2]| |pose proof (hu_range n Hn); lia].
  - apply lit_le; [apply sqrt_pos|]. apply Rle_trans with (sqrt ((8904 / 10000) * (8904 / 10000))); [apply sqrt_le_1_alt; lra|]. rewrite sqrt_square by lra. cbn; lra.
  - apply lit_le; [apply sqrt_pos|]. apply Rle_trans with (sqrt ((17889 / 10000) * (17889 / 10000))); [apply sqrt_le_1_alt; lra|]. rewrite sqrt_square by lra. cbn; lra.
Qed.
Variable d : R.
Hypothesis Hd : 0 < d <= 196 / 1000.
Lemma D_up : up Dq (detail_D x d).
Proof.
  rewrite Dq_num. unfold detail_D. pose proof kap_le as KL. apply up_mul; [apply up_pow|]; apply lit_le; [left; apply exp_pos|exact KL|lra|cbn; lra].
Qed.
Lemma D_le : detail_D x d <= 1 / 40.
Proof. apply Rle_trans with (1 := proj2 D_up). unfold fx. change SC with 268435456%Z. unfold Dq. lra. Qed.
Lemma lsum_map {U V} (f : V -> Z) (g : U -> V) l : lsumU f (map g l) = lsumU (fun u => f (g u)) l.
Proof. induction l as [|a l IH]; [reflexivity|]. cbn [lsumU map fold_right] in *. f_equal. exact IH. Qed.
Lemma lsum_from f n k : lsum f (seq k n) = tot n (fun m => f (k + m)%nat).
Proof.
  revert k. induction n as [|n IH]; intros k; [reflexivity|]. cbn [seq]. change (lsum f (k :: seq (S k) n)) with (f k + lsum f (seq (S k) n)). rewrite IH, tot_first, Nat.add_0_r. f_equal.
  apply tot_ext. intros i _. f_equal. lia.
Qed.
Lemma six_up : up (lsumU (fun r => fst (fst r)) (firstn 6 CT)) (tot 6 (fun m => cT (12 + m))).
Proof. rewrite CT_num, firstn_map. change (firstn 6 (seq 12 46)) with (seq 12 6). rewrite lsum_map, <- lsum_from. apply up_lsum. intros n Hn. apply in_seq in Hn. cbn [fst]. apply C_up. lia. Qed.
Lemma all_up w v : (forall n, (n < 58)%nat -> up (w (b_ n) (k_ n)) (v n)) -> up (lsumU (fun r => let '(c, b, k) := r in mulU (mulU c (w b k)) (powU Dq b)) CT) (tot 46 (fun m => cT (12 + m) * v (12 + m)%nat * detail_D x d ^ b_ (12 + m))).
Proof.
  intros H. rewrite CT_num, lsum_map, <- (lsum_from (fun n => cT n * v n * detail_D x d ^ b_ n)). apply up_lsum. intros n Hn. apply in_seq in Hn. apply up_mul; [apply up_mul|].
  - apply C_up. lia.
  - apply H. lia.
  - apply up_pow. exact D_up.
Qed.
Lemma d_up : up (litU (L 196 (-3))) d. Proof. apply lit_le; [lra|cbn; lra]. Qed.
Lemma v_up r : 0 <= r <= tot 18 (fun n => Rabs (virial_n x T n)) -> up (litU (L 4384 (-4))) r.
Proof. intros H. pose proof (vir_bound x T Hx HT). apply lit_le; [lra|cbn; lra]. Qed.
Lemma spread_le : spread x T d <= 1 / 7.
Proof.
  apply Rle_trans with (fx spreadU); [|apply Rle_trans with (1 := leU _ _ spread_num); unfold fx; change SC with 268435456%Z; lra].
  unfold spread, spreadU. rewrite !fx_add. repeat apply Rplus_le_compat.
  - apply (up_mul _ _ _ _ d_up). apply v_up. split; [apply Rabs_pos|]. rewrite second_v. apply tot_abs. intros; lra.
  - apply Rle_trans with (detail_D x d * tot 6 (fun m => cT (12 + m))).
    + apply Rmult_le_compat_l; [apply D_up|]. apply tot_abs. intros m _. unfold cT. rewrite Rabs_mult, (Rabs_pos_eq (Rpower T _)) by (left; apply exp_pos). lra.
    + exact (proj2 (up_mul _ _ _ _ D_up six_up)).
  - refine (proj2 (all_up wtU (fun n => (INR (b_ n) + INR (k_ n) * detail_D x d ^ k_ n) ^ 2 + INR (k_ n) ^ 2 * detail_D x d ^ k_ n) _)).
    intros n _. unfold wtU. apply up_add; [apply up_pow; apply up_add; [apply up_INR|apply up_mul; [apply up_INR|]]|apply up_mul; [apply up_pow; apply up_INR|]]; apply up_pow; exact D_up.
Qed.
Lemma top_le : slope_top x T d <= 8.
Proof.
  apply Rle_trans with (fx topU); [|apply Rle_trans with (1 := leU _ _ top_num); unfold fx; change SC with 268435456%Z; lra].
  unfold slope_top, topU. rewrite !fx_add. repeat apply Rplus_le_compat.
  - rewrite fx_1. lra.
  - change 2 with (INR 2) at 1. apply (up_mul _ _ _ _ (up_INR 2)). apply (up_mul _ _ _ _ d_up). apply v_up. split; [apply tot_ge0; intros; apply Rabs_pos|lra].
  - change 2 with (INR 2) at 1. exact (proj2 (up_mul _ _ _ _ (up_INR 2) (up_mul _ _ _ _ D_up six_up))).
  - refine (proj2 (all_up (fun b k => nU ((b + k) * (b + k + 3) + k * k)) (fun n => (INR (b_ n) + INR (k_ n)) * (INR (b_ n) + INR (k_ n) + 3) + INR (k_ n) * INR (k_ n)) _)).
    intros n _. replace ((INR (b_ n) + INR (k_ n)) * (INR (b_ n) + INR (k_ n) + 3) + INR (k_ n) * INR (k_ n)) with (INR ((b_ n + k_ n) * (b_ n + k_ n + 3) + k_ n * k_ n)) by (rewrite plus_INR, !mult_INR, !plus_INR; cbn [INR]; ring). apply up_INR.
Qed.
End W.
