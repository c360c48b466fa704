(* The reducing temperature of GERG-2008 for a natural gas: a lower bound. *)
From Coq Require Import Reals ZArith List Bool Lra Lia Psatz.
From Coquelicot Require Rcomplements.
From Verif Require Import FArith ArithR StdDetail StdGerg SpecStd SpecGas SlopeReal ConvDetail FixUp GasDetail GasVirial GasThird GasVir2 GasRed GasRed2.
Import ListNotations.
Local Open Scope R_scope.

(* sums over a natural gas, from below *)
Definition linD (s : nat -> Z) : Z := let s0 := s 0%nat in
  (mulD (litD (L 99 (-2))) s0 - totU 20 (fun j => mulU (limU (S j)) (Z.max 0 (s0 - s (S j)))))%Z.
Lemma fx_sub a b : fx (a - b) = fx a - fx b. Proof. unfold Z.sub. rewrite fx_add. unfold fx. rewrite opp_IZR. field. exact SC_n0. Qed.
Lemma dn_lin x q s : natural_gas x -> (forall i, (i < 21)%nat -> dn (q i) (s i)) -> fx (linD q) <= tot 21 (fun i => x i * s i).
Proof.
  intros Hx H. set (s' i := Rmax 0 (fx (q 0%nat) - fx (q i))). assert (H0 := H 0%nat ltac:(lia)).
  apply Rle_trans with (tot 21 (fun i => x i * fx (q 0%nat) + - (1) * (x i * s' i))).
  - rewrite tot_plus, tot_scal, (tot_first 20 (fun i => x i * s' i)). assert (E : s' 0%nat = 0) by (unfold s'; rewrite Rminus_diag_eq, Rmax_left; lra). rewrite E, Rmult_0_r.
    unfold linD. rewrite fx_sub. rewrite (tot_ext 21 _ (fun i => fx (q 0%nat) * x i)) by (intros; ring). rewrite tot_scal.
    assert (A : fx (mulD (litD (L 99 (-2))) (q 0%nat)) <= fx (q 0%nat) * tot 21 x).
    { assert (Q0 : dn (q 0%nat) (fx (q 0%nat))) by (split; [apply H0|lra]). assert (P : 0 <= Rlit (L 99 (-2))) by (cbn; lra).
      destruct (dn_mul _ _ _ _ (dn_lit (L 99 (-2)) P) Q0) as [_ B]. apply Rle_trans with (1 := B). change (Rlit (L 99 (-2))) with (99 / 100). destruct Hx as (_ & _ & Ht).
      rewrite Rmult_comm. apply Rmult_le_compat_l; [apply fx_ge0, H0|lra]. }
    assert (B : tot 20 (fun i => x (S i) * s' (S i)) <= fx (totU 20 (fun j => mulU (limU (S j)) (Z.max 0 (q 0%nat - q (S j)))))).
    { apply (up_tot 20 (fun j => mulU (limU (S j)) (Z.max 0 (q 0%nat - q (S j)))) (fun i => x (S i) * s' (S i))). intros i Hi. apply up_mul; [apply (x_lim x Hx); lia|].
      unfold s'. split; [apply Rmax_l|]. apply Rmax_lub; [rewrite <- fx_0; apply fx_le; lia|]. rewrite <- fx_sub. apply fx_le. lia. }
    lra.
  - apply tot_le. intros i Hi. replace (x i * fx (q 0%nat) + - (1) * (x i * s' i)) with (x i * (fx (q 0%nat) - s' i)) by ring. apply Rmult_le_compat_l; [now apply (x_ge0 x Hx)|]. destruct (H i Hi). unfold s'.
    pose proof (Rmax_r 0 (fx (q 0%nat) - fx (q i))). lra.
Qed.
Lemma dn_lin' x q s : natural_gas x -> (forall i, (i < 21)%nat -> dn (q i) (s i)) -> (0 <=? linD q)%Z = true -> dn (linD q) (tot 21 (fun i => x i * s i)).
Proof. intros Hx H K. apply Z.leb_le in K. split; [exact K|now apply dn_lin]. Qed.

(* gamma min(beta, 1/beta) of a pair *)
Definition mnD (c i j : nat) : Z := if Nat.eqb i j then SC else
  match rfind (S (Nat.min i j)) (S (Nat.max i j)) with Some r => mulD (litD (nth (S c) (snd r) (L 0 0))) (Z.min (litD (nth c (snd r) (L 0 0))) (invD (litU (nth c (snd r) (L 0 0))))) | None => 0%Z end.
Definition mn (c i j : nat) : R := if Nat.eqb i j then 1 else
  red (S c) (S (Nat.min i j)) (S (Nat.max i j)) * Rmin (red c (S (Nat.min i j)) (S (Nat.max i j))) (/ red c (S (Nat.min i j)) (S (Nat.max i j))).
Lemma mn_sym c i j : mn c i j = mn c j i. Proof. unfold mn. now rewrite Nat.min_comm, Nat.max_comm, Nat.eqb_sym. Qed.
Lemma mn_diag c i : mn c i i = 1. Proof. unfold mn. now rewrite Nat.eqb_refl. Qed.
Lemma dn_min a b r s : dn a r -> dn b s -> dn (Z.min a b) (Rmin r s).
Proof. intros [A B] [C D]. split; [lia|]. apply Rmin_glb; [apply Rle_trans with (2 := B)|apply Rle_trans with (2 := D)]; apply fx_le; lia. Qed.
Lemma dn_mn c i j : (c < 3)%nat -> (i < 21)%nat -> (j < 21)%nat -> dn (mnD c i j) (mn c i j).
Proof.
  intros Hc Hi Hj. unfold mnD, mn. destruct (Nat.eqb_spec i j) as [E|E]; [split; [discriminate|rewrite fx_1; lra]|].
  destruct (rfound (Nat.min i j) (Nat.max i j) ltac:(lia) ltac:(lia)) as (r & F & H). rewrite F. destruct (H c ltac:(lia)) as [E1 P1]. destruct (H (S c) ltac:(lia)) as [E2 P2]. rewrite E1, E2.
  apply dn_mul; [apply dn_lit; lra|]. apply dn_min; [apply dn_lit; lra|]. apply dn_inv; [exact P1|apply pos_up; lra].
Qed.
Lemma pair_ge a b g bb be ga B : 0 <= a -> 0 <= b -> 0 < be -> 0 <= ga -> 0 <= B -> near g (be * ga * B) -> near bb (be ^ 2) ->
  (1 - 1 / 1000000000000) * (2 * (a * b * (ga * Rmin be (/ be) * B))) <= 2 * a * b * g * (a + b) / (bb * a + b).
Proof.
  intros Ha Hb Hbe Hga HB Hg Hbb. set (h := ga * B). assert (Hh : 0 <= h) by now apply Rmult_le_pos.
  replace (2 * a * b * g * (a + b) / (bb * a + b)) with (2 * (a * b) * (g * ((a + b) / (bb * a + b)))) by (unfold Rdiv; ring).
  replace (be * ga * B) with (be * h) in Hg by (unfold h; ring). replace (ga * Rmin be (/ be) * B) with (h * Rmin be (/ be)) by (unfold h; ring). clearbody h. clear HB Hga ga B.
  assert (P2 : 0 < be ^ 2) by now apply pow_lt. assert (Hbh : 0 <= be * h) by (apply Rmult_le_pos; lra).
  assert (Bg : (1 - 1 / 100000000000000) * (be * h) <= g) by (unfold near in Hg; apply Rcomplements.Rabs_le_between in Hg; lra).
  assert (Bb : (1 - 1 / 100000000000000) * be ^ 2 <= bb <= (1 + 1 / 100000000000000) * be ^ 2) by (unfold near in Hbb; apply Rcomplements.Rabs_le_between in Hbb; lra).
  assert (Pb : 0 < bb) by lra. assert (ab : 0 <= a * b) by now apply Rmult_le_pos.
  destruct (Req_dec (bb * a + b) 0) as [Z|Z].
  { assert (bb * a = 0) by (assert (0 <= bb * a) by (apply Rmult_le_pos; lra); lra). assert (b = 0) by lra. subst b. rewrite !Rmult_0_r, !Rmult_0_l, !Rmult_0_r. lra. }
  assert (D : 0 < bb * a + b) by (assert (0 <= bb * a) by (apply Rmult_le_pos; lra); lra).
  assert (N0 : 0 < Rmin 1 (/ bb)) by (apply Rmin_glb_lt; [lra|now apply Rinv_0_lt_compat]).
  assert (F : Rmin 1 (/ bb) <= (a + b) / (bb * a + b)).
  { apply (Rmult_le_reg_r (bb * a + b)); [exact D|]. unfold Rdiv. rewrite Rmult_assoc, Rinv_l by lra. rewrite Rmult_1_r.
    pose proof (Rmin_l 1 (/ bb)) as M1. pose proof (Rmin_r 1 (/ bb)) as M2. set (M := Rmin 1 (/ bb)) in *. clearbody M. assert (M * bb <= 1) by (replace 1 with (/ bb * bb) by (field; lra); apply Rmult_le_compat_r; lra).
    assert (M * bb * a <= a) by (rewrite <- (Rmult_1_l a) at 2; apply Rmult_le_compat_r; lra). assert (M * b <= b) by (rewrite <- (Rmult_1_l b) at 2; apply Rmult_le_compat_r; lra). lra. }
  set (q := (a + b) / (bb * a + b)) in *. clearbody q.
  assert (K : (1 - 2 / 100000000000000) * Rmin be (/ be) <= be * Rmin 1 (/ bb)).
  { pose proof (Rmin_l be (/ be)) as M1. pose proof (Rmin_r be (/ be)) as M2. assert (M0 : 0 < Rmin be (/ be)) by (apply Rmin_glb_lt; [lra|now apply Rinv_0_lt_compat]). set (M := Rmin be (/ be)) in *. clearbody M.
    unfold Rmin at 1. destruct (Rle_dec 1 (/ bb)) as [C|C]; [lra|].
    assert ((1 - 2 / 100000000000000) * / be <= be * / bb); [|assert (0 < / be) by (now apply Rinv_0_lt_compat); lra].
    apply (Rmult_le_reg_r (bb * be)); [now apply Rmult_lt_0_compat|]. replace (be * / bb * (bb * be)) with (be ^ 2) by (field; lra). replace ((1 - 2 / 100000000000000) * / be * (bb * be)) with ((1 - 2 / 100000000000000) * bb) by (field; lra).
    nra. }
  assert (M0 : 0 < Rmin be (/ be)) by (apply Rmin_glb_lt; [lra|now apply Rinv_0_lt_compat]).
  set (M := Rmin be (/ be)) in *. set (N := Rmin 1 (/ bb)) in *. clearbody M N. assert (gq : (1 - 1 / 100000000000000) * (be * h) * N <= g * q).
  { apply Rmult_le_compat; lra. }
  assert (X : (1 - 1 / 1000000000000) * (h * M) <= (1 - 1 / 100000000000000) * (be * h) * N).
  { assert (h * ((1 - 2 / 100000000000000) * M) <= h * (be * N)) by (apply Rmult_le_compat_l; lra). assert (0 <= h * M) by (apply Rmult_le_pos; lra). lra. }
  replace ((1 - 1 / 1000000000000) * (2 * (a * b * (h * M)))) with (2 * (a * b) * ((1 - 1 / 1000000000000) * (h * M))) by ring. apply Rmult_le_compat_l; lra.
Qed.
Section Sum.
Variable y : nat -> R.
Hypothesis Hy : forall i, (i < 21)%nat -> 0 <= y i.
Variables (g bb B : nat -> nat -> R) (c : nat).
Hypothesis Hc : (c < 3)%nat.
Hypothesis HB : forall i j, (i < 21)%nat -> (j < 21)%nat -> 0 <= B i j.
Hypothesis SB : forall i j, B i j = B j i.
Hypothesis gd : forall i, (i < 21)%nat -> near (g i i) (B i i).
Hypothesis gp : forall i j, (i < j)%nat -> (j < 21)%nat -> near (g i j) (red c (S i) (S j) * red (S c) (S i) (S j) * B i j) /\ near (bb i j) (red c (S i) (S j) ^ 2).
Let V := tot 21 (fun i => y i ^ 2 * g i i) + tot 21 (fun j => tot j (fun i => 2 * y i * y j * g i j * (y i + y j) / (bb i j * y i + y j))).
Lemma term_ge j i : (i < j)%nat -> (j < 21)%nat -> (1 - 1 / 1000000000000) * (2 * (y i * y j * (mn c i j * B i j))) <= 2 * y i * y j * g i j * (y i + y j) / (bb i j * y i + y j).
Proof.
  intros Hi Hj. destruct (gp i j Hi Hj) as [G1 G2]. assert (E : mn c i j = red (S c) (S i) (S j) * Rmin (red c (S i) (S j)) (/ red c (S i) (S j))).
  { unfold mn. replace (Nat.eqb i j) with false by (symmetry; apply Nat.eqb_neq; lia). rewrite Nat.min_l, Nat.max_r by lia. reflexivity. }
  rewrite E. apply pair_ge; trivial.
  - apply Hy. lia.
  - now apply Hy.
  - apply red_pos; trivial. lia.
  - left. apply red_pos; trivial. lia.
  - apply HB; lia.
Qed.
Lemma V_ge : (1 - 1 / 1000000000000) * tot 21 (fun i => tot 21 (fun j => y i * y j * (mn c i j * B i j))) <= V.
Proof.
  unfold V. rewrite (form_rows 21 y (fun i j => mn c i j * B i j)) by (intros; now rewrite mn_sym, SB). rewrite Rmult_plus_distr_l. apply Rplus_le_compat.
  + rewrite <- tot_scal. apply tot_le. intros i Hi. rewrite mn_diag, Rmult_1_l. destruct (near_pos _ _ (HB i i Hi Hi) (gd i Hi)) as [_ G]. pose proof (HB i i Hi Hi) as P.
    replace ((1 - 1 / 1000000000000) * (y i ^ 2 * B i i)) with (y i ^ 2 * ((1 - 1 / 1000000000000) * B i i)) by ring. apply Rmult_le_compat_l; [apply pow2_ge_0|]. lra.
  + rewrite <- Rmult_assoc, (Rmult_comm _ 2), Rmult_assoc, <- !tot_scal. apply tot_le. intros j Hj. rewrite <- !tot_scal. apply tot_le. intros i Hi. pose proof (term_ge j i Hi Hj) as H. lra.
Qed.
End Sum.

Definition STd (i : nat) : Z := Z.pred (Z.pred (Z.pred (zn ST i))).
Lemma STd_num : forallb (fun i => rootD (snd (critl i)) 270 (STd i)) (seq 0 21) = true. Proof. vm_compute. reflexivity. Qed.
Lemma STd_ok i : (i < 21)%nat -> dn (STd i) (sqrt (T_c (S i) / 270)).
Proof. intros Hi. apply (dn_root (snd (critl i)) 270); [reflexivity|]. apply (proj1 (forallb_forall _ _) STd_num). apply in_seq. lia. Qed.
Definition trow (i : nat) : Z := linD (fun j => mulD (mnD 2 i j) (mulD (STd i) (STd j))).
Definition TROW : list Z := Eval vm_compute in map trow (seq 0 21).
Lemma TROW_num : TROW = map trow (seq 0 21). Proof. vm_compute. reflexivity. Qed.
Lemma trow_nn : forallb (fun i => (0 <=? trow i)%Z) (seq 0 21) = true. Proof. vm_compute. reflexivity. Qed.
Lemma tmpD_num : (131100000 <=? linD (fun i => zn TROW i))%Z = true. Proof. vm_compute. reflexivity. Qed.

Section G.
Variable x : nat -> R.
Hypothesis Hx : natural_gas (fun i => x (S i)).
Variables gt bt : nat -> nat -> R.
Hypothesis N : forall i j, (1 <= i <= j)%nat -> (j < 22)%nat -> near (gt i j) (t_red i j) /\ near (bt i j) (b_red i j).
Let y i := x (S i).
Let Bt i j := sqrt (T_c (S i) * T_c (S j)).
Lemma tmp_ge : 1318 / 10 <= red_temp x gt bt.
Proof.
  pose proof (V_ge y (x_ge0 y Hx) (fun i j => gt (S i) (S j)) (fun i j => bt (S i) (S j)) Bt 2 ltac:(lia)) as H.
  change (red_temp x gt bt) with (tot 21 (fun i => y i ^ 2 * gt (S i) (S i)) + tot 21 (fun j => tot j (fun i => 2 * y i * y j * gt (S i) (S j) * (y i + y j) / (bt (S i) (S j) * y i + y j)))).
  refine (Rle_trans _ _ _ _ (H _ _ _ _)); clear H.
  - assert (E : tot 21 (fun i => tot 21 (fun j => y i * y j * (mn 2 i j * Bt i j))) = 270 * tot 21 (fun i => y i * tot 21 (fun j => y j * (mn 2 i j * (sqrt (T_c (S i) / 270) * sqrt (T_c (S j) / 270)))))).
    { rewrite <- tot_scal. apply tot_ext. intros i Hi. rewrite <- !tot_scal. apply tot_ext. intros j Hj. destruct (crits i Hi) as (_ & _ & Ei & _). destruct (crits j Hj) as (_ & _ & Ej & _).
      assert (Q : Bt i j = 270 * (sqrt (T_c (S i) / 270) * sqrt (T_c (S j) / 270))); [|rewrite Q; ring]. unfold Bt.
      rewrite <- sqrt_mult by (apply div0; lra). transitivity (sqrt (270 * 270) * sqrt (T_c (S i) / 270 * (T_c (S j) / 270))); [|rewrite (sqrt_square 270) by lra; reflexivity]. rewrite <- sqrt_mult; [f_equal; field|lra|apply Rmult_le_pos; apply div0; lra]. }
    rewrite E. assert (U : fx (linD (fun i => zn TROW i)) <= tot 21 (fun i => y i * tot 21 (fun j => y j * (mn 2 i j * (sqrt (T_c (S i) / 270) * sqrt (T_c (S j) / 270)))))).
    { apply (dn_lin y _ _ Hx). intros i Hi. unfold zn. rewrite TROW_num. rewrite (nth_indep _ 0%Z (trow 0)) by (rewrite map_length, seq_length; exact Hi). rewrite map_nth, seq_nth by exact Hi. rewrite Nat.add_0_l.
      unfold trow. apply (dn_lin' y _ _ Hx); [|exact (proj1 (forallb_forall _ _) trow_nn i ltac:(apply in_seq; lia))].
      intros j Hj. apply dn_mul; [apply dn_mn; trivial; lia|]. apply dn_mul; now apply STd_ok. }
    pose proof (leU _ _ tmpD_num) as Q. assert (48838 / 100000 <= fx 131100000) by (unfold fx; change SC with 268435456%Z; lra). lra.
  - intros i j _ _. apply sqrt_pos.
  - intros i j. unfold Bt. now rewrite (Rmult_comm (T_c (S i))).
  - intros i Hi. destruct (N (S i) (S i) ltac:(lia) ltac:(lia)) as (G & _). unfold t_red in G. rewrite Nat.eqb_refl in G. unfold Bt. rewrite sqrt_square by (left; now apply crits). exact G.
  - intros i j Hi Hj. destruct (N (S i) (S j) ltac:(lia) ltac:(lia)) as (G & G'). unfold t_red in G. unfold b_red in G'. replace (Nat.eqb (S i) (S j)) with false in G, G' by (symmetry; apply Nat.eqb_neq; lia). split; assumption.
Qed.
End G.
