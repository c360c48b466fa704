(* The reducing functions of GERG-2008 for a natural gas: bounds. *)
From Coq Require Import Reals ZArith List Bool Lra Lia Psatz.
From Coquelicot Require Rcomplements.
From Verif Require Import FArith ArithR StdDetail StdGerg SpecStd SpecGas SlopeReal ConvDetail FixUp GasDetail GasVirial GasThird GasRed.
Import ListNotations.
Local Open Scope R_scope.

Lemma near_pos g b : 0 <= b -> near g b -> 0 <= g <= (1 + 1 / 100000000000000) * b /\ (1 - 1 / 100000000000000) * b <= g.
Proof. intros B H. unfold near in H. apply Rcomplements.Rabs_le_between in H. lra. Qed.
Section Sum.
Variable y : nat -> R.
Hypothesis Hy : forall i, (i < 21)%nat -> 0 <= y i.
Variables (g bb B : nat -> nat -> R) (c : nat).
Hypothesis Hc : (c < 3)%nat.
Hypothesis HB : forall i j, (i < 21)%nat -> (j < 21)%nat -> 0 <= B i j.
Hypothesis SB : forall i j, B i j = B j i.
Hypothesis gd : forall i, (i < 21)%nat -> near (g i i) (B i i).
Hypothesis gp : forall i j, (i < j)%nat -> (j < 21)%nat -> near (g i j) (red c (S i) (S j) * red (S c) (S i) (S j) * B i j) /\ near (bb i j) (red c (S i) (S j) ^ 2).
Let V := tot 21 (fun i => y i ^ 2 * g i i) + tot 21 (fun j => tot j (fun i => 2 * y i * y j * g i j * (y i + y j) / (bb i j * y i + y j))).
Lemma term_le j i : (i < j)%nat -> (j < 21)%nat -> 0 <= 2 * y i * y j * g i j * (y i + y j) / (bb i j * y i + y j) <= (1 + 1 / 1000000000000) * (2 * (y i * y j * (mx c i j * B i j))).
Proof.
  intros Hi Hj. destruct (gp i j Hi Hj) as [G1 G2]. assert (E : mx c i j = red (S c) (S i) (S j) * Rmax (red c (S i) (S j)) (/ red c (S i) (S j))).
  { unfold mx. replace (Nat.eqb i j) with false by (symmetry; apply Nat.eqb_neq; lia). rewrite Nat.min_l, Nat.max_r by lia. reflexivity. }
  rewrite E. apply pair_le; trivial.
  - apply Hy. lia.
  - now apply Hy.
  - apply red_pos; trivial. lia.
  - left. apply red_pos; trivial. lia.
  - apply HB; lia.
Qed.
Lemma V_le : y 0%nat ^ 2 * g 0%nat 0%nat <= V <= (1 + 1 / 1000000000000) * tot 21 (fun i => tot 21 (fun j => y i * y j * (mx c i j * B i j))).
Proof.
  unfold V. split.
  - rewrite (tot_first 20 (fun i => y i ^ 2 * g i i)).
    assert (0 <= tot 20 (fun i => y (S i) ^ 2 * g (S i) (S i))) by (apply tot_ge0; intros i Hi; apply Rmult_le_pos; [apply pow2_ge_0|]; apply (near_pos _ (B (S i) (S i))); [apply HB; lia|apply gd; lia]).
    assert (0 <= tot 21 (fun j => tot j (fun i => 2 * y i * y j * g i j * (y i + y j) / (bb i j * y i + y j)))) by (apply tot_ge0; intros j Hj; apply tot_ge0; intros i Hi; now apply term_le). lra.
  - rewrite (form_rows 21 y (fun i j => mx c i j * B i j)) by (intros; now rewrite mx_sym, SB). rewrite Rmult_plus_distr_l. apply Rplus_le_compat.
    + rewrite <- tot_scal. apply tot_le. intros i Hi. rewrite mx_diag, Rmult_1_l. destruct (near_pos _ _ (HB i i Hi Hi) (gd i Hi)) as [[_ G] _]. pose proof (HB i i Hi Hi) as P.
      replace ((1 + 1 / 1000000000000) * (y i ^ 2 * B i i)) with (y i ^ 2 * ((1 + 1 / 1000000000000) * B i i)) by ring. apply Rmult_le_compat_l; [apply pow2_ge_0|]. lra.
    + rewrite <- Rmult_assoc, (Rmult_comm _ 2), Rmult_assoc, <- !tot_scal. apply tot_le. intros j Hj. rewrite <- !tot_scal. apply tot_le. intros i Hi. destruct (term_le j i Hi Hj) as [_ H]. lra.
Qed.
End Sum.

Definition volU : Z := linU (fun i => linU (fun j => mulU (mxU 0 i j) (mulU (litU (L 125 (-3))) (powU (zn AV i + zn AV j) 3)))).
Definition tmpU : Z := linU (fun i => linU (fun j => mulU (mxU 2 i j) (mulU (zn ST i) (zn ST j)))).
Lemma vol_num : (volU <=? 31171000)%Z = true. Proof. vm_compute. reflexivity. Qed.
Lemma tmp_num : (tmpU <=? 252224000)%Z = true. Proof. vm_compute. reflexivity. Qed.

Section G.
Variable x : nat -> R.
Hypothesis Hx : natural_gas (fun i => x (S i)).
Variables gv gt bt : nat -> nat -> R.
Hypothesis N : forall i j, (1 <= i <= j)%nat -> (j < 22)%nat -> near (gv i j) (v_red i j) /\ near (gt i j) (t_red i j) /\ near (bt i j) (b_red i j).
Let y i := x (S i).
Lemma y_ge0 i : (i < 21)%nat -> 0 <= y i. Proof. exact (x_ge0 y Hx i). Qed.
Let r3 i := Rpower (rho_c (S i)) (- (1 / 3)).
Let Bv i j := 1 / 8 * (r3 i + r3 j) ^ 3.
Lemma r3_cube i : (i < 21)%nat -> r3 i ^ 3 = 1 / rho_c (S i).
Proof.
  intros Hi. destruct (crits i Hi) as (P & _). unfold r3. rewrite <- (Rpower_pow 3) by apply exp_pos. rewrite Rpower_mult. replace (- (1 / 3) * INR 3) with (Ropp 1) by (cbn; lra).
  rewrite Rpower_Ropp, Rpower_1 by exact P. field. lra.
Qed.
Lemma vol_le : 0 <= red_volume x gv <= 1162 / 10000.
Proof.
  destruct (V_le y y_ge0 (fun i j => gv (S i) (S j)) (fun i j => red 0 (S i) (S j) ^ 2) Bv 0 ltac:(lia)) as [L H].
  - intros i j _ _. unfold Bv, r3. apply Rmult_le_pos; [lra|]. apply pow_le. apply Rplus_le_le_0_compat; left; apply exp_pos.
  - intros i j. unfold Bv. now rewrite (Rplus_comm (r3 i)).
  - intros i Hi. destruct (N (S i) (S i) ltac:(lia) ltac:(lia)) as (G & _). unfold v_red in G. rewrite Nat.eqb_refl in G. replace (Bv i i) with (1 / rho_c (S i)); [exact G|].
    rewrite <- r3_cube by exact Hi. unfold Bv. field.
  - intros i j Hi Hj. destruct (N (S i) (S j) ltac:(lia) ltac:(lia)) as (G & _). split.
    + unfold v_red in G. replace (Nat.eqb (S i) (S j)) with false in G by (symmetry; apply Nat.eqb_neq; lia). unfold Bv, r3. rewrite <- Rmult_assoc. exact G.
    + unfold near. replace (red 0 (S i) (S j) ^ 2 - red 0 (S i) (S j) ^ 2) with 0 by ring. rewrite Rabs_R0. apply Rmult_le_pos; [lra|apply pow2_ge_0].
  - change (red_volume x gv) with (tot 21 (fun i => y i ^ 2 * gv (S i) (S i)) + tot 21 (fun j => tot j (fun i => 2 * y i * y j * gv (S i) (S j) * (y i + y j) / (red 0 (S i) (S j) ^ 2 * y i + y j)))).
    split.
    + apply Rle_trans with (2 := L). apply Rmult_le_pos; [apply pow2_ge_0|]. destruct (N 1%nat 1%nat ltac:(lia) ltac:(lia)) as (G & _). apply (near_pos _ (v_red 1 1)); [|exact G].
      unfold v_red. cbn [Nat.eqb]. destruct (crits 0 ltac:(lia)) as (P & _). apply div0; [lra|exact P].
    + apply Rle_trans with (1 := H). assert (U : up volU (tot 21 (fun i => tot 21 (fun j => y i * y j * (mx 0 i j * Bv i j))))).
      { unfold volU. apply (up_rows y Hx). intros i j Hi Hj. apply up_mul; [apply up_mx; trivial; lia|]. unfold Bv. apply up_mul.
        - apply lit_le; [lra|cbn; lra].
        - apply up_pow. apply up_add; now apply crits. }
      destruct U as [U1 U2]. pose proof (leU _ _ vol_num) as Q. assert (fx 31171000 <= 11613 / 100000) by (unfold fx; change SC with 268435456%Z; lra). lra.
Qed.
Let Bt i j := sqrt (T_c (S i) * T_c (S j)).
Lemma tmp_le : 38 <= red_temp x gt bt <= 25370 / 100.
Proof.
  destruct (V_le y y_ge0 (fun i j => gt (S i) (S j)) (fun i j => bt (S i) (S j)) Bt 2 ltac:(lia)) as [L H].
  - intros i j _ _. apply sqrt_pos.
  - intros i j. unfold Bt. now rewrite (Rmult_comm (T_c (S i))).
  - intros i Hi. destruct (N (S i) (S i) ltac:(lia) ltac:(lia)) as (_ & G & _). unfold t_red in G. rewrite Nat.eqb_refl in G. unfold Bt. rewrite sqrt_square by (left; now apply crits). exact G.
  - intros i j Hi Hj. destruct (N (S i) (S j) ltac:(lia) ltac:(lia)) as (_ & G & G'). unfold t_red in G. unfold b_red in G'. replace (Nat.eqb (S i) (S j)) with false in G, G' by (symmetry; apply Nat.eqb_neq; lia). split; assumption.
  - change (red_temp x gt bt) with (tot 21 (fun i => y i ^ 2 * gt (S i) (S i)) + tot 21 (fun j => tot j (fun i => 2 * y i * y j * gt (S i) (S j) * (y i + y j) / (bt (S i) (S j) * y i + y j)))).
    split.
    + apply Rle_trans with (2 := L). destruct (N 1%nat 1%nat ltac:(lia) ltac:(lia)) as (_ & G & _). apply near_pos in G.
      * destruct G as [_ G]. unfold t_red in G. cbn [Nat.eqb] in G. assert (E : T_c 1 = 190564 / 1000) by (unfold T_c; cbn; reflexivity). rewrite E in G. destruct Hx as (X0 & _). unfold y. assert (45 / 100 * (45 / 100) <= x 1%nat ^ 2) by nra.
        assert ((45 / 100 * (45 / 100)) * 190 <= x 1%nat ^ 2 * gt 1%nat 1%nat) by (apply Rmult_le_compat; lra). lra.
      * unfold t_red. cbn [Nat.eqb]. left. apply (crits 0). lia.
    + apply Rle_trans with (1 := H). assert (E : tot 21 (fun i => tot 21 (fun j => y i * y j * (mx 2 i j * Bt i j))) = 270 * tot 21 (fun i => tot 21 (fun j => y i * y j * (mx 2 i j * (sqrt (T_c (S i) / 270) * sqrt (T_c (S j) / 270)))))).
      { rewrite <- tot_scal. apply tot_ext. intros i Hi. rewrite <- tot_scal. apply tot_ext. intros j Hj. destruct (crits i Hi) as (_ & _ & Ei & _). destruct (crits j Hj) as (_ & _ & Ej & _).
        assert (Q : Bt i j = 270 * (sqrt (T_c (S i) / 270) * sqrt (T_c (S j) / 270))); [|rewrite Q; ring]. unfold Bt.
        rewrite <- sqrt_mult by (apply div0; lra). transitivity (sqrt (270 * 270) * sqrt (T_c (S i) / 270 * (T_c (S j) / 270))); [|rewrite (sqrt_square 270) by lra; reflexivity]. rewrite <- sqrt_mult; [f_equal; field|lra|apply Rmult_le_pos; apply div0; lra]. }
      rewrite E. assert (U : up tmpU (tot 21 (fun i => tot 21 (fun j => y i * y j * (mx 2 i j * (sqrt (T_c (S i) / 270) * sqrt (T_c (S j) / 270))))))).
      { unfold tmpU. apply (up_rows y Hx). intros i j Hi Hj. apply up_mul; [apply up_mx; trivial; lia|]. apply up_mul; now apply crits. }
      destruct U as [U1 U2]. pose proof (leU _ _ tmp_num) as Q. assert (fx 252224000 <= 93961 / 100000) by (unfold fx; change SC with 268435456%Z; lra). lra.
Qed.
End G.
