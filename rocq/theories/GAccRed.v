(* Error analysis of the GERG reducing functions in double precision. *)
From Coq Require Import Reals ZArith List Bool Lra Lia Psatz.
From Flocq Require Import Core BinarySingleNaN.
From Verif Require Import FArith Prelude Tab ArithB64 B64Lemmas ArithR RSum SpecDetail SpecGerg SpecAcc DetailPure GergTables GergModel GergPure GergRefine Api ApiSafe BasicProofs HistoryGerg SpecReal Thermo DetailReal DetailThermo GergReal GergIdeal GergThermo
  DetailEos GergEos B64Err AccFold AccMix AccEos.
Import ListNotations.

(* the double loop as one loop over the pairs *)
Definition prs1 : list (nat * nat) := flat_map (fun i => map (pair i) (seq i (22 - i))) (seq 1 21).
Lemma in_prs1 p : In p prs1 -> (1 <= fst p <= snd p)%nat /\ (snd p < 22)%nat.
Proof.
  intros H. apply in_flat_map in H. destruct H as (a & Ha & H). apply in_map_iff in H. destruct H as (b & <- & Hb).
  apply in_seq in Ha. apply in_seq in Hb. cbn [fst snd]. lia.
Qed.
Section Flat.
Context {A : Arith} {P : GParams}.
Local Open Scope F_scope.
Definition fac (i j : nat) : F := if Nat.eqb i j then f1 else f2.
Definition xij (X : nat -> F) i j := fac i j * (X i * X j) * (X i + X j).
Definition vt (X : nat -> F) (p : nat * nat) := xij X (fst p) (snd p) * lv2 G_GVIJ (fst p) (snd p) / (q_bvij (fst p) (snd p) * X (fst p) + X (snd p)).
Definition tt (X : nat -> F) (p : nat * nat) := xij X (fst p) (snd p) * lv2 G_GTIJ (fst p) (snd p) / (lv2 G_BTIJ (fst p) (snd p) * X (fst p) + X (snd p)).
Definition both (X : nat -> F) (p : nat * nat) : bool := (act (X (fst p)) && act (X (snd p)))%bool.
Definition gsum (X : nat -> F) (g : nat * nat -> F) l a := fold_left (fun s p => if both X p then s + g p else s) l a.
Lemma row_flat X i l : act (X i) = true -> (forall j, In j l -> (i < j)%nat) -> forall v w,
  fold_left (fun st j => rstep X i j st) l (v, w, f2)
  = (gsum X (vt X) (map (pair i) l) v, gsum X (tt X) (map (pair i) l) w, f2).
Proof.
  intros Ai. induction l as [|j l IH]; intros Hl v w; [reflexivity|].
  unfold gsum in *. cbn [map fold_left]. unfold rstep at 2, both at 2 4. cbn [fst snd]. rewrite Ai. cbn [andb].
  destruct (act (X j)) eqn:Aj; [|apply IH; intros; apply Hl; now right].
  rewrite IH by (intros; apply Hl; now right). unfold vt, tt, xij, fac. cbn [fst snd].
  rewrite (proj2 (Nat.eqb_neq i j)) by (pose proof (Hl j (or_introl eq_refl)); lia). reflexivity.
Qed.
Lemma gred_flat X : gred X = (gsum X (vt X) prs1 f0, gsum X (tt X) prs1 f0).
Proof.
  unfold gred, prs1. unfold gsum at 1 2. rewrite !fold_flat. generalize f0 at 1 3 as v. generalize f0 as w.
  assert (H : forall i, In i (seq 1 21) -> (1 <= i < 22)%nat) by (intros i Hi; apply in_seq in Hi; lia). revert H.
  generalize (seq 1 21) as l. induction l as [|i l IH]; intros H w v; [reflexivity|]. cbn [fold_left].
  rewrite <- IH by (intros; apply H; now right). f_equal.
  destruct (act (X i)) eqn:Ai.
  - unfold rrow. pose proof (H i (or_introl eq_refl)). replace (22 - i)%nat with (S (21 - i)) by lia. cbn [seq fold_left map].
    unfold rstep at 2, both at 2 4. cbn [fst snd]. rewrite Ai. cbn [andb].
    rewrite row_flat; [|exact Ai|intros j Hj; apply in_seq in Hj; lia]. cbn [fst]. unfold vt at 3, tt at 3, xij, fac. cbn [fst snd].
    now rewrite Nat.eqb_refl.
  - assert (G : forall g a l, fold_left (fun s p => if both X p then s + g p else s) (map (pair i) l) a = a).
    { intros g a l'. revert a. induction l' as [|j l' IHl]; intros a; [reflexivity|]. cbn [map fold_left]. unfold both at 2. cbn [fst snd]. rewrite Ai. apply IHl. }
    now rewrite !G.
Qed.
End Flat.

Local Open Scope R_scope.
(* table entries *)
Lemma ap_aval m l i j a b : forallb (fun e => inok a b (snd e)) l = true -> inr a b ->
  ap 1 a b (@aval (ArithB64 m) l i j (@f0 (ArithB64 m))) (@aval ArithR l i j (@f0 ArithR)) (@aval ArithR l i j (@f0 ArithR)).
Proof.
  intros H Hi. unfold aval, alookup.
  assert (G : match fold_left (fun o e => if (Nat.eqb i (fst (fst e)) && Nat.eqb j (snd (fst e)))%bool then Some (snd e) else o) l None with
              | Some v => inok a b v = true | None => True end).
  { assert (G : forall o, match o with Some v => inok a b v = true | None => True end ->
      match fold_left (fun o e => if (Nat.eqb i (fst (fst e)) && Nat.eqb j (snd (fst e)))%bool then Some (snd e) else o) l o with
              | Some v => inok a b v = true | None => True end).
    { induction l as [|e l IH]; intros o Ho; [exact Ho|]. cbn [forallb fold_left] in *. apply andb_true_iff in H. destruct H as [H1 H2].
      apply IH; [exact H2|]. destruct (_ && _)%bool; [exact H1|exact Ho]. }
    now apply G. }
  destruct (fold_left _ l None) as [v|].
  - now apply ap_inok.
  - change (ap 1 a b (@f0 (ArithB64 m)) 0 0). eapply ap_weak; [apply (ap_0 a b)|lia|lia|lia].
Qed.
Definition posok (a b : Z) (l : lit) : bool := inok a b l && match l with L m _ => (0 <? m)%Z end.
Lemma posok_ok a b l : posok a b l = true -> inok a b l = true /\ p2 a <= Rlit l <= p2 b.
Proof.
  intros H. apply andb_true_iff in H. destruct H as [H H2]. split; [exact H|].
  apply andb_true_iff in H. destruct H as [H1 H3]. pose proof (lit_in_ok _ _ _ H1) as R. pose proof (lnneg_ok _ H3) as N.
  rewrite Rabs_pos_eq in R by exact N. destruct R as [E|R]; [exfalso|exact R]. destruct l as [n e]. apply Z.ltb_lt in H2.
  pose proof (lit_ratio n e) as Q. rewrite E, Rabs_R0 in Q.
  assert (0 < IZR (Z.abs n * 10 ^ Z.max 0 e) / IZR (10 ^ Z.max 0 (- e))); [|lra].
  apply Rdiv_lt_0_compat; apply IZR_lt; [apply Z.mul_pos_pos; [lia|]|]; apply Z.pow_pos_nonneg; lia.
Qed.
Definition tabok (a b : Z) (t : list (list lit)) (p : nat * nat) : bool := posok a b (nth (snd p) (nth (fst p) t []) (L 0 0)).
Lemma tab_at a b t p : forallb (tabok a b t) prs1 = true -> In p prs1 -> inr a b -> forall m,
  ap 1 a b (@lv2 (ArithB64 m) t (fst p) (snd p)) (@lv2 ArithR t (fst p) (snd p)) (@lv2 ArithR t (fst p) (snd p)) /\
  p2 a <= @lv2 ArithR t (fst p) (snd p) <= p2 b.
Proof.
  intros H Hp Hi m. pose proof (proj1 (forallb_forall _ _) H p Hp) as E. apply posok_ok in E. destruct E as [E1 E2].
  split; [now apply ap_inok|exact E2].
Qed.
Lemma GV_ok : forallb (tabok (-5) 0 G_GVIJ) prs1 = true. Proof. vm_compute. reflexivity. Qed.
Lemma GT_ok : forallb (tabok 2 10 G_GTIJ) prs1 = true. Proof. vm_compute. reflexivity. Qed.
Lemma BT_ok : forallb (tabok (-2) 2 G_BTIJ) prs1 = true. Proof. vm_compute. reflexivity. Qed.
Definition bvok (p : nat * nat) : bool :=
  match alookup G_setup_bvij (fst p) (snd p) with Some v => posok (-1) 1 v | None => Nat.eqb (fst p) (snd p) end.
Lemma BV_ok : forallb bvok prs1 = true. Proof. vm_compute. reflexivity. Qed.

Local Existing Instance gp_new.
Section M.
Variable m : Libm.
Hypothesis A : accurate m.
Local Notation B := (ArithB64 m).
Lemma aBV p : In p prs1 -> ap 14 (-2) 2 (@q_bvij B gp_new (fst p) (snd p)) (@q_bvij ArithR gp_new (fst p) (snd p)) (@q_bvij ArithR gp_new (fst p) (snd p)) /\
  p2 (-2) <= @q_bvij ArithR gp_new (fst p) (snd p) <= p2 2.
Proof.
  intros Hp. destruct (in_prs1 p Hp) as [H1 H2]. pose proof (proj1 (forallb_forall _ _) BV_ok p Hp) as E. unfold bvok in E.
  cbn [q_bvij gp_new]. unfold Gbvij, inred. rewrite (proj2 (Nat.leb_le 1 _)), (proj2 (Nat.leb_le (fst p) _)) by lia. cbn [andb].
  destruct (Nat.eqb (fst p) (snd p)).
  - split; [eapply ap_weak; [exact (a1 m)|zc|zc|zc]|]. change (@f1 ArithR) with 1. change (p2 (-2)) with (/ 4). change (p2 2) with 4. lra.
  - unfold aval. destruct (alookup G_setup_bvij (fst p) (snd p)) as [v|]; [|discriminate]. apply posok_ok in E. destruct E as [E1 E2].
    pose proof (ap_inok _ (-1) 1 E1 ltac:(zc)) as Q. assert (Rv : rng (-1) 1 (Rlit v)) by (right; exact E2).
    pose proof (rng_pow _ _ _ 2 Rv ltac:(lia)) as R2. cbn [Z.of_nat Pos.of_succ_nat Pos.succ] in R2.
    change (p2 (-1)) with (/ 2) in E2. change (p2 1) with 2 in E2.
    assert (Ep : forall y : R, @fpowi ArithR y 2 = y ^ 2) by (intros y; change (powerRZ y 2 = y ^ 2); rewrite powi2; ring). rewrite Ep. split.
    + change 14%Z with (4 + 10)%Z. change (lm_powi m (blit v) 2) with (lm_powi m (blit v) (Z.of_nat 2)).
      apply (ap_powi m A 2 1 (-1) 1 (blit v) (Rlit v) 4 (-2) 2); try exact Q; try exact R2; try zc; try lra.
    + destruct R2 as [R2|R2]; [exfalso; assert (/ 2 * / 2 <= Rlit v * Rlit v) by (apply Rmult_le_compat; lra); cbn [pow] in R2; lra|exact R2].
Qed.

Variable X : nat -> b64.
Hypothesis HX : forall i, (1 <= i < 22)%nat -> fin (X i) /\ rng (-49) 1 (bR (X i)).
Local Notation Y := (fun i => bR (X i)).
Lemma Y_ge0 i : (1 <= i < 22)%nat -> 0 <= bR (X i).
Proof. intros Hi. destruct (HX i Hi) as [_ R]. exact (rng_ge0 _ _ _ R). Qed.
Lemma act_Y i : (1 <= i < 22)%nat -> @act B (X i) = @act ArithR (bR (X i)) /\ (@act ArithR (bR (X i)) = true <-> 0 < bR (X i)).
Proof.
  intros Hi. destruct (HX i Hi) as [F R]. unfold act. cbn [flt ArithB64].
  destruct (lit_err (L 1 (-15)) (-50) (-49) eq_refl ltac:(zc)) as [L1 L2].
  change (Rlit (L 1 (-15))) with (@GEPSILON ArithR) in L2; rewrite glit15 in L2. rewrite (Rabs_pos_eq (1 / 1000000000000000)) in L2 by lra. apply Rabs_le_inv in L2.
  pose proof u_small. pose proof u_pos. change (@GEPSILON B) with (blit (L 1 (-15))). rewrite lt_fin by assumption.
  change (@flt ArithR (@GEPSILON ArithR) (bR (X i))) with (Rltb (@GEPSILON ArithR) (bR (X i))). rewrite glit15.
  destruct R as [E|[R1 R2]].
  - rewrite E. rewrite Rlt_bool_false by nra. assert (Rltb (1 / 1000000000000000) 0 = false) as -> by (apply Rltb_false; lra).
    split; [reflexivity|]. split; [discriminate|lra].
  - change (p2 (-49)) with (/ 562949953421312) in R1. rewrite Rlt_bool_true by nra.
    assert (Rltb (1 / 1000000000000000) (bR (X i)) = true) as -> by (apply Rltb_true; lra). split; [reflexivity|]. split; [intros _; lra|reflexivity].
Qed.
Lemma both_Y p : In p prs1 -> @both B X p = @both ArithR Y p.
Proof. intros Hp. destruct (in_prs1 p Hp). unfold both. now rewrite !(fun i H => proj1 (act_Y i H)) by lia. Qed.
Lemma aX i : (1 <= i < 22)%nat -> ap 0 (-49) 1 (X i) (bR (X i)) (bR (X i)).
Proof.
  intros Hi. destruct (HX i Hi) as [F R]. eapply ap_eq; [apply ap_exact; [exact F|]|reflexivity|]; rewrite Rabs_pos_eq by (now apply Y_ge0); [exact R|reflexivity].
Qed.
Lemma axij i j : (1 <= i < 22)%nat -> (1 <= j < 22)%nat -> ap 12 (-147) 5 (@xij B X i j) (@xij ArithR Y i j) (@xij ArithR Y i j).
Proof.
  intros Hi Hj. assert (ap 1 0 1 (@fac B i j) (@fac ArithR i j) (@fac ArithR i j)) as Q.
  { unfold fac. destruct (Nat.eqb i j); [eapply ap_weak; [exact (a1 m)|zc|zc|zc]|eapply ap_weak; [exact (a2 m)|zc|zc|zc]]. }
  assert (ap 2 (-49) 2 (badd (X i) (X j)) (bR (X i) + bR (X j)) (bR (X i) + bR (X j))) as Q2.
  { change 2%Z with (Z.max 0 0 + 2)%Z at 1. eapply ap_add; [apply aX, Hi|apply aX, Hj|zc|zc|zc|].
    eapply rng_weak; [eapply rng_add; [apply HX, Hi|apply HX, Hj]|lia|lia]. }
  unfold xij. cbn [fmul fadd ArithB64]. 
  eapply ap_weak; [eapply ap_mul; [eapply ap_mul; [exact Q|eapply ap_mul; [apply aX, Hi|apply aX, Hj|zc|zc|zc|zc]|zc|zc|zc|zc]|exact Q2|zc|zc|zc|zc]|zc|zc|zc].
Qed.
Lemma aterm (gB bB : b64) (gR bR' : R) ga gb p : ap 1 ga gb gB gR gR -> ap 14 (-2) 2 bB bR' bR' -> p2 (-2) <= bR' <= p2 2 -> (-5 <= ga)%Z -> (gb <= 10)%Z ->
  In p prs1 -> @both B X p = true ->
  let v := (@xij ArithR Y (fst p) (snd p) * gR / (bR' * bR (X (fst p)) + bR (X (snd p))))%R in
  ap 38 (-156) 66 (bdiv (bmul (@xij B X (fst p) (snd p)) gB) (badd (bmul bB (X (fst p))) (X (snd p)))) v v.
Proof.
  intros Qg Qb Hb Hga Hgb Hp Hboth. destruct (in_prs1 p Hp) as [H1 H2]. rewrite both_Y in Hboth by exact Hp. apply andb_true_iff in Hboth. destruct Hboth as [A1 A2].
  apply act_Y in A1; [|lia]. apply act_Y in A2; [|lia]. change (p2 (-2)) with (/ 4) in Hb. change (p2 2) with 4 in Hb.
  assert (ap 17 (-51) 3 (bmul bB (X (fst p))) (bR' * bR (X (fst p))) (bR' * bR (X (fst p)))) as Q1.
  { eapply ap_weak; [eapply ap_mul; [exact Qb|apply aX; lia|zc|zc|zc|zc]|zc|zc|zc]. }
  assert (ap 19 (-51) 4 (badd (bmul bB (X (fst p))) (X (snd p))) (bR' * bR (X (fst p)) + bR (X (snd p))) (bR' * bR (X (fst p)) + bR (X (snd p)))) as Q2.
  { change 19%Z with (Z.max 17 0 + 2)%Z. eapply ap_add; [exact Q1|apply aX; lia|zc|zc|zc|].
    eapply rng_weak; [eapply rng_add; [apply Q1|apply aX; lia]|lia|lia]. }
  cbv zeta. eapply ap_weak; [eapply ap_div; [eapply ap_mul; [apply axij; lia|exact Qg|zc|zc|zc|zc]|exact Q2|nra|zc|zc|zc|zc]|zc|zc|zc].
Qed.
(* the sums *)
Definition gate (g : nat * nat -> R) (p : nat * nat) : R := if @both ArithR Y p then g p else 0.
Lemma gsum_R g l (a : R) : @gsum ArithR Y g l a = a + rsum (gate g) l.
Proof.
  unfold gsum. revert a. induction l as [|p l IH]; intros a; [symmetry; apply Rplus_0_r|]. cbn [fold_left]. rewrite rsum_cons. unfold gate at 1.
  destruct (@both ArithR Y p).
  - etransitivity; [apply IH|]. change (a + g p + rsum (gate g) l = a + (g p + rsum (gate g) l)). ring.
  - etransitivity; [apply IH|]. now rewrite Rplus_0_l.
Qed.
Hypothesis Hs : 99 / 100 <= sumf 0 21 Y <= 101 / 100.
Definition facR (p : nat * nat) : R := (if Nat.eqb (fst p) (snd p) then 1 else 2) * (bR (X (fst p)) * bR (X (snd p))).
Lemma square : rsum facR prs1 = sumf 0 21 Y ^ 2.
Proof.
  unfold sumf, facR, prs1. set (y := fun i => bR (X i)).
  change (fun p : nat * nat => (if Nat.eqb (fst p) (snd p) then 1 else 2) * (bR (X (fst p)) * bR (X (snd p))))
    with (fun p : nat * nat => (if Nat.eqb (fst p) (snd p) then 1 else 2) * (y (fst p) * y (snd p))).
  change (fun m0 : nat => bR (X (0 + S m0)%nat)) with (fun m0 => y (S m0)). clearbody y.
  cbn -[Rmult Rplus IZR]. ring.
Qed.
Lemma facR_ge0 p : In p prs1 -> 0 <= facR p.
Proof.
  intros Hp. destruct (in_prs1 p Hp). unfold facR. pose proof (Y_ge0 (fst p) ltac:(lia)). pose proof (Y_ge0 (snd p) ltac:(lia)).
  apply Rmult_le_pos; [destruct (Nat.eqb _ _); lra|]. now apply Rmult_le_pos.
Qed.
Lemma tbound (gR b : R) ga gb p : In p prs1 -> p2 ga <= gR <= p2 gb -> p2 (-2) <= b <= p2 2 ->
  p2 ga * / 4 * facR p <= gate (fun p => @xij ArithR Y (fst p) (snd p) * gR / (b * bR (X (fst p)) + bR (X (snd p)))) p <= p2 gb * 4 * facR p.
Proof.
  intros Hp Hg Hb. destruct (in_prs1 p Hp) as [H1 H2]. change (p2 (-2)) with (/ 4) in Hb. change (p2 2) with 4 in Hb. pose proof (facR_ge0 p Hp) as F0.
  pose proof (bpow_gt_0 radix2 ga) as G0. unfold gate. destruct (act_Y (fst p) ltac:(lia)) as [_ A1]. destruct (act_Y (snd p) ltac:(lia)) as [_ A2].
  pose proof (Y_ge0 (fst p) ltac:(lia)) as Y1. pose proof (Y_ge0 (snd p) ltac:(lia)) as Y2.
  unfold both. destruct (@act ArithR (bR (X (fst p)))) eqn:E1; [destruct (@act ArithR (bR (X (snd p)))) eqn:E2|]; cbn [andb].
  - pose proof (proj1 A1 eq_refl) as P1. pose proof (proj1 A2 eq_refl) as P2.
    assert (@xij ArithR Y (fst p) (snd p) = facR p * (bR (X (fst p)) + bR (X (snd p)))) as ->.
    { unfold xij, fac, facR. destruct (Nat.eqb _ _); reflexivity. }
    set (u := bR (X (fst p))) in *. set (v := bR (X (snd p))) in *. set (f := facR p) in *.
    assert (0 < b * u + v) as D by nra.
    assert (/ 4 <= (u + v) / (b * u + v) <= 4) as Q.
    { split.
      - apply Rmult_le_reg_r with (b * u + v); [exact D|]. unfold Rdiv. rewrite (Rmult_assoc (u + v)), Rinv_l by lra. nra.
      - apply Rmult_le_reg_r with (b * u + v); [exact D|]. unfold Rdiv. rewrite (Rmult_assoc (u + v)), Rinv_l by lra. nra. }
    replace (f * (u + v) * gR / (b * u + v)) with (gR * ((u + v) / (b * u + v)) * f) by (field; lra).
    split; apply Rmult_le_compat_r; try exact F0; apply Rmult_le_compat; lra.
  - assert (bR (X (snd p)) = 0) as E.
    { destruct Y2 as [Y2|Y2]; [|now symmetry]. apply A2 in Y2. discriminate. }
    unfold facR. rewrite E, !Rmult_0_r. lra.
  - assert (bR (X (fst p)) = 0) as E.
    { destruct Y1 as [Y1|Y1]; [|now symmetry]. apply A1 in Y1. discriminate. }
    unfold facR. rewrite E, Rmult_0_l, !Rmult_0_r. lra.
Qed.
Lemma sum_bound g ga gb : (forall p, In p prs1 -> p2 ga * / 4 * facR p <= gate g p <= p2 gb * 4 * facR p) ->
  p2 (ga - 3) <= rsum (gate g) prs1 <= p2 (gb + 3).
Proof.
  intros H. assert (9801 / 10000 <= sumf 0 21 Y ^ 2 <= 10201 / 10000) as S2 by nra.
  pose proof (bpow_gt_0 radix2 ga). pose proof (bpow_gt_0 radix2 gb). split.
  - apply Rle_trans with (rsum (fun p => p2 ga * / 4 * facR p) prs1); [|apply rsum_le; intros; now apply H].
    rewrite rsum_scal, square. change (ga - 3)%Z with (ga + -3)%Z. rewrite bpow_plus. change (p2 (-3)) with (/ 8). nra.
  - apply Rle_trans with (rsum (fun p => p2 gb * 4 * facR p) prs1); [apply rsum_le; intros; now apply H|].
    rewrite rsum_scal, square. rewrite bpow_plus. change (p2 3) with 8. nra.
Qed.
Lemma ap_gsum gB g : (forall p, In p prs1 -> @both B X p = true -> ap 38 (-156) 66 (gB p) (g p) (g p)) ->
  ap 500 (-156) 74 (@gsum B X gB prs1 (@f0 B)) (rsum (gate g) prs1) (rsum (gate g) prs1).
Proof.
  intros H. unfold gsum. cbn [fadd ArithB64]. change 500%Z with (38 + 2 * Z.of_nat (length prs1))%Z. change 74%Z with (66 + 8)%Z.
  eapply ap_eq; [apply (ap_fold (@both B X) gB (gate g) (gate g) 38 (-156) 66 8 prs1 B0 0 0 38 0)|apply Rplus_0_l|apply Rplus_0_l]; try zc.
  - intros p Hp Hb. unfold gate. rewrite <- both_Y, Hb by exact Hp. now apply H.
  - intros p Hp Hb. unfold gate. rewrite <- both_Y, Hb by exact Hp. now split.
  - apply (ap_weak 0 (-156) (66 + 8)); [apply ap_0|lia|lia|lia].
  - rewrite Rmult_0_l. apply Rle_refl.
  - change (length prs1) with 231%nat. zc.
  - change (length prs1) with 231%nat. cbn. lia.
Qed.
Lemma vR_bd : p2 (-8) <= fst (@gred ArithR gp_new Y) <= p2 3.
Proof.
  rewrite gred_flat. cbn [fst]. rewrite gsum_R. change (@f0 ArithR) with 0. rewrite Rplus_0_l.
  apply (sum_bound _ (-5) 0). intros p Hp. destruct (aBV p Hp) as [Q1 Q2]. destruct (tab_at _ _ _ p GV_ok Hp ltac:(zc) m) as [Q3 Q4].
  exact (tbound _ _ _ _ p Hp Q4 Q2).
Qed.
Lemma tR_bd : p2 (-1) <= snd (@gred ArithR gp_new Y) <= p2 13.
Proof.
  rewrite gred_flat. cbn [snd]. rewrite gsum_R. change (@f0 ArithR) with 0. rewrite Rplus_0_l.
  apply (sum_bound _ 2 10). intros p Hp. destruct (tab_at _ _ _ p BT_ok Hp ltac:(zc) m) as [Q1 Q2]. destruct (tab_at _ _ _ p GT_ok Hp ltac:(zc) m) as [Q3 Q4].
  exact (tbound _ _ _ _ p Hp Q4 Q2).
Qed.
Lemma a_vred : ap 500 (-8) 3 (fst (@gred B gp_new X)) (fst (@gred ArithR gp_new Y)) (fst (@gred ArithR gp_new Y)).
Proof.
  eapply ap_rng; [|right; exact vR_bd]. rewrite !gred_flat. cbn [fst]. rewrite gsum_R. change (@f0 ArithR) with 0. rewrite Rplus_0_l. apply ap_gsum.
  intros p Hp Hb. destruct (aBV p Hp) as [Q1 Q2]. destruct (tab_at _ _ _ p GV_ok Hp ltac:(zc) m) as [Q3 Q4].
  exact (aterm _ _ _ _ _ _ p Q3 Q1 Q2 ltac:(lia) ltac:(lia) Hp Hb).
Qed.
Lemma a_tred : ap 500 (-1) 13 (snd (@gred B gp_new X)) (snd (@gred ArithR gp_new Y)) (snd (@gred ArithR gp_new Y)).
Proof.
  eapply ap_rng; [|right; exact tR_bd]. rewrite !gred_flat. cbn [snd]. rewrite gsum_R. change (@f0 ArithR) with 0. rewrite Rplus_0_l. apply ap_gsum.
  intros p Hp Hb. destruct (tab_at _ _ _ p BT_ok Hp ltac:(zc) m) as [Q1 Q2]. destruct (tab_at _ _ _ p GT_ok Hp ltac:(zc) m) as [Q3 Q4].
  refine (aterm _ _ _ _ _ _ p Q3 _ Q2 _ _ Hp Hb); [eapply ap_weak; [exact Q1|lia|lia|lia]|lia|lia].
Qed.
End M.
