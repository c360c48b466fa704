(* The point at which a successful search of GERG-2008 density() stops, and its range in double precision. *)
From Coq Require Import Reals ZArith List Bool Lra Lia Psatz.
From Coquelicot Require Import Coquelicot.
From Flocq Require Import Core BinarySingleNaN.
From Interval Require Import Tactic.
From Verif Require Import FArith Prelude Tab ArithB64 B64Lemmas ArithR RSum SpecGerg SpecStd SpecAcc SpecHistory DetailModel DetailPure GergTables GergModel GergPure GergRefine GergEval
  Api ApiSafe BasicProofs DetailThermo DetailEos GenericLemmas SpecGeneric DensityProofs HistoryGerg NewtonReal Thermo DetailReal StdDetailProof GAccProof AccMix GAllFin B64Err AccFold AccDens AccDensProof.
Import ListNotations.
Local Open Scope R_scope.

Section Gen.
Context {A : Arith}.
Local Open Scope F_scope.
Local Infix "<?" := flt : F_scope.
Local Infix "<=?" := fle : F_scope.
Definition rstart (dcx v : F) : Prop := exists k, In k [f3; flit (L 25 (-1)); f2] /\ v = - fln (dcx * k).
Context {P : GParams}.
Variable V : list (list F * F).
Hypothesis HV : separated 1 V.
Hypothesis HL : forall x t, In (x, t) V -> length x = 22%nat.
Lemma gsearch_point allow i dcx plog k f b v s q g r s' :
  gsearch allow i dcx plog k f b v s q g r s' -> r = ROk ->
  HistoryGerg.hinv V s -> In (g_x s, g_t s) V ->
  let d0 v := fexp (- v) in
  let l v := can_terms (g_x s) (g_t s) (d0 v) in
  let p v := gpp (l v) (g_t s) (d0 v) in
  let q v := gpdpdd (l v) (g_t s) in
  exists v0 w, ((flit (L (-7) 0) <=? v0) && (v0 <=? flit (L 100 0)) = true \/ rstart dcx v0) /\
    (q v0 <? GEPSILON) = false /\ (p v0 <? GEPSILON) = false /\
    w = (fln (p v0) - plog) * p v0 / ((- d0 v0) * q v0) /\
    (fabs w <? flit (L 1 (-7))) = true /\ g_d s' = d0 (v0 + (- w)).
Proof.
  induction 1 as [k f b v s Hs
    |k f b v s v1 f1 s1 s2 p q g r s' Hk Hp Ep He Hd IH
    |k f b v s v1 f1 s1 s2 p w q g r s' Hk Hp Ep He Hw Hc Hd IH
    |k f b v s v1 f1 s1 s2 p w q g r s' Ha Hk Hp Ep He Hw Hc Hm Hd IH
    |k f b v s v1 f1 s1 s2 p w r s' Hk Hp Ep He Hw Hc Hm Hf];
  intros Er H Hin; [discriminate Er| | | |];
  (assert (H1 : HistoryGerg.hinv V s1 /\ g_x s1 = g_x s /\ g_t s1 = g_t s)
     by (destruct Hp as [Hn|s3 Hn Hl ->]; [auto|split; [now apply hinv_set_gd|split; reflexivity]]);
   destruct H1 as (H1 & Ex1 & Et1);
   assert (Hin1 : In (g_x s1, g_t s1) V) by (rewrite Ex1, Et1; exact Hin);
   destruct (HistoryGerg.press_hist V HV HL (set_g_d (fexp (- v1)) s1) (hinv_set_gd V (fexp (- v1)) s1 H1) Hin1)
     as (s3 & E & H2 & Hfr & _ & Ed); rewrite Ep in E; injection E as <- ->;
   assert (Ex : g_x s2 = g_x s) by (rewrite <- Ex1; apply Hfr);
   assert (Et : g_t s2 = g_t s) by (rewrite <- Et1; apply (proj2 Hfr PT); intros [|[]]; discriminate);
   assert (Edd : g_d s2 = fexp (- v1)) by (apply (proj2 Hfr PD); intros [|[]]; discriminate)).
  - specialize (IH Er H2). rewrite Ex, Et in IH. exact (IH Hin).
  - specialize (IH Er H2). rewrite Ex, Et in IH. exact (IH Hin).
  - specialize (IH Er H2). rewrite Ex, Et in IH. exact (IH Hin).
  - cbv zeta. apply orb_false_iff in He. rewrite Ed in He, Hw. rewrite Edd in Hw.
    unfold gfinish in Hf. destruct (0 <? i)%Z.
    { subst r. apply gcheck_fails in Hf. discriminate Hf. }
    injection Hf as <- _.
    change (g_x (set_g_d (fexp (- v1)) s1)) with (g_x s1) in *.
    change (g_t (set_g_d (fexp (- v1)) s1)) with (g_t s1) in *.
    change (g_d (set_g_d (fexp (- v1)) s1)) with (fexp (- v1)) in *.
    rewrite Ex1, Et1 in He, Hw.
    exists v1, w. split.
    { destruct Hp as [Hn|s3 Hn Hl ->].
      - left. unfold gmust_restart in Hn. apply orb_false_iff in Hn as [Hn _]. apply orb_false_iff in Hn as [Hn _]. apply orb_false_iff in Hn as [Hn _]. apply orb_false_iff in Hn as [Hn _].
        now apply negb_false_iff in Hn.
      - right. change (g_d (set_g_d ?a s)) with a. unfold rstart. destruct f as [|[|[|f]]]; [| | |lia]; cbn [grestart_d Nat.eqb]; eexists; (split; [|reflexivity]); cbn [In]; auto. }
    split; [exact (proj1 He)|]. split; [exact (proj2 He)|].
    split; [exact Hw|]. split; [exact Hc|reflexivity].
Qed.
End Gen.

Lemma fold_map {S T U} (f : S -> U -> S) (g : T -> U) l : forall a, fold_left f (map g l) a = fold_left (fun s i => f s (g i)) l a.
Proof. induction l as [|i l IH]; intros a; [reflexivity|apply IH]. Qed.
(* the density a restart begins with *)
Section R.
Variable m : Libm.
Hypothesis A : accurate m.
Local Notation B := (ArithB64 m).
Variable x : nat -> b64.
Hypothesis Hx : forall i, (1 <= i < 22)%nat -> fin (x i) /\ (bR (x i) = 0 \/ p2 (-49) <= bR (x i)).
Hypothesis Hs : 99 / 100 <= tot 21 (fun i => bR (x (S i))) <= 101 / 100.
Local Notation dc i := (nth i G_DC (L 0 0)).
Definition dc_ok (l : lit) : bool := inok 0 5 l && (let '(L m e) := l in Z.leb e 0 && Z.leb (10 ^ (- e)) m && Z.leb m (32 * 10 ^ (- e)))%Z.
Lemma dc_chk : forallb dc_ok (tl G_DC) = true. Proof. reflexivity. Qed.
Lemma dc_rng i : (1 <= i < 22)%nat -> inok 0 5 (dc i) = true /\ 1 <= Rlit (dc i) <= 32.
Proof.
  intros Hi. assert (dc_ok (dc i) = true) as H.
  { apply (proj1 (forallb_forall _ _) dc_chk). destruct i as [|i]; [lia|]. change (dc (S i)) with (nth i (tl G_DC) (L 0 0)). apply nth_In. change (length (tl G_DC)) with 21%nat. lia. }
  unfold dc_ok in H. apply andb_true_iff in H as [H1 H2]. split; [exact H1|]. destruct (dc i) as [a e]. apply andb_true_iff in H2 as [H2 H4]. apply andb_true_iff in H2 as [H2 H3].
  apply Z.leb_le in H2, H3, H4. destruct e as [|p|p]; [|lia|]; cbn [Rlit].
  - change (10 ^ (- 0))%Z with 1%Z in *. split; apply IZR_le; lia.
  - change (- Z.neg p)%Z with (Z.pos p) in *. apply IZR_le in H3, H4. rewrite mult_IZR in H4.
    assert (0 < IZR (10 ^ Z.pos p)) by (apply IZR_lt; now apply Z.pow_pos_nonneg).
    split; apply Rmult_le_reg_r with (IZR (10 ^ Z.pos p)); try lra; unfold Rdiv; rewrite Rmult_assoc, Rinv_l, Rmult_1_r by lra; lra.
Qed.
Definition pcv := fold_left badd (map (fun i => bdiv (x i) (blit (dc i))) (seq 1 21)) B0.
Lemma pcv_rng : fin pcv /\ 3 / 100 <= bR pcv <= 102 / 100.
Proof.
  assert (Q : ap 50 (-54) 6 pcv (0 + rsum (fun i => bR (x i) / Rlit (dc i)) (seq 1 21)) (0 + rsum (fun i => bR (x i) / Rlit (dc i)) (seq 1 21))).
  { unfold pcv. rewrite fold_map.
    eapply ap_weak; [apply (ap_fold (fun _ => true) (fun i => bdiv (x i) (blit (dc i))) (fun i => bR (x i) / Rlit (dc i)) (fun i => bR (x i) / Rlit (dc i)) 4 (-54) 1 5 (seq 1 21) B0 0 0 4 0); try zc|cbn; lia|lia|lia].
    - intros i Hi _. apply in_seq in Hi. destruct (Hx i ltac:(lia)) as [F Rx]. destruct (dc_rng i ltac:(lia)) as [D1 D2].
      assert (X0 : 0 <= bR (x i)) by exact (rg_ge0 x Hx i ltac:(lia)). assert (X1 : bR (x i) <= 101 / 100) by exact (rg_le x Hx Hs i ltac:(lia)).
      assert (ap 0 (-49) 1 (x i) (bR (x i)) (bR (x i))) as Q.
      { eapply ap_eq; [apply ap_exact; [exact F|]|reflexivity|]; rewrite Rabs_pos_eq by lra; [destruct Rx as [->|Rx]; [now left|right; split; [exact Rx|change (p2 1) with 2; lra]]|reflexivity]. }
      eapply ap_weak; [eapply ap_div; [exact Q|apply (ap_inok _ 0 5); [exact D1|zc]|lra|zc|zc|zc|zc]|zc|zc|zc].
    - eapply ap_weak; [apply (ap_0 (-54) (1 + 5))|lia|lia|lia].
    - rewrite Rmult_0_l. apply Rle_refl.
    - rewrite seq_length. zc.
    - rewrite seq_length. zc. }
  assert (G : 99 / 3200 <= rsum (fun i => bR (x i) / Rlit (dc i)) (seq 1 21) <= 101 / 100).
  { assert (E : rsum (fun i => bR (x i)) (seq 1 21) = tot 21 (fun i => bR (x (S i)))) by (rewrite <- (GergEos.sumf_rsum 0 21); reflexivity).
    assert (H : forall l, (forall i, In i l -> (1 <= i < 22)%nat) -> rsum (fun i => bR (x i)) l / 32 <= rsum (fun i => bR (x i) / Rlit (dc i)) l <= rsum (fun i => bR (x i)) l).
    { induction l as [|i l IH]; intros Hl; [unfold rsum; cbn; lra|]. assert (Ex : forall f : nat -> R, rsum f (i :: l) = f i + rsum f l) by reflexivity. rewrite !Ex.
      pose proof (IH (fun j Hj => Hl j (or_intror Hj))) as IHl. destruct (dc_rng i (Hl i (or_introl eq_refl))) as [_ D2]. pose proof (rg_ge0 x Hx i (Hl i (or_introl eq_refl))) as X0. cbv beta in X0.
      assert (bR (x i) / 32 <= bR (x i) / Rlit (dc i) <= bR (x i)); [|lra]. unfold Rdiv. split.
      - apply Rmult_le_compat_l; [exact X0|]. apply Rinv_le_contravar; lra.
      - rewrite <- (Rmult_1_r (bR (x i))) at 2. apply Rmult_le_compat_l; [exact X0|]. rewrite <- Rinv_1. apply Rinv_le_contravar; lra. }
    specialize (H (seq 1 21) ltac:(intros i Hi; apply in_seq in Hi; lia)). rewrite E in H. lra. }
  destruct Q as (F & E & _ & _). set (S := rsum _ _) in *. split; [exact F|]. apply Rabs_le_inv in E. rewrite u64_val in E. lra.
Qed.
Lemma gpseudo_eq : @gpseudo B (map x (seq 0 22)) = if Bltb (blit (L 1 (-15))) pcv then bdiv (@f1 B) pcv else B0.
Proof.
  unfold gpseudo, pcv. rewrite fold_map.
  assert (E : combine (tl (map x (seq 0 22))) (tl (map (@flit B) G_DC)) = map (fun i => (x i, blit (dc i))) (seq 1 21)) by reflexivity.
  change (@F B) with b64 in *. rewrite E, fold_map. reflexivity.
Qed.
Lemma rstart_rng v : @rstart B (@gpseudo B (map x (seq 0 22))) v -> fin v /\ -7 <= bR v <= 100.
Proof.
  intros (k & Hk & ->). destruct pcv_rng as [Fp Hp]. rewrite gpseudo_eq.
  rewrite lt_fin by (exact Fp || reflexivity). rewrite Rlt_bool_true.
  2: { destruct (lit_err (L 1 (-15)) (-50) (-49) eq_refl ltac:(zc)) as [L1 L2]. change (Rlit (L 1 (-15))) with (@DetailModel.EPSILON ArithR) in L2. rewrite lit15 in L2.
    rewrite (Rabs_pos_eq (1 / 1000000000000000)) in L2 by lra. apply Rabs_le_inv in L2. rewrite u64_val in L2. lra. }
  assert (P1 : ap 0 (-6) 1 pcv (bR pcv) (bR pcv)).
  { apply ap_big; [exact Fp|rewrite Rabs_pos_eq; lra|right; change (p2 (-6)) with (/ 64); change (p2 1) with 2; lra]. }
  pose proof (ap_div _ _ _ _ _ _ _ _ _ _ _ (a1 m) P1 ltac:(lra) ltac:(zc) ltac:(zc) ltac:(zc) ltac:(zc)) as Q1.
  assert (K : exists kr, ap 1 1 2 k kr kr /\ 2 <= kr <= 3).
  { assert (G : forall l, inok 1 2 l = true -> 2 <= Rlit l <= 3 -> k = blit l -> exists kr, ap 1 1 2 k kr kr /\ 2 <= kr <= 3).
    { intros l H1 H2 ->. exists (Rlit l). split; [apply ap_inok; [exact H1|zc]|exact H2]. }
    destruct Hk as [<-|[<-|[<-|[]]]]; [apply (G (L 3 0))|apply (G (L 25 (-1)))|apply (G (L 2 0))]; try reflexivity; cbn; lra. }
  destruct K as (kr & K1 & K2).
  pose proof (ap_mul _ _ _ _ _ _ _ _ _ _ _ _ Q1 K1 ltac:(zc) ltac:(zc) ltac:(zc) ltac:(zc)) as Q2.
  change (@fmul B ?a ?b) with (bmul a b). set (y := bmul (bdiv (@f1 B) pcv) k) in *. set (z := 1 / bR pcv * kr) in *.
  assert (I1 : 1 / (102 / 100) <= 1 / bR pcv <= 1 / (3 / 100)). { unfold Rdiv. split; apply Rmult_le_compat_l; try lra; apply Rinv_le_contravar; lra. }
  assert (Z : 1 <= z <= 101) by (unfold z; split; nra).
  destruct Q2 as (Fy & Ey & _ & _). apply Rabs_le_inv in Ey. rewrite u64_val in Ey.
  match type of Ey with context [IZR ?k] => let k' := eval vm_compute in k in change (IZR k) with (IZR k') in Ey end.
  assert (Y : 9 / 10 <= bR y <= 102) by lra.
  assert (LY : -1 <= ln (bR y) <= 5).
  { split; [apply Rle_trans with (ln (9 / 10)); [interval|apply ln_mono; lra]|apply Rle_trans with (ln 102); [apply ln_mono; lra|interval]]. }
  destruct (ap_ln m A y Fy ltac:(lra) ltac:(apply Rabs_le; lra)) as (Fl & El & _ & _).
  assert (AL : Rabs (ln (bR y)) <= 5) by (apply Rabs_le; lra). rewrite u64_val in El. apply Rabs_le_inv in El.
  change (@fneg B (@fln B y)) with (Bopp (lm_ln m y)). split; [unfold fin; now rewrite is_finite_Bopp|].
  unfold bR. rewrite B2R_Bopp. fold (bR (lm_ln m y)). lra.
Qed.
End R.
