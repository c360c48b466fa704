(* properties() of GERG-2008 in double precision after any history; relations between the reported fields. *)
From Coq Require Import Reals ZArith List Bool Lra Lia Psatz FunctionalExtensionality.
From Coquelicot Require Import Coquelicot.
From Flocq Require Import Core BinarySingleNaN.
From Verif Require Import FArith Prelude Tab ArithB64 B64Lemmas ArithR RSum SpecDetail SpecGerg SpecIdeal SpecTables StdGerg SpecStd SpecAcc SpecAccG SpecAll SpecAllF SpecHistory DetailPure GergTables GergModel GergPure GergRefine GergEval Api ApiSafe BasicProofs HistoryGerg SpecReal Thermo DetailReal DetailThermo GergReal GergIdeal GergThermo
  DetailEos GergEos Drift StdDetailProof StdGergProof NewtonReal MassReal B64Err AccFold AccMix AccEos AccProof GAccRed GAccTerms GAccEos GAccSize GAccProof AccSlope GAllCoef GAllTerms GAllSize GAllIdeal GAllIdeal2 GAllProps.
Import ListNotations.
Local Open Scope R_scope.
Local Existing Instance gp_new.

Lemma few k a b v x M : ap k a b v x M -> (0 <= k <= 90)%Z -> fin v /\ Rabs (bR v - x) <= 1 / 100000000000000 * M.
Proof.
  intros (F & E & _ & R) Hk. split; [exact F|]. eapply Rle_trans; [exact E|]. apply Rmult_le_compat_r; [exact (rng_ge0 _ _ _ R)|].
  apply Rle_trans with (90 * u64); [apply Rmult_le_compat_r; [apply Rlt_le, u_pos|apply IZR_le; lia]|rewrite u64_val; lra].
Qed.

(* molar mass *)
Section MM.
Variable m : Libm.
Local Notation B := (ArithB64 m).
Variable X : nat -> b64.
Hypothesis HX : forall i, (1 <= i < 22)%nat -> fin (X i) /\ rng (-49) 1 (bR (X i)).
Lemma amm : ap 50 (-60) 20 (@gmm B X) (@gmm ArithR (fun i => bR (X i))) (@gmm ArithR (fun i => bR (X i))).
Proof.
  assert (E : @gmm ArithR (fun i => bR (X i)) = 0 + rsum (fun i => bR (X i) * Rlit (nth i G_MMI_GERG (L 0 0))) (seq 1 21)).
  { exact (rsum_fold (fun i => bR (X i) * @lv ArithR G_MMI_GERG i) (seq 1 21) 0). }
  rewrite E. unfold gmm. change (@f0 B) with B0.
  eapply ap_weak; [apply (ap_fold (fun _ => true) (fun i => bmul (X i) (blit (nth i G_MMI_GERG (L 0 0)))) (fun i => bR (X i) * Rlit (nth i G_MMI_GERG (L 0 0))) (fun i => bR (X i) * Rlit (nth i G_MMI_GERG (L 0 0))) 4 (-48) 9 5 (seq 1 21) B0 0 0 4 0); try zc|cbn; lia|lia|lia].
  - intros i Hi _. apply in_seq in Hi. destruct (HX i ltac:(lia)) as [F Rx]. pose proof (rng_ge0 _ _ _ Rx).
    assert (ap 0 (-49) 1 (X i) (bR (X i)) (bR (X i))) as Q.
    { eapply ap_eq; [apply ap_exact; [exact F|]|reflexivity|]; rewrite Rabs_pos_eq by lra; [exact Rx|reflexivity]. }
    eapply ap_weak; [eapply ap_mul; [exact Q|apply (ap_inok _ 1 8); [apply inok_nth; exact mm_chk|zc]|zc|zc|zc|zc]|zc|zc|zc].
  - eapply ap_weak; [apply (ap_0 (-48) (9 + 5))|lia|lia|lia].
  - rewrite Rmult_0_l. apply Rle_refl.
  - rewrite seq_length. zc.
  - rewrite seq_length. zc.
Qed.
End MM.

(* the reported fields in terms of the sums *)
Definition gfield {A : Arith} {P : GParams} (l : list (nat -> F)) (X : nat -> F) (t d : F) (f : pfield) : F := match f with
  | PZ => gqz l | PMM => gmm X
  | PDpDd => gqdpdd l t | PD2pDd2 => gqd2pdd2 l t d | PD2pDtd => gqd2pdtd l
  | PDpDt => gqdpdt l d | PU => gqu l X t d
  | PH => gqh l X t d | PS => gqs l X t d
  | PCv => gqcv l X t d | PCp => gqcp l X t d
  | PW => gqw l X t d | PG => gqg l X t d
  | PJt => gqjt l X t d | PKappa => gqkappa l X t d
  | _ => f0
  end.
Lemma gfield_ok {A : Arith} {P : GParams} l X t d s f : match f with PT | PD | PP => False | _ => True end ->
  gread f (gres_st l X t d (set_g_mm (gmm X) s)) = gfield l X t d f.
Proof. destruct f; intros H; try contradiction H; reflexivity. Qed.
Section Final.
Variable m : Libm.
Hypothesis A : accurate m.
Local Notation B := (ArithB64 m).
Variables (x : nat -> b64) (t d : b64).
Local Notation r := (fun i => bR (x i)).
Hypothesis Hx : forall i, (1 <= i < 22)%nat -> fin (x i) /\ (bR (x i) = 0 \/ p2 (-49) <= bR (x i)).
Hypothesis Hs : 99 / 100 <= tot 21 (fun i => bR (x (S i))) <= 101 / 100.
Hypothesis HT : fin t /\ 32 <= bR t <= 2048.
Hypothesis Hd : fin d /\ p2 (-20) <= bR d.
Hypothesis HD : bR d * vred r <= 5 / 2.
Local Notation X := (@xf B (map x (seq 0 22))).
Local Notation Y := (fun i => bR (X i)).
Local Notation lB := (@can_terms B gp_new (map x (seq 0 22)) t d).
Local Notation lR := (@can_terms ArithR gp_new (gxl r) (bR t) (bR d)).
Local Notation delta := (bR d * vred r). Local Notation tau := (tred r / bR t).
Lemma Hd' : fin d /\ (bR d = 0 \/ p2 (-20) <= bR d). Proof. split; [apply Hd|right; apply Hd]. Qed.
Lemma HDY : bR d / @gdr ArithR gp_new Y <= 5 / 2.
Proof. rewrite (del_eq m x d Hx Hs). exact HD. Qed.
Lemma Hdd : fin d /\ p2 (-20) <= bR d <= p2 10.
Proof.
  split; [apply Hd|]. split; [apply Hd|]. destruct (ad_ m A X (HXg m x Hx Hs) (Hsg m x Hs) d Hd' HDY) as (_ & _ & _ & R). exact (rng_le _ _ _ R).
Qed.
Lemma sumY_ext e : gerg_sum e Y (bR d / @gdr ArithR gp_new Y) (@gtr ArithR gp_new Y / bR t) = gerg_sum e r delta tau.
Proof.
  rewrite (del_eq m x d Hx Hs), (gtrY m x Hx). unfold gerg_sum. apply f_equal2.
  - change (tot 21) with (sum 21). apply sum_ext. intros i Hi. now rewrite (Xg m) by lia.
  - rewrite departs_rows, !lsum_map. apply lsum_ext. intros p Hp. apply filter_In in Hp. destruct Hp as [Hp _]. unfold allp in Hp.
    apply in_flat_map in Hp. destruct Hp as (j & Hj & Hp). apply in_seq in Hj. apply in_map_iff in Hp. destruct Hp as (i & <- & Hi). apply in_seq in Hi.
    unfold dlit. cbn [fst snd]. now rewrite !(Xg m) by lia.
Qed.
Lemma aSum e : ap 790872 (-990) 409 (@arS B lB e) (@arS ArithR lR e) (gerg_sum e r delta tau).
Proof.
  pose proof (wS m A X (HXg m x Hx Hs) (Hsg m x Hs) t t d HT HT Hd' HDY e) as Q.
  rewrite (wsize X t d (inact m x Hx) e), sumY_ext in Q. rewrite <- (gX_Y m x) in Q. exact Q.
Qed.
Lemma aIdeal e : (e < 3)%nat -> ap 18400 (-700) 350 (@xf B (@ga0 B gp_new X t d) e) (@xf ArithR (@ga0 ArithR gp_new Y (bR t) (bR d)) e) (ideal_sum e r (bR t) (bR d)).
Proof.
  intros He. pose proof (aga0 m A X (HXg m x Hx Hs) t d HT Hdd (inact m x Hx) e He) as Q. cbv zeta in Q.
  eapply ap_eq; [exact Q|reflexivity|]. unfold ideal_sum. change (tot 21) with (sum 21). apply sum_ext. intros i Hi. now rewrite (Xg m) by lia.
Qed.
Lemma epsA : IZR 790910 * u64 <= 1 / 10000000000.
Proof. rewrite u64_val. lra. Qed.
Lemma good k a b v y M : ap k a b v y M -> (0 <= k <= 790910)%Z -> fin v /\ Rabs (bR v - y) <= 1 / 10000000000 * M.
Proof.
  intros (F & E & _ & R) Hk. split; [exact F|]. eapply Rle_trans; [exact E|]. apply Rmult_le_compat_r; [exact (rng_ge0 _ _ _ R)|].
  eapply Rle_trans; [|exact epsA]. apply Rmult_le_compat_r; [apply Rlt_le, u_pos|apply IZR_le; lia].
Qed.
Lemma some : some_present r.
Proof. destruct (somer x Hs) as (i & Hi & H). exists i. split; [exact Hi|lra]. Qed.
Lemma T7 : 1 / 10000000 < bR t. Proof. lra. Qed.
Local Notation fB f := (@gfield B gp_new lB X t d f).
Lemma fields f : plain_field f -> fin (fB f) /\ Rabs (bR (fB f) - gprop New f r (bR t) (bR d)) <= 1 / 10000000000 * field_size f r delta tau (bR t) (bR d).
Proof.
  intros Hf. rewrite (gprop_ok New r some f (bR t) (bR d) T7). cbn [gpar].
  pose proof aSum as HS. pose proof aIdeal as HI. pose proof Hdd as D.
  assert (EX : gX r = Y) by apply gX_Y.
  destruct f; try contradiction Hf; clear Hf; cbn [gfield gvals field_size gpar]; unfold gT; rewrite ?EX; (eapply (good 790910); [|lia]).
  - exact (fz m lB lR _ HS).
  - exact (fdpdd m lB lR _ HS t HT).
  - exact (fd2dd m lB lR _ HS t d HT D).
  - exact (fd2dt m lB lR _ HS).
  - exact (fdpdt m lB lR _ HS d D).
  - exact (fu m lB lR _ HS X _ t d HT HI).
  - exact (fh m lB lR _ HS X _ t d HT HI).
  - exact (fs m lB lR _ HS X _ t d HI).
  - exact (fcv m lB lR _ HS X _ t d HI).
  - exact (fg m lB lR _ HS X _ t d HT HI).
Qed.
Lemma pvalue : fin (@gqp B lB t d) /\ Rabs (bR (@gqp B lB t d) - gpres New r (bR t) (bR d)) <= 1 / 10000000000 * field_size PP r delta tau (bR t) (bR d).
Proof.
  rewrite (gpres_ok New r some (bR t) (bR d) T7).
  assert (E0 : gpp (gT New r (bR t) (bR d)) (bR t) (bR d) = @gqp ArithR lR (bR t) (bR d)).
  { change (bR d * @RGERG ArithR * bR t * @gqz ArithR lR = bR d * (@RGERG ArithR * bR t) * @gqz ArithR lR). ring. }
  rewrite E0. exact (good _ _ _ _ _ _ (fp m lB lR _ aSum t d HT Hdd) ltac:(lia)).
Qed.
Lemma mvalue : fin (fB PMM) /\ Rabs (bR (fB PMM) - gprop New PMM r (bR t) (bR d)) <= 1 / 100000000000000 * gprop New PMM r (bR t) (bR d).
Proof.
  rewrite (gprop_ok New r some PMM (bR t) (bR d) T7). cbn [gvals gfield]. assert (EX : gX r = Y) by apply gX_Y. rewrite EX.
  eapply few; [exact (amm m X (HXg m x Hx Hs))|lia].
Qed.
End Final.
