(* The sizes of the terms of the error analysis, over the printed tables. *)
From Coq Require Import Reals ZArith List Bool Lra Lia Psatz.
From Flocq Require Import Core BinarySingleNaN.
From Verif Require Import FArith Prelude Tab ArithB64 B64Lemmas ArithR RSum SpecDetail SpecGerg SpecTables StdGerg SpecStd SpecAcc SpecAccG DetailPure GergTables GergModel GergPure GergRefine GergEval Api ApiSafe BasicProofs HistoryGerg SpecReal Thermo DetailReal DetailThermo GergReal GergIdeal GergThermo
  DetailEos GergEos StdGergProof B64Err AccFold AccMix AccEos GAccRed GAccTerms GAccEos.
Import ListNotations.
Local Open Scope R_scope.
Local Existing Instance gp_new.

Lemma lsum_rsum {T} (f : T -> R) l : lsum f l = rsum f l.
Proof. induction l as [|a l IH]; [reflexivity|]. rewrite rsum_cons, <- IH. reflexivity. Qed.
Section M.
Variable X : nat -> b64.
Variables T d : b64.
Hypothesis HX : forall i, (1 <= i < 22)%nat -> @act ArithR (bR (X i)) = false -> bR (X i) = 0.
Local Notation Y := (fun i => bR (X i)).
Local Notation a := (fun i => @act ArithR (bR (X i))).
Local Notation del := (bR d / @gdr ArithR gp_new Y).
Local Notation tau := (@gtr ArithR gp_new Y / bR T).
Local Notation M := (Mden X T T d).
Lemma pure_w i : (1 <= i < 22)%nat -> rsum M (dpure a i) = bR (X i) * lsum (pure_weight del tau) (nth i PURE []).
Proof.
  intros Hi. unfold dpure. destruct (@act ArithR (bR (X i))) eqn:E.
  2: { rewrite (HX i Hi E), Rmult_0_l. reflexivity. }
  rewrite pure_rows by exact Hi. rewrite seq_app, map_app, lsum_app, !lsum_map, !lsum_rsum, rsum_app, !rsum_map, Rmult_plus_distr_l, <- !rsum_scal.
  f_equal; apply rsum_ext; intros k Hk; apply in_seq in Hk; fold (kpol i) in *; fold (kexp i) in *.
  - destruct (exps_at i k Hi ltac:(lia)) as (E1 & E2 & E3 & E4 & E5 & E6). cbn [Mden]. unfold MP, aTPM, mrow, pure_weight.
    fold (kpol i). rewrite (proj2 (Nat.leb_le k (kpol i))) by lia. cbn [q_toik gp_new]. rewrite E1, E6, texpl_ok. unfold Rpower, lv2. rar. ring.
  - destruct (exps_at i k Hi ltac:(lia)) as (E1 & E2 & E3 & E4 & E5 & E6). cbn [Mden]. unfold ME, aTPM, mrow, pure_weight.
    fold (kpol i). rewrite (proj2 (Nat.leb_gt k (kpol i))) by lia. specialize (E4 ltac:(lia)).
    cbn [q_toik gp_new]. rewrite E1, E3, E6, texpl_ok. destruct (cexp i k) as [|c] eqn:Ec; [lia|]. unfold Rpower, lv2. rar. ring.
Qed.
Definition W i j : R := match mnumb i j with O => 0 | mm => bR (X i) * bR (X j) * Rabs (tb2 G_FIJ i j) * lsum (dep_weight del tau) (dep_rows mm) end.
Lemma mix_w i j : (1 <= i < 22)%nat -> (1 <= j < 22)%nat -> rsum M (dmix a i j) = W i j.
Proof.
  intros Hi Hj. unfold dmix, W. destruct (@act ArithR (bR (X j))) eqn:E.
  2: { rewrite (HX j Hj E). destruct (mnumb i j); [reflexivity|]. rewrite Rmult_0_r, !Rmult_0_l. reflexivity. }
  destruct (mnumb i j) as [|m'] eqn:Em; [reflexivity|].
  pose proof (mnumb_in i j (proj2 Hi) (proj2 Hj) ltac:(lia)) as Hm. rewrite Em in Hm.
  set (mm := S m') in *. change (Nat.ltb 0 mm) with true. cbv iota. assert (1 <= mm)%nat as Hm1 by (unfold mm; lia).
  assert (In mm used) as Hu. { revert Hm. unfold models, used. cbn. intuition. }
  clearbody mm. rewrite departure_rows by exact Hu.
  rewrite seq_app, map_app, lsum_app, !lsum_map, !lsum_rsum, rsum_app, !rsum_map, Rmult_plus_distr_l, <- !rsum_scal.
  f_equal; apply rsum_ext; intros k Hk; apply in_seq in Hk; fold (kpolij mm) in *; fold (kexpij mm) in *.
  - destruct (mexps_at mm k Hm ltac:(lia)) as (E1 & E2). cbn [Mden]. unfold MM, aTMM, StdGergProof.drow, dep_weight. cbv zeta. rewrite Em.
    fold (kpolij mm). rewrite (proj2 (Nat.leb_le k (kpolij mm))) by lia. cbn [nth q_tijk q_nijk gp_new]. rewrite E1. rewrite <- !celll_ok, !cell_aval.
    change (Rlit (L 0 0)) with 0. replace (- 0 * _ ^ 2 - 0 * _) with 0 by ring. rewrite exp_0. unfold Rpower, tb2, lv2. rar. ring.
  - destruct (mexps_at mm k Hm ltac:(lia)) as (E1 & E2). cbn [Mden]. unfold MX, yR, Mc, Me, StdGergProof.drow, dep_weight. cbv zeta. rewrite Em.
    fold (kpolij mm). rewrite (proj2 (Nat.leb_gt k (kpolij mm))) by lia. cbn [nth q_tijk q_nijk q_cijk q_eijk q_gijk gp_new]. rewrite E1. rewrite <- !celll_ok, !cell_aval.
    unfold Gcijk, Geijk, Ggijk. rewrite gec_in by lia. rewrite !gdelp_pow by lia. unfold f2. rar. cbn [Rlit].
    rewrite powi2. rewrite <- gec_exp. unfold Rpower, tb2, lv2. rar. rewrite exp_plus, ?cell_aval. ring.
Qed.
Lemma size_eq : 1 + rsum M (descs a) = gerg_size Y del tau.
Proof.
  unfold descs, gerg_size. rewrite rsum_app, !rsum_flat_map, <- Rplus_assoc. apply f_equal2; [apply f_equal2; [reflexivity|]|].
  - change (tot 21 (fun m => bR (X (S m)) * lsum (pure_weight del tau) (nth (S m) PURE []))) with (sumf 0 21 (fun i => bR (X i) * lsum (pure_weight del tau) (nth i PURE []))).
    rewrite sumf_rsum. apply rsum_ext. intros i Hi. apply in_seq in Hi. apply pure_w. lia.
  - transitivity (pairs1 21 W).
    + rewrite <- pairs1_rows. apply rsum_ext. intros i Hi. apply in_seq in Hi. unfold GAccTerms.drow. destruct (@act ArithR (bR (X i))) eqn:E.
      * rewrite rsum_flat_map. apply rsum_ext. intros j Hj. apply in_seq in Hj. apply mix_w; lia.
      * symmetry. rewrite (rsum_ext (W i) (fun _ => 0)); [rewrite rsum_0; reflexivity|]. intros j Hj. unfold W.
        rewrite (HX i ltac:(lia) E). destruct (mnumb i j); [reflexivity|]. rewrite !Rmult_0_l. reflexivity.
    + rewrite departs_rows, lsum_map, pairs1_allp, <- (lsum_filter _ has (allp 21)).
      * apply lsum_ext. intros p Hp. unfold dlit, W. change (mnumb (fst p) (snd p)) with (mn p).
        apply filter_In in Hp. destruct Hp as [_ Hp]. unfold has in Hp. apply negb_true_iff, Nat.eqb_neq in Hp.
        destruct (mn p) eqn:E; [lia|]. reflexivity.
      * intros p Hp. unfold has in Hp. apply negb_false_iff, Nat.eqb_eq in Hp. unfold W. change (mnumb (fst p) (snd p)) with (mn p). now rewrite Hp.
Qed.
End M.
