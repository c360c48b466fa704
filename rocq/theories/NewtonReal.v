(* density over the reals: the accepted step, its residual, and the round trip. *)
From Coq Require Import Reals ZArith List Bool Lra Lia.
From Coquelicot Require Import Coquelicot.
From Verif Require Import FArith Prelude Tab Composition DetailTables DetailModel DetailPure
  DetailRefine DetailEval GergTables GergModel GergPure GergRefine GergEval Api ApiSafe SpecGeneric
  SpecHistory DensityProofs BasicProofs GenericLemmas HistoryDetail HistoryGerg ArithR RSum SpecReal
  Thermo DetailReal DetailThermo GergReal GergThermo Newton.
Import ListNotations.

(* what the state of an object with a separated history looks like *)
Section Gen.
Context {A : Arith}.
Local Open Scope bool_scope.
Local Open Scope F_scope.
Local Opaque ar_of ar00 ar01 ar02 ar03 ar10 ar11 ar20 cTun cBs cCsn cK3 x_diff pa0 pmm tab
  pressure properties gerg_pressure gerg_properties gterms arT arS tab2 nxold gc_red gc_tau ga0 gmm gx_diff.

Lemma density_loop_S n plog vlog s : density_loop (S n) plog vlog s =
  if negb (vlog_ok vlog) then Some (density_fail s)
  else '(s, p2) <- pressure (set_d_d (fexp (- vlog)) s) ;;
    if (d_dp_dd_save s <? EPSILON) || (p2 <? EPSILON) then density_loop n plog (vlog + flit (L 1 (-1))) s
    else let vdiff := (fln p2 - plog) * p2 / ((- d_d s) * d_dp_dd_save s) in
      if fabs vdiff <? TOLR then Some (set_d_d (fexp (- (vlog - vdiff))) s, ROk)
      else density_loop n plog (vlog - vdiff) s.
Proof. reflexivity. Qed.
Lemma gdensity_loop_1 n iflag dcx plog vlog s : vlog_ok vlog = true ->
  gdensity_loop (S n) iflag dcx plog 1 0 false vlog s =
  '(s, p2) <- gerg_pressure (set_g_d (fexp (- vlog)) s) ;;
    if (g_dpddsave s <? GEPSILON) || (p2 <? GEPSILON) then
      gdensity_loop n iflag dcx plog 2 0 false (vlog + gvinc 1 (g_d s) dcx) s
    else let vdiff := (fln p2 - plog) * p2 / ((- g_d s) * g_dpddsave s) in
      if fabs vdiff <? TOLR then
        if g_dpddsave s <? f0 then gdensity_loop n iflag dcx plog 2 0 true (vlog + - vdiff) s
        else let s := set_g_d (fexp (- (vlog + - vdiff))) s in
          if (0 <? iflag)%Z then gdensity_check s else Some (s, ROk)
      else gdensity_loop n iflag dcx plog 2 0 false (vlog + - vdiff) s.
Proof. intros H. cbn [gdensity_loop]. rewrite H. reflexivity. Qed.

Lemma d_hinv k l l2 s r : dexec k l = Some (s, r) -> separated 0 (dasked (l ++ l2)) ->
  let V := dasked (l ++ l2) in
  @HistoryDetail.hinv _ (dpar k) V s /\ incl (asked 21 fractions (d_x s) (d_t s) l2) V /\
  (forall x t, In (x, t) V -> length x = 21%nat).
Proof.
  intros E HV V. unfold dexec in *.
  assert (HL : forall x t, In (x, t) V -> length x = 21%nat).
  { intros x t. apply HistoryDetail.asked_lengths. reflexivity. }
  assert (H0 : exists s0, dstart k = Some s0 /\ @HistoryDetail.hinv _ (dpar k) V s0
    /\ d_x s0 = repeat f0 21 /\ d_t s0 = f0).
  { destruct k; cbn [dstart dpar].
    - exists detail_fresh. split; [exact detail_new_ok|]. split; [|split; reflexivity].
      exists None, None. split; [exact wf_fresh|]. split; left; split; reflexivity.
    - exists detail_default. split; [reflexivity|]. split; [|split; reflexivity].
      exists None, None. split; [exact wf_default|]. split; left; split; reflexivity. }
  destruct H0 as (s0 & E0 & H0 & Ex0 & Et0). rewrite E0 in E. cbn [bind] in E.
  assert (Hin : incl (asked 21 fractions (d_x s0) (d_t s0) (l ++ l2)) V).
  { rewrite Ex0, Et0. apply incl_refl. }
  destruct (HistoryDetail.run_hinv V HV HL l l2 s0 s r H0 Hin E) as [Hs Hin2].
  split; [exact Hs|]. split; [exact Hin2|exact HL].
Qed.
Lemma g_hinv k l l2 s r : gexec k l = Some (s, r) -> separated 1 (gasked (l ++ l2)) ->
  let V := gasked (l ++ l2) in
  @HistoryGerg.hinv _ (gpar k) V s /\
  incl (asked 22 (fun c => f0 :: fractions c) (g_x s) (g_t s) l2) V /\
  (forall x t, In (x, t) V -> length x = 22%nat).
Proof.
  intros E HV V. unfold gexec in *.
  assert (HL : forall x t, In (x, t) V -> length x = 22%nat).
  { intros x t. apply HistoryGerg.asked_lengths. reflexivity. }
  assert (H0 : exists s0, gstart k = Some s0 /\ @HistoryGerg.hinv _ (gpar k) V s0
    /\ g_x s0 = repeat f0 22 /\ g_t s0 = f0).
  { destruct k; cbn [gstart gpar].
    - exists gerg_fresh. split; [exact gerg_new_ok|]. split; [|split; reflexivity].
      exists gc_zero. split; [exact gwf_fresh|]. left. intros i Hi. reflexivity.
    - exists gerg_default. split; [reflexivity|]. split; [|split; reflexivity].
      exists gc_zero. split; [exact gwf_default|]. left. intros i Hi. reflexivity. }
  destruct H0 as (s0 & E0 & H0 & Ex0 & Et0). rewrite E0 in E. cbn [bind] in E.
  assert (Hin : incl (asked 22 (fun c => f0 :: fractions c) (g_x s0) (g_t s0) (l ++ l2)) V).
  { rewrite Ex0, Et0. apply incl_refl. }
  destruct (HistoryGerg.run_hinv V HV HL l l2 s0 s r H0 Hin E) as [Hs Hin2].
  split; [exact Hs|]. split; [exact Hin2|exact HL].
Qed.

Section D.
Context {P : DParams}.
Variable V : list (list F * F).
Hypothesis HV : separated 0 V.
Hypothesis HL : forall x t, In (x, t) V -> length x = 21%nat.
Notation K x t := (cache_of (Some x) (Some t)).
Lemma dsearch_hist plog k v s n r s' : dsearch plog k v s n r s' -> r = ROk ->
  HistoryDetail.hinv V s -> In (d_x s, d_t s) V ->
  let d0 v := fexp (- v) in let p v := pp (K (d_x s) (d_t s)) (d_t s) (d0 v) in
  let q v := pdpdd (K (d_x s) (d_t s)) (d_t s) (d0 v) in
  exists v0 w, (flit (L (-7) 0) <=? v0) && (v0 <=? flit (L 100 0)) = true /\
    (q v0 <? EPSILON) = false /\ (p v0 <? EPSILON) = false /\
    w = (fln (p v0) - plog) * p v0 / ((- d0 v0) * q v0) /\
    (fabs w <? flit (L 1 (-7))) = true /\ d_d s' = d0 (v0 - w).
Proof.
  induction 1 as [k v s Hs|k v s s1 p n r s' Hk Hv Hp He Hd IH
    |k v s s1 p w n r s' Hk Hv Hp He Hw Hc Hd IH|k v s s1 p w Hk Hv Hp He Hw Hc];
  intros Er H Hin; [discriminate Er| | |];
  (destruct (HistoryDetail.press_hist V HV HL (set_d_d (fexp (- v)) s) (HistoryDetail.hinv_poke V PD (fexp (- v)) s H) Hin)
     as (s2 & E & H2 & Hf & _ & Ed); rewrite Hp in E; injection E as <- ->;
   assert (Ex : d_x s1 = d_x s) by apply Hf;
   assert (Et : d_t s1 = d_t s) by (apply (proj2 Hf PT); intros [|[]]; discriminate);
   assert (Edd : d_d s1 = fexp (- v)) by (apply (proj2 Hf PD); intros [|[]]; discriminate)).
  - specialize (IH Er H2). rewrite Ex, Et in IH. exact (IH Hin).
  - specialize (IH Er H2). rewrite Ex, Et in IH. exact (IH Hin).
  - cbv zeta. apply orb_false_iff in He. rewrite Ed in He, Hw. rewrite Edd in Hw.
    exists v, w. split; [exact Hv|]. split; [exact (proj1 He)|]. split; [exact (proj2 He)|].
    split; [exact Hw|]. split; [exact Hc|reflexivity].
Qed.
End D.

Section G.
Context {P : GParams}.
Variable V : list (list F * F).
Hypothesis HV : separated 1 V.
Hypothesis HL : forall x t, In (x, t) V -> length x = 22%nat.
Lemma hinv_set_gd v s : HistoryGerg.hinv V s -> HistoryGerg.hinv V (set_g_d v s).
Proof. exact (HistoryGerg.hinv_poke V PD v s). Qed.
Lemma gsearch_hist allow i dcx plog k f b v s q g r s' :
  gsearch allow i dcx plog k f b v s q g r s' -> r = ROk ->
  HistoryGerg.hinv V s -> In (g_x s, g_t s) V ->
  let d0 v := fexp (- v) in
  let l v := can_terms (g_x s) (g_t s) (d0 v) in
  let p v := gpp (l v) (g_t s) (d0 v) in
  let q v := gpdpdd (l v) (g_t s) in
  exists v0 w,
    (q v0 <? GEPSILON) = false /\ (p v0 <? GEPSILON) = false /\
    w = (fln (p v0) - plog) * p v0 / ((- d0 v0) * q v0) /\
    (fabs w <? flit (L 1 (-7))) = true /\ g_d s' = d0 (v0 + (- w)).
Proof.
  induction 1 as [k f b v s Hs
    |k f b v s v1 f1 s1 s2 p q g r s' Hk Hp Ep He Hd IH
    |k f b v s v1 f1 s1 s2 p w q g r s' Hk Hp Ep He Hw Hc Hd IH
    |k f b v s v1 f1 s1 s2 p w q g r s' Ha Hk Hp Ep He Hw Hc Hm Hd IH
    |k f b v s v1 f1 s1 s2 p w r s' Hk Hp Ep He Hw Hc Hm Hf];
  intros Er H Hin; [discriminate Er| | | |];
  (assert (H1 : HistoryGerg.hinv V s1 /\ g_x s1 = g_x s /\ g_t s1 = g_t s)
     by (destruct Hp as [Hn|s3 Hn Hl ->]; [auto|split; [now apply hinv_set_gd|split; reflexivity]]);
   destruct H1 as (H1 & Ex1 & Et1);
   assert (Hin1 : In (g_x s1, g_t s1) V) by (rewrite Ex1, Et1; exact Hin);
   destruct (HistoryGerg.press_hist V HV HL (set_g_d (fexp (- v1)) s1) (hinv_set_gd (fexp (- v1)) s1 H1) Hin1)
     as (s3 & E & H2 & Hfr & _ & Ed); rewrite Ep in E; injection E as <- ->;
   assert (Ex : g_x s2 = g_x s) by (rewrite <- Ex1; apply Hfr);
   assert (Et : g_t s2 = g_t s) by (rewrite <- Et1; apply (proj2 Hfr PT); intros [|[]]; discriminate);
   assert (Edd : g_d s2 = fexp (- v1)) by (apply (proj2 Hfr PD); intros [|[]]; discriminate)).
  - specialize (IH Er H2). rewrite Ex, Et in IH. exact (IH Hin).
  - specialize (IH Er H2). rewrite Ex, Et in IH. exact (IH Hin).
  - specialize (IH Er H2). rewrite Ex, Et in IH. exact (IH Hin).
  - cbv zeta. apply orb_false_iff in He. rewrite Ed in He, Hw. rewrite Edd in Hw.
    unfold gfinish in Hf. destruct (0 <? i)%Z.
    { subst r. apply gcheck_fails in Hf. discriminate Hf. }
    injection Hf as <- _.
    change (g_x (set_g_d (fexp (- v1)) s1)) with (g_x s1) in *.
    change (g_t (set_g_d (fexp (- v1)) s1)) with (g_t s1) in *.
    change (g_d (set_g_d (fexp (- v1)) s1)) with (fexp (- v1)) in *.
    rewrite Ex1, Et1 in He, Hw.
    exists v1, w. split; [exact (proj1 He)|]. split; [exact (proj2 He)|].
    split; [exact Hw|]. split; [exact Hc|reflexivity].
Qed.
End G.
End Gen.

Local Open Scope R_scope.
Local Existing Instance ArithR.
Local Notation GEPSILON := (@GEPSILON ArithR).
Local Notation RG := (@RGERG ArithR).
Local Notation RD := (@RDETAIL ArithR).

(* the lists of an object as functions of the slot *)
Lemma xl_nth (x : list R) : length x = 21%nat -> xl (fun j => nth j x 0) = x.
Proof.
  intros H. unfold xl. do 21 (destruct x as [|? x]; [discriminate H|]). destruct x; [reflexivity|discriminate H].
Qed.
Lemma gxl_nth (x : list R) : length x = 22%nat -> gxl (fun j => nth j x 0) = x.
Proof.
  intros H. unfold gxl. do 22 (destruct x as [|? x]; [discriminate H|]). destruct x; [reflexivity|discriminate H].
Qed.
Lemma apart0_t (t : R) : apart t f0 -> 0 < t -> 1 / 10000000 < t.
Proof.
  unfold apart, f0. rar. cbn [Rlit]. change (IZR (10 ^ 7)) with 10000000. intros H Ht.
  apply Rltb_true in H. rewrite Rminus_0_r, Rabs_right in H by lra. exact H.
Qed.

(* DETAIL: the values a separated object sees are those of a new one *)
Section D.
Variables (k : start) (x : list R) (t : R).
Hypothesis Hx : length x = 21%nat.
Hypothesis Ha : xapart 0 x (repeat f0 21).
Hypothesis Ht : 1 / 10000000 < t.
Local Notation xs := (fun j => nth j x 0).
Lemma dk_some : dk k xs t = @cache_of ArithR (dpar k) (Some x) (Some t).
Proof.
  change (dk k xs t) with (@cache_of ArithR (dpar k) (dcx xs) (Some t)). unfold dcx. rewrite xl_nth by exact Hx.
  unfold new_cx. rewrite (@HistoryDetail.xapart_diff ArithR x (repeat f0 21) Hx Ha). reflexivity.
Qed.
Lemma dpres_some d : pp (@cache_of ArithR (dpar k) (Some x) (Some t)) t d = dpres k xs t d.
Proof. rewrite dpres_ok, dk_some by exact Ht. reflexivity. Qed.
Lemma dpdd_some d : pdpdd (@cache_of ArithR (dpar k) (Some x) (Some t)) t d = dprop k PDpDd xs t d.
Proof. rewrite dprop_ok by exact Ht. cbn [dvals]. rewrite dk_some. reflexivity. Qed.
Definition d_p2 (d : R) : R :=
  (2 * @ar01 ArithR (dk k xs t) t d + 4 * @ar02 ArithR (dk k xs t) t d + @ar03 ArithR (dk k xs t) t d) / d.
Lemma d_D1 d : 0 < d -> is_derive (dpres k xs t) d (dprop k PDpDd xs t d).
Proof. intros _. apply (detail_pressure_derive k xs t d Ht). Qed.
Lemma d_D2 d : 0 < d -> is_derive (dprop k PDpDd xs t) d (d_p2 d).
Proof.
  intros Hd. assert (Ht0 : 0 < t) by lra.
  apply (is_derive_ext (fun d => RD * t + 2 * @ar01 ArithR (dk k xs t) t d + @ar02 ArithR (dk k xs t) t d)).
  { intros e. rewrite dprop_ok by assumption. reflexivity. }
  destruct (sd_dpdd k xs t d Ht0) as [c Hc].
  eapply (sd_dd (fun t d => RD * t + 2 * @ar01 ArithR (dk k xs t) t d + @ar02 ArithR (dk k xs t) t d)); [exact Hc| |lra].
  unfold d_p2. field. lra.
Qed.
End D.

Lemma d_accept k l i s r s' : dexec k l = Some (s, r) -> separated 0 (dasked (l ++ [Density i])) ->
  0 < d_t s -> dstep (Density i) s = Some (s', ODens ROk) ->
  let p := dpres k (fun j => nth j (d_x s) 0) (d_t s) in
  let f v := ln (p (exp (- v))) - ln (DetailModel.d_p s) in
  exists v0 w, -7 <= v0 <= 100 /\ 1 / 1000000000000000 <= p (exp (- v0)) /\
    1 / 1000000000000000 <= Derive p (exp (- v0)) /\
    w = f v0 / Derive f v0 /\ Rabs w < 1 / 10000000 /\ d_d s' = exp (- (v0 - w)) /\
    forall M, (forall v, Rmin v0 (v0 - w) <= v <= Rmax v0 (v0 - w) ->
                 0 < p (exp (- v)) /\ Rabs (Derive_n f 2 v) <= M) ->
      Rabs (ln (p (d_d s')) - ln (DetailModel.d_p s)) <= M / 2 * (1 / 100000000000000).
Proof.
  intros E HV Ht0 ED p f. destruct (d_hinv k l [Density i] s r E HV) as (Hh & Hin & HL).
  specialize (Hin _ (or_introl eq_refl)).
  destruct (proj2 HV _ _ Hin) as [Ha Hta]. pose proof (HL _ _ Hin) as Hx. rewrite Hx in Ha.
  pose proof (apart0_t _ Hta Ht0) as Ht. clear Hta.
  apply ddens_step in ED. destruct ED as [(ED & _)|(_ & n & _ & S)]; [discriminate ED|].
  destruct (dsearch_hist _ HV HL _ _ _ _ _ _ _ S eq_refl (HistoryDetail.hinv_poke _ PD (dguess s) s Hh) Hin)
    as (v0 & w & Hv & Hq & Hp & Hw & Hc & Hd). cbv zeta beta in *.
  change (d_x (set_d_d (dguess s) s)) with (d_x s) in *. change (d_t (set_d_d (dguess s) s)) with (d_t s) in *.
  rewrite (dpdd_some k (d_x s) (d_t s) Hx Ha Ht) in Hq, Hw.
  rewrite (dpres_some k (d_x s) (d_t s) Hx Ha Ht) in Hp, Hw.
  change (dpres k (fun j => nth j (d_x s) 0) (d_t s)) with p in Hp, Hw.
  set (q := dprop k PDpDd (fun j => nth j (d_x s) 0) (d_t s)).
  change (dprop k PDpDd (fun j => nth j (d_x s) 0) (d_t s)) with q in Hq, Hw.
  rar. cbn [Rlit] in *. change (IZR (10 ^ 7)) with 10000000 in *. change (10 ^ 0)%Z with 1%Z in *.
  rewrite lit15 in Hq, Hp.
  apply andb_true_iff in Hv. destruct Hv as [Hv1 Hv2]. apply Rleb_true in Hv1, Hv2.
  apply Rltb_false in Hq, Hp. apply Rltb_true in Hc.
  assert (Dq : Derive p (exp (- v0)) = q (exp (- v0))).
  { apply is_derive_unique. apply (d_D1 k (d_x s) (d_t s) Ht). apply exp_pos. }
  assert (P0 : 0 < p (exp (- v0))) by lra.
  assert (Df : Derive f v0 = - exp (- v0) * q (exp (- v0)) / p (exp (- v0))).
  { apply is_derive_unique. apply (fN_derive p q (d_D1 k (d_x s) (d_t s) Ht) (ln (DetailModel.d_p s)) v0 P0). }
  assert (Ew : w = f v0 / Derive f v0).
  { rewrite Df, Hw. unfold f. pose proof (exp_pos (- v0)) as X. field. lra. }
  exists v0, w. split; [lra|]. split; [exact Hp|]. split; [rewrite Dq; exact Hq|]. split; [exact Ew|].
  split; [exact Hc|]. split; [exact Hd|].
  intros M HM. rewrite Hd.
  assert (Q0 : q (exp (- v0)) <> 0) by (apply Rgt_not_eq; lra).
  exact (newton_residual p q (d_p2 k (d_x s) (d_t s)) (d_D1 k (d_x s) (d_t s) Ht) (d_D2 k (d_x s) (d_t s) Ht)
    (ln (DetailModel.d_p s)) v0 w M P0 Q0 Ew (Rlt_le _ _ Hc) HM).
Qed.

(* GERG *)
Section G.
Variables (k : start) (x : list R) (t : R).
Hypothesis Hx : length x = 22%nat.
Local Notation xs := (fun j => nth j x 0).
Hypothesis Hs : some_present xs.
Hypothesis Ht : 1 / 10000000 < t.
Lemma gpres_some d : gpp (@can_terms ArithR (gpar k) x t d) t d = gpres k xs t d.
Proof. rewrite (gpres_ok k xs Hs t d Ht). unfold gT. rewrite gxl_nth by exact Hx. reflexivity. Qed.
Lemma gpdd_some d : gpdpdd (@can_terms ArithR (gpar k) x t d) t = gprop k PDpDd xs t d.
Proof. rewrite (gprop_ok k xs Hs PDpDd t d Ht). cbn [gvals]. unfold gT. rewrite gxl_nth by exact Hx. reflexivity. Qed.
Definition g_p2 (d : R) : R :=
  (RG * t * (2 * @AR (gpar k) (gxl xs) 1 t d + 4 * @AR (gpar k) (gxl xs) 2 t d + @AR (gpar k) (gxl xs) 3 t d)) / d.
Lemma g_D1 d : 0 < d -> is_derive (gpres k xs t) d (gprop k PDpDd xs t d).
Proof.
  intros _. clear Hx. destruct Hs as (i & Hi & H).
  apply (gerg_pressure_derive k xs ltac:(exists i; split; [lia|exact H]) t d Ht).
Qed.
Lemma g_D2 d : 0 < d -> is_derive (gprop k PDpDd xs t) d (g_p2 d).
Proof.
  intros Hd. assert (Ht0 : 0 < t) by lra.
  apply (is_derive_ext (fun d => RG * t * (1 + 2 * @AR (gpar k) (gxl xs) 1 t d + @AR (gpar k) (gxl xs) 2 t d))).
  { intros e. rewrite (gprop_ok k xs Hs PDpDd t e Ht). rewrite w_dpdd. reflexivity. }
  eapply (sd_dd (fun t d => RG * t * (1 + 2 * @AR (gpar k) (gxl xs) 1 t d + @AR (gpar k) (gxl xs) 2 t d)));
    [exact (sd_gdpdd k xs Hs t d Ht0)| |lra].
  unfold g_p2. rar. field. lra.
Qed.
End G.

Lemma g_accept k l i s r s' : gexec k l = Some (s, r) -> separated 1 (gasked (l ++ [Density i])) ->
  (exists j, (1 <= j < 22)%nat /\ 1 / 10000000 < nth j (g_x s) 0) ->
  0 < g_t s -> gstep (Density i) s = Some (s', ODens ROk) ->
  let p := gpres k (fun j => nth j (g_x s) 0) (g_t s) in
  let f v := ln (p (exp (- v))) - ln (GergModel.g_p s) in
  exists v0 w, 1 / 1000000000000000 <= p (exp (- v0)) /\
    1 / 1000000000000000 <= Derive p (exp (- v0)) /\
    w = f v0 / Derive f v0 /\ Rabs w < 1 / 10000000 /\ g_d s' = exp (- (v0 - w)) /\
    forall M, (forall v, Rmin v0 (v0 - w) <= v <= Rmax v0 (v0 - w) ->
                 0 < p (exp (- v)) /\ Rabs (Derive_n f 2 v) <= M) ->
      Rabs (ln (p (g_d s')) - ln (GergModel.g_p s)) <= M / 2 * (1 / 100000000000000).
Proof.
  intros E HV Hs Ht0 ED p f. destruct (g_hinv k l [Density i] s r E HV) as (Hh & Hin & HL).
  specialize (Hin _ (or_introl eq_refl)).
  destruct (proj2 HV _ _ Hin) as [_ Hta]. pose proof (HL _ _ Hin) as Hx.
  pose proof (apart0_t _ Hta Ht0) as Ht. clear Hta.
  destruct (gdens_step s i s' ROk (ex_intro _ k (ex_intro _ l (ex_intro _ r E))) ED) as (n & g & _ & _ & S).
  destruct (gsearch_hist _ HV HL _ _ _ _ _ _ _ _ _ _ _ _ _ S eq_refl (hinv_set_gd _ (gguess i s) s Hh) Hin)
    as (v0 & w & Hq & Hp & Hw & Hc & Hd). cbv zeta beta in *.
  change (g_x (set_g_d (gguess i s) s)) with (g_x s) in *. change (g_t (set_g_d (gguess i s) s)) with (g_t s) in *.
  rewrite (gpdd_some k (g_x s) (g_t s) Hx Hs Ht) in Hq, Hw.
  rewrite (gpres_some k (g_x s) (g_t s) Hx Hs Ht) in Hp, Hw.
  change (gpres k (fun j => nth j (g_x s) 0) (g_t s)) with p in Hp, Hw.
  set (q := gprop k PDpDd (fun j => nth j (g_x s) 0) (g_t s)).
  change (gprop k PDpDd (fun j => nth j (g_x s) 0) (g_t s)) with q in Hq, Hw.
  rar. cbn [Rlit] in *. change (IZR (10 ^ 7)) with 10000000 in *.
  rewrite glit15 in Hq, Hp.
  apply Rltb_false in Hq, Hp. apply Rltb_true in Hc.
  assert (Dq : Derive p (exp (- v0)) = q (exp (- v0))).
  { apply is_derive_unique. apply (g_D1 k (g_x s) (g_t s) Hs Ht). apply exp_pos. }
  assert (P0 : 0 < p (exp (- v0))) by lra.
  assert (Df : Derive f v0 = - exp (- v0) * q (exp (- v0)) / p (exp (- v0))).
  { apply is_derive_unique. apply (fN_derive p q (g_D1 k (g_x s) (g_t s) Hs Ht) (ln (GergModel.g_p s)) v0 P0). }
  assert (Ew : w = f v0 / Derive f v0).
  { rewrite Df, Hw. unfold f. pose proof (exp_pos (- v0)) as X. field. lra. }
  exists v0, w. split; [exact Hp|]. split; [rewrite Dq; exact Hq|]. split; [exact Ew|].
  split; [exact Hc|]. split; [exact Hd|].
  intros M HM. rewrite Hd.
  assert (Q0 : q (exp (- v0)) <> 0) by (apply Rgt_not_eq; lra).
  exact (newton_residual p q (g_p2 k (g_x s) (g_t s)) (g_D1 k (g_x s) (g_t s) Hs Ht) (g_D2 k (g_x s) (g_t s) Hs Ht)
    (ln (GergModel.g_p s)) v0 w M P0 Q0 Ew (Rlt_le _ _ Hc) HM).
Qed.

(* a guess that is already the solution *)
Lemma exp_100 : exp (-100) <= 1 / 1000000000000000.
Proof.
  assert (E2 : 2 <= exp 1) by (pose proof (exp_ineq1 1 ltac:(lra)); lra).
  assert (H : forall n, 2 ^ n <= exp (INR n)).
  { induction n as [|n IH]; [cbn; rewrite exp_0; lra|]. rewrite S_INR, exp_plus. cbn [pow].
    pose proof (Rmult_le_compat 2 (exp 1) (2 ^ n) (exp (INR n)) ltac:(lra) (pow_le 2 n ltac:(lra)) E2 IH). lra. }
  specialize (H 100%nat). replace (INR 100) with 100 in H by (rewrite INR_IZR_INZ; reflexivity).
  replace (-100) with (Ropp 100) by lra. rewrite exp_Ropp.
  assert (H1 : 1000000000000000 <= 2 ^ 100).
  { change (2 ^ 100) with (2 ^ (50 + 50)). rewrite pow_add.
    assert (E : 2 ^ 50 = 1125899906842624) by (rewrite (pow_IZR 2 50); reflexivity). rewrite E. lra. }
  unfold Rdiv. rewrite Rmult_1_l. apply Rinv_le_contravar; [lra|]. exact (Rle_trans _ _ _ H1 H).
Qed.
Lemma guess_range d : 1 / 1000000000000000 <= d -> d <= exp 7 ->
  @vlog_ok ArithR (@fneg ArithR (@fln ArithR d)) = true /\ exp (- - ln d) = d.
Proof.
  intros H1 H2. split.
  - unfold vlog_ok. rar. cbn [Rlit]. change (10 ^ 0)%Z with 1%Z.
    apply andb_true_iff. split; apply Rleb_true.
    + assert (ln d <= 7); [|lra]. rewrite <- (ln_exp 7). destruct H2 as [H2| ->]; [|lra]. left. apply ln_increasing; lra.
    + assert (-100 <= ln d); [|lra]. rewrite <- (ln_exp (-100)). pose proof exp_100.
      pose proof (exp_pos (-100)).
      destruct (Rle_lt_or_eq_dec (exp (-100)) d) as [H3|H3]; [lra| |rewrite H3; lra].
      left. now apply ln_increasing.
  - rewrite Ropp_involutive. apply exp_ln. lra.
Qed.

Lemma nlt (a b : R) : b <= a -> @flt ArithR a b = false.
Proof. apply Rltb_false. Qed.
Lemma ylt (a b : R) : a < b -> @flt ArithR a b = true.
Proof. apply Rltb_true. Qed.

Ltac no := match goal with |- context [@flt ArithR ?a ?b] => rewrite (nlt a b) end.
Ltac yes := match goal with |- context [@flt ArithR ?a ?b] => rewrite (ylt a b) end.

Lemma d_roundtrip k l i s r d0 : dexec k l = Some (s, r) -> separated 0 (dasked (l ++ [Density i])) ->
  0 < d_t s -> let p := dpres k (fun j => nth j (d_x s) 0) (d_t s) in
  1 / 1000000000000000 <= d0 <= exp 7 -> d_d s = - d0 -> DetailModel.d_p s = p d0 ->
  1 / 1000000000000000 <= p d0 -> 1 / 1000000000000000 <= Derive p d0 ->
  exists s', dstep (Density i) s = Some (s', ODens ROk) /\ d_d s' = d0 /\ dframe [PD; PZ] s s'.
Proof.
  intros E HV Ht0 p Hd0 Hd Hp Hp1 Hq1.
  destruct (d_hinv k l [Density i] s r E HV) as (Hh & Hin & HL).
  specialize (Hin _ (or_introl eq_refl)).
  destruct (proj2 HV _ _ Hin) as [Ha Hta]. pose proof (HL _ _ Hin) as Hx. rewrite Hx in Ha.
  pose proof (apart0_t _ Hta Ht0) as Ht. clear Hta.
  destruct (guess_range d0 (proj1 Hd0) (proj2 Hd0)) as [Hv He].
  assert (Dq : Derive p d0 = dprop k PDpDd (fun j => nth j (d_x s) 0) (d_t s) d0).
  { apply is_derive_unique. apply (d_D1 k (d_x s) (d_t s) Ht). lra. }
  assert (G : dguess s = d0).
  { unfold dguess. rewrite Hd. no; [|rar; rewrite lit15; lra].
    rar. rewrite Rabs_Ropp, Rabs_right by lra. reflexivity. }
  cbn [dstep]. unfold density.
  no; [|rar; rewrite Hp, Rabs_right, lit15 by lra; exact Hp1].
  cbv zeta. rewrite density_start_eq, G. rewrite density_loop_S.
  change (d_d (set_d_d (d0 : @F ArithR) s)) with (d0 : @F ArithR). rewrite Hv. cbn [negb]. cbv zeta.
  change (@fexp ArithR (@fneg ArithR (@fneg ArithR (@fln ArithR d0)))) with (exp (- - ln d0)). rewrite He.
  destruct (HistoryDetail.press_hist _ HV HL (set_d_d (d0 : @F ArithR) (set_d_d (d0 : @F ArithR) s))
     (HistoryDetail.hinv_poke _ PD (d0 : @F ArithR) _ (HistoryDetail.hinv_poke _ PD (d0 : @F ArithR) s Hh)) Hin)
     as (s2 & E2 & _ & Hf & _ & Ed).
  assert (Edd : d_d s2 = d0) by (apply (proj2 Hf PD); intros [|[]]; discriminate).
  rewrite E2. cbn [bind]. clear E2.
  change (d_x (set_d_d (d0 : @F ArithR) (set_d_d (d0 : @F ArithR) s))) with (d_x s) in *. change (d_t (set_d_d (d0 : @F ArithR) (set_d_d (d0 : @F ArithR) s))) with (d_t s) in *.
  change (d_d (set_d_d (d0 : @F ArithR) (set_d_d (d0 : @F ArithR) s))) with (d0 : @F ArithR) in *.
  rewrite (dpdd_some k (d_x s) (d_t s) Hx Ha Ht) in Ed.
  rewrite (dpres_some k (d_x s) (d_t s) Hx Ha Ht). fold p. rewrite Ed, Edd.
  rewrite Dq in Hq1. no; [|rewrite lit15; exact Hq1]. no; [|rewrite lit15; exact Hp1].
  cbn [orb]. change (DetailModel.d_p (set_d_d (d0 : @F ArithR) s)) with (DetailModel.d_p s). rewrite Hp.
  set (w := @fdiv ArithR _ _).
  assert (Ew : w = 0 :> R).
  { unfold w. rar. rewrite Rminus_eq_0. unfold Rdiv. rewrite !Rmult_0_l. reflexivity. }
  yes.
  2: { rar. rewrite Ew, Rabs_R0. unfold TOLR. rar. cbn [Rlit]. change (IZR (10 ^ 7)) with 10000000. lra. }
  cbn [bind].
  assert (Ee : exp (- (- ln d0 - w)) = d0) by (rewrite Ew, Rminus_0_r; exact He).
  eexists. split; [reflexivity|]. split; [exact Ee|].
  eapply dframe_trans; [apply (dframe_set_d (d0 : @F ArithR) s); now left|].
  eapply dframe_trans; [apply (dframe_set_d (d0 : @F ArithR)); now left|].
  eapply dframe_trans; [eapply dframe_incl; [|exact Hf]|apply dframe_set_d; now left].
  intros ? [<-|[]]. right. now left.
Qed.
Lemma g_roundtrip k l i s r d0 : gexec k l = Some (s, r) -> separated 1 (gasked (l ++ [Density i])) ->
  (i <= 0)%Z -> (exists j, (1 <= j < 22)%nat /\ 1 / 10000000 < nth j (g_x s) 0) ->
  0 < g_t s -> let p := gpres k (fun j => nth j (g_x s) 0) (g_t s) in
  1 / 1000000000000000 <= d0 <= exp 7 -> g_d s = - d0 -> GergModel.g_p s = p d0 ->
  1 / 1000000000000000 <= p d0 -> 1 / 1000000000000000 <= Derive p d0 ->
  exists s', gstep (Density i) s = Some (s', ODens ROk) /\ g_d s' = d0 /\ gframe [PD; PZ] s s'.
Proof.
  intros E HV Hi Hs Ht0 p Hd0 Hd Hp Hp1 Hq1.
  destruct (g_hinv k l [Density i] s r E HV) as (Hh & Hin & HL).
  specialize (Hin _ (or_introl eq_refl)).
  destruct (proj2 HV _ _ Hin) as [_ Hta]. pose proof (HL _ _ Hin) as Hx.
  pose proof (apart0_t _ Hta Ht0) as Ht. clear Hta.
  destruct (guess_range d0 (proj1 Hd0) (proj2 Hd0)) as [Hv He].
  assert (Dq : Derive p d0 = gprop k PDpDd (fun j => nth j (g_x s) 0) (g_t s) d0).
  { apply is_derive_unique. apply (g_D1 k (g_x s) (g_t s) Hs Ht). lra. }
  assert (G : gguess i s = d0).
  { unfold gguess. rewrite Hd. no; [|rar; rewrite glit15; lra].
    rar. rewrite Rabs_Ropp, Rabs_right by lra. reflexivity. }
  cbn [gstep]. unfold gerg_density. rewrite (pcp_ok s Hx). cbn [bind].
  cbv zeta. rewrite (gdensity_start_eq i s Hx), G.
  change (g_d (set_g_d (d0 : @F ArithR) s)) with (d0 : @F ArithR).
  rewrite (gdensity_loop_1 49 _ _ _ _ _ Hv).
  change (@fexp ArithR (@fneg ArithR (@fneg ArithR (@fln ArithR d0)))) with (exp (- - ln d0)). rewrite He.
  destruct (HistoryGerg.press_hist _ HV HL (set_g_d (d0 : @F ArithR) (set_g_d (d0 : @F ArithR) s))
     (hinv_set_gd _ (d0 : @F ArithR) _ (hinv_set_gd _ (d0 : @F ArithR) s Hh)) Hin)
     as (s2 & E2 & _ & Hf & _ & Ed).
  assert (Edd : g_d s2 = d0) by (apply (proj2 Hf PD); intros [|[]]; discriminate).
  rewrite E2. cbn [bind]. clear E2.
  change (g_x (set_g_d (d0 : @F ArithR) (set_g_d (d0 : @F ArithR) s))) with (g_x s) in *.
  change (g_t (set_g_d (d0 : @F ArithR) (set_g_d (d0 : @F ArithR) s))) with (g_t s) in *.
  change (g_d (set_g_d (d0 : @F ArithR) (set_g_d (d0 : @F ArithR) s))) with (d0 : @F ArithR) in *.
  rewrite (gpdd_some k (g_x s) (g_t s) Hx Hs Ht) in Ed.
  rewrite (gpres_some k (g_x s) (g_t s) Hx Hs Ht). fold p. rewrite Ed, Edd.
  rewrite Dq in Hq1. no; [|rewrite glit15; exact Hq1]. no; [|rewrite glit15; exact Hp1].
  cbn [orb]. change (GergModel.g_p (set_g_d (d0 : @F ArithR) s)) with (GergModel.g_p s). rewrite Hp.
  set (w := @fdiv ArithR _ _). cbv zeta.
  assert (Ew : w = 0 :> R).
  { unfold w. rar. rewrite Rminus_eq_0. unfold Rdiv. rewrite !Rmult_0_l. reflexivity. }
  yes.
  2: { rar. rewrite Ew, Rabs_R0. unfold TOLR. rar. cbn [Rlit]. change (IZR (10 ^ 7)) with 10000000. lra. }
  no; [|unfold f0; rar; cbn [Rlit]; eapply Rle_trans; [|exact Hq1]; lra].
  destruct (Z.ltb_spec 0 i); [lia|]. cbn [bind].
  assert (Ee : exp (- (- ln d0 + - w)) = d0) by (rewrite Ew, Ropp_0, Rplus_0_r; exact He).
  eexists. split; [reflexivity|]. split; [exact Ee|].
  eapply gframe_trans; [apply (gframe_set_d (d0 : @F ArithR) s); now left|].
  eapply gframe_trans; [apply (gframe_set_d (d0 : @F ArithR)); now left|].
  eapply gframe_trans; [eapply gframe_incl; [|exact Hf]|apply gframe_set_d; now left].
  intros ? [<-|[]]. right. now left.
Qed.

(* the last step of any successful search, whatever the history *)
Lemma d_last_real s i s' : dreach s -> dstep (Density i) s = Some (s', ODens ROk) ->
  exists d0 s0 s1 (p q w : R), dreach s0 /\ dframe [PD; PZ] s s0 /\ exp (-100) <= d0 <= exp 7 /\
    dstep Pressure (dpoke PD (d0 : @F ArithR) s0) = Some (s1, OVal p) /\ q = d_dp_dd_save s1 /\
    1 / 1000000000000000 <= q /\ 1 / 1000000000000000 <= p /\
    Rabs w < 1 / 10000000 /\ d_d s' = d0 * exp w /\ 0 < d_d s' /\
    Rabs (ln p - ln (DetailModel.d_p s)) < 1 / 10000000 * (d0 * q / p).
Proof.
  intros H E. destruct (ddens_last s i s' H E) as (v0 & s0 & s1 & p & w & Hr & Hf & Hv & Ep & Hq & Hp & Hw & Hc & ->).
  assert (Q : 1 / 1000000000000000 <= d_dp_dd_save s1) by (rewrite <- lit15; apply Rltb_false; exact Hq).
  assert (Pp : 1 / 1000000000000000 <= p) by (rewrite <- lit15; apply Rltb_false; exact Hp).
  assert (C : Rabs w < 1 / 10000000) by (rewrite <- lit7; apply Rltb_true; exact Hc).
  set (q := d_dp_dd_save s1 : R) in Q |- *.
  assert (Ew : w = (ln p - ln (DetailModel.d_p s)) * p / (- exp (- v0) * q)) by exact Hw.
  assert (V : -7 <= v0 <= 100).
  { apply andb_true_iff in Hv. destruct Hv as [Hv1 Hv2]. rar. cbn [Rlit] in *. change (10 ^ 0)%Z with 1%Z in *.
    apply Rleb_true in Hv1, Hv2. lra. }
  pose proof (exp_pos (- v0)) as X.
  exists (exp (- v0)), s0, s1, p, q, w. split; [exact Hr|]. split; [exact Hf|].
  split.
  { split.
    - destruct (Req_dec v0 100) as [->|N]; [replace (- (100)) with (-100) by lra; lra|]. left. apply exp_increasing. lra.
    - destruct (Req_dec v0 (-7)) as [->|N]; [replace (- -7) with 7 by lra; lra|]. left. apply exp_increasing. lra. }
  split; [exact Ep|]. split; [reflexivity|]. split; [exact Q|]. split; [exact Pp|]. split; [exact C|].
  assert (Ed : exp (- (v0 - w)) = exp (- v0) * exp w).
  { rewrite <- exp_plus. f_equal. ring. }
  split; [exact Ed|]. split; [change (0 < exp (- (v0 - w))); apply exp_pos|].
  assert (El : ln p - ln (DetailModel.d_p s) = - w * (exp (- v0) * q / p)).
  { rewrite Ew. field. lra. }
  rewrite El, Rabs_mult, Rabs_Ropp.
  assert (0 < exp (- v0) * q / p) as K.
  { apply Rdiv_lt_0_compat; [apply Rmult_lt_0_compat|]; lra. }
  rewrite (Rabs_right (exp (- v0) * q / p)) by lra. now apply Rmult_lt_compat_r.
Qed.
Lemma g_last_real s i s' : greach s -> gstep (Density i) s = Some (s', ODens ROk) ->
  exists d0 s0 s1 (p q w : R), greach s0 /\ gframe [PD; PZ] s s0 /\ 0 < d0 /\
    gstep Pressure (gpoke PD (d0 : @F ArithR) s0) = Some (s1, OVal p) /\ q = g_dpddsave s1 /\
    1 / 1000000000000000 <= q /\ 1 / 1000000000000000 <= p /\
    Rabs w < 1 / 10000000 /\ g_d s' = d0 * exp w /\ 0 < g_d s' /\
    Rabs (ln p - ln (GergModel.g_p s)) < 1 / 10000000 * (d0 * q / p).
Proof.
  intros H E. destruct (gdens_last s i s' H E) as (v0 & s0 & s1 & p & w & Hr & Hf & Ep & Hq & Hp & Hw & Hc & ->).
  assert (Q : 1 / 1000000000000000 <= g_dpddsave s1) by (rewrite <- glit15; apply Rltb_false; exact Hq).
  assert (Pp : 1 / 1000000000000000 <= p) by (rewrite <- glit15; apply Rltb_false; exact Hp).
  assert (C : Rabs w < 1 / 10000000) by (rewrite <- lit7; apply Rltb_true; exact Hc).
  set (q := g_dpddsave s1 : R) in Q |- *.
  assert (Ew : w = (ln p - ln (GergModel.g_p s)) * p / (- exp (- v0) * q)) by exact Hw.
  pose proof (exp_pos (- v0)) as X.
  exists (exp (- v0)), s0, s1, p, q, w. split; [exact Hr|]. split; [exact Hf|]. split; [exact X|].
  split; [exact Ep|]. split; [reflexivity|]. split; [exact Q|]. split; [exact Pp|]. split; [exact C|].
  assert (Ed : exp (- (v0 + - w)) = exp (- v0) * exp w).
  { rewrite <- exp_plus. f_equal. ring. }
  split; [exact Ed|]. split; [change (0 < exp (- (v0 + - w))); apply exp_pos|].
  assert (El : ln p - ln (GergModel.g_p s) = - w * (exp (- v0) * q / p)).
  { rewrite Ew. field. lra. }
  rewrite El, Rabs_mult, Rabs_Ropp.
  assert (0 < exp (- v0) * q / p) as K.
  { apply Rdiv_lt_0_compat; [apply Rmult_lt_0_compat|]; lra. }
  rewrite (Rabs_right (exp (- v0) * q / p)) by lra. now apply Rmult_lt_compat_r.
Qed.
