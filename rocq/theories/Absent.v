(* Fractions the equations of state do not see (any arithmetic). *)
From Coq Require Import ZArith List Bool Lia.
From Verif Require Import FArith Prelude Tab Composition DetailTables DetailModel DetailPure
  DetailRefine DetailEval GergTables GergModel GergPure GergRefine GergEval Api ApiSafe BasicProofs.
Import ListNotations.

Section Absent.
Context {A : Arith}.
Local Open Scope bool_scope.
Local Open Scope F_scope.

(* the three writes that give a new object its inputs, then one call *)
Definition feed (x : nat -> F) (t d : F) : list op := [SetX x; Poke PT t; Poke PD d].

Section D.
Context {P : DParams}.
Variables X Y : nat -> F.
Hypothesis HXY : forall i, (i < 21)%nat -> X i = Y i \/ (pos (X i) = false /\ pos (Y i) = false).
Lemma pos_XY i : (i < 21)%nat -> pos (X i) = pos (Y i).
Proof. intros Hi. destruct (HXY i Hi) as [->|[-> ->]]; reflexivity. Qed.
Lemma val_XY i : (i < 21)%nat -> pos (X i) = true -> X i = Y i.
Proof. intros Hi H. destruct (HXY i Hi) as [E|[E _]]; congruence. Qed.
Lemma fold_cong {T} (f g : T -> nat -> T) l : forall a,
  (forall a i, In i l -> f a i = g a i) -> fold_left f l a = fold_left g l a.
Proof.
  induction l as [|i l IH]; intros a H; [reflexivity|]. cbn [fold_left].
  rewrite (H a i) by now left. apply IH. intros. apply H. now right.
Qed.
Lemma accp_XY g h a : (forall i, (i < 21)%nat -> X i = Y i -> g i = h i) -> accp X g a = accp Y h a.
Proof.
  intros H. unfold accp. apply fold_cong. intros b i Hi. apply in_seq in Hi.
  rewrite <- pos_XY by lia. destruct (pos (X i)) eqn:E; [|reflexivity]. rewrite H; trivial; [lia|].
  apply val_XY; [lia|assumption].
Qed.
Lemma accpp_XY g a : accpp X g a = accpp Y g a.
Proof.
  unfold accpp. apply fold_cong. intros b i Hi. apply in_seq in Hi.
  rewrite <- pos_XY by lia. destruct (pos (X i)) eqn:E; [|reflexivity].
  unfold accrow. apply fold_cong. intros c j Hj. apply in_seq in Hj.
  rewrite <- pos_XY by lia. destruct (pos (X j)) eqn:E2; [|reflexivity].
  rewrite (val_XY i), (val_XY j); trivial; lia.
Qed.
Lemma pK3_XY : pK3 X = pK3 Y.
Proof.
  unfold pK3. rewrite accpp_XY, (accp_XY (fun i => X i * q_ki25 i) (fun i => Y i * q_ki25 i)); [reflexivity|].
  intros i _ ->. reflexivity.
Qed.
Lemma pU_XY : pU X = pU Y.
Proof.
  unfold pU. rewrite accpp_XY, (accp_XY (fun i => X i * q_ei25 i) (fun i => Y i * q_ei25 i)); [reflexivity|].
  intros i _ ->. reflexivity.
Qed.
Lemma pG_XY : pG X = pG Y.
Proof.
  unfold pG. rewrite accpp_XY, (accp_XY (fun i => X i * lv D_GI i) (fun i => Y i * lv D_GI i)); [reflexivity|].
  intros i _ ->. reflexivity.
Qed.
Lemma pQ_XY : pQ X = pQ Y.
Proof. unfold pQ. apply accp_XY. intros i _ ->. reflexivity. Qed.
Lemma pF_XY : pF X = pF Y.
Proof. unfold pF. apply accp_XY. intros i _ ->. reflexivity. Qed.
Lemma pBs_XY n : pBs X n = pBs Y n.
Proof.
  unfold pBs. rewrite accpp_XY. f_equal. apply accp_XY. intros i _ ->. reflexivity.
Qed.
Lemma pCsn_XY n : pCsn X n = pCsn Y n.
Proof. unfold pCsn. now rewrite pU_XY, pG_XY, pQ_XY, pF_XY. Qed.
Lemma pa0_XY t d : pa0 X t d = pa0 Y t d.
Proof.
  unfold pa0. replace (pa0sum Y t d) with (pa0sum X t d); [reflexivity|].
  unfold pa0sum. apply fold_cong. intros [[a0 a1] a2] i Hi. apply in_seq in Hi. unfold a0_step.
  rewrite <- pos_XY by lia. destruct (pos (X i)) eqn:E; [|reflexivity].
  rewrite (val_XY i); trivial. lia.
Qed.
End D.

(* values depend on the cache pointwise *)
Section K.
Context {P : DParams}.
Variables k k' : cache.
Hypotheses (E1 : ca_k3 k = ca_k3 k') (E2 : forall n, ca_bs k n = ca_bs k' n)
  (E3 : forall n, ca_csn k n = ca_csn k' n) (E4 : forall n, ca_tun k n = ca_tun k' n).
Lemma tsum0_k dred n : tsum0 k dred n = tsum0 k' dred n.
Proof. unfold tsum0. now rewrite E3, E4. Qed.
Lemma tsumb_k dred d n : tsumb k dred d n = tsumb k' dred d n.
Proof. unfold tsumb. now rewrite E2, E3, E4. Qed.
Lemma facc_cong g h : (forall n, g n = h n) -> facc g = facc h.
Proof. intros H. unfold facc. apply fold_cong. intros. now rewrite H. Qed.
Lemma fdec_cong g h : (forall n, g n = h n) -> fdec g = fdec h.
Proof. intros H. unfold fdec. apply fold_cong. intros. now rewrite H. Qed.
Lemma ar_k t d : ar00 k t d = ar00 k' t d /\ ar01 k t d = ar01 k' t d /\ ar02 k t d = ar02 k' t d
  /\ ar03 k t d = ar03 k' t d /\ ar10 k d = ar10 k' d /\ ar11 k d = ar11 k' d /\ ar20 k d = ar20 k' d.
Proof.
  unfold ar00, ar01, ar02, ar03, ar10, ar11, ar20, dr. rewrite E1.
  repeat match goal with |- _ /\ _ => split end; (apply facc_cong || apply fdec_cong); intros n;
  unfold ts0, ts1, ts2, ts3; now rewrite ?tsum0_k, ?tsumb_k.
Qed.
End K.

Section Dfin.
Variables (k : start) (x y : nat -> F) (t d : F).
Definition vis (x : nat -> F) : Prop :=
  exists i, (i < 21)%nat /\ (flit (L 1 (-7)) <? fabs (x i - f0)) = true.
Hypothesis Hv : exists i, (i < 21)%nat /\ x i = y i /\ (flit (L 1 (-7)) <? fabs (x i - f0)) = true.
Hypothesis HXY : forall i, (i < 21)%nat -> x i = y i \/ ((f0 <? x i) = false /\ (f0 <? y i) = false).
Definition lx (x : nat -> F) := map x (seq 0 21).
Lemma lx_i z i : (i < 21)%nat -> xf (lx z) i = z i.
Proof.
  intros Hi. unfold xf, lx. rewrite (nth_indep _ _ (z 0%nat)) by (rewrite map_length, seq_length; exact Hi).
  rewrite map_nth. now rewrite seq_nth.
Qed.
Definition dbaseA : Detail := match k with New => detail_fresh | Default => detail_default end.
Definition dinsA (z : nat -> F) : Detail := set_d_d d (set_d_t t (set_d_x (lx z) dbaseA)).
Lemma dinsA_wf z : @wf _ (dpar k) None None (dinsA z).
Proof.
  unfold dinsA. apply (@wf_poke _ (dpar k) PD), (@wf_poke _ (dpar k) PT), wf_set_x.
  - unfold lx. now rewrite map_length, seq_length.
  - unfold dbaseA. destruct k; [exact wf_fresh|exact wf_default].
Qed.
Lemma dinsA_run z o : dexec k (feed z t d ++ [o])
  = ('(s, r) <- dstep o (dinsA z) ;; Some (s, [OUnit; OUnit; OUnit; r])).
Proof.
  assert (E : dstart k = Some dbaseA) by (unfold dbaseA; destruct k; [exact detail_new_ok|reflexivity]).
  unfold dexec. rewrite E. unfold feed, dinsA, lx. cbn [app drun bind dstep dpoke].
  destruct (dstep o _) as [[s r]|]; reflexivity.
Qed.
Lemma xdiff_vis z i : (i < 21)%nat -> (flit (L 1 (-7)) <? fabs (z i - f0)) = true ->
  x_diff (lx z) (repeat f0 21) = true.
Proof.
  intros Hi H. unfold x_diff. apply existsb_exists. exists i. split; [apply in_seq; lia|].
  unfold differs. rewrite lx_i by assumption. unfold xf. rewrite nth_repeat. exact H.
Qed.
Lemma ncache_cx z : x_diff (lx z) (repeat f0 21) = true ->
  @ncache _ (dpar k) None None (dinsA z) = @cache_of _ (dpar k) (Some (lx z)) (new_ct t f0 None).
Proof.
  intros H. unfold ncache, ncx, nct. replace (d_xold (dinsA z)) with (repeat f0 21) by (unfold dinsA, dbaseA; now destruct k).
  replace (d_told (dinsA z)) with f0 by (unfold dinsA, dbaseA; now destruct k).
  change (d_x (dinsA z)) with (lx z). change (d_t (dinsA z)) with t. unfold new_cx. now rewrite H.
Qed.
Let Hx : x_diff (lx x) (repeat f0 21) = true.
Proof. destruct Hv as (i & Hi & _ & H). now apply (xdiff_vis x i). Qed.
Let Hy : x_diff (lx y) (repeat f0 21) = true.
Proof. destruct Hv as (i & Hi & E & H). apply (xdiff_vis y i); [assumption|now rewrite <- E]. Qed.
Let HL : forall i, (i < 21)%nat -> xf (lx x) i = xf (lx y) i \/ (pos (xf (lx x) i) = false /\ pos (xf (lx y) i) = false).
Proof. intros i Hi. rewrite !lx_i by assumption. exact (HXY i Hi). Qed.
Lemma same_ar : let k1 := @ncache _ (dpar k) None None (dinsA x) in
  let k2 := @ncache _ (dpar k) None None (dinsA y) in
  ar00 k1 t d = ar00 k2 t d /\ ar01 k1 t d = ar01 k2 t d /\ ar02 k1 t d = ar02 k2 t d
  /\ ar03 k1 t d = ar03 k2 t d /\ ar10 k1 d = ar10 k2 d /\ ar11 k1 d = ar11 k2 d /\ ar20 k1 d = ar20 k2 d.
Proof.
  cbv zeta. rewrite (ncache_cx x Hx), (ncache_cx y Hy). apply ar_k; cbn [cache_of ca_k3 ca_bs ca_csn ca_tun cK3 cBs cCsn].
  - exact (@pK3_XY (dpar k) _ _ HL).
  - exact (@pBs_XY (dpar k) _ _ HL).
  - exact (@pCsn_XY (dpar k) _ _ HL).
  - reflexivity.
Qed.
Local Opaque ar00 ar01 ar02 ar03 ar10 ar11 ar20 pa0 pmm ncache.
Lemma absent_pressure s1 o1 s2 o2 :
  dexec k (feed x t d ++ [Pressure]) = Some (s1, o1) ->
  dexec k (feed y t d ++ [Pressure]) = Some (s2, o2) ->
  o1 = o2 /\ forall f, dread f s1 = dread f s2.
Proof.
  rewrite !dinsA_run. cbn [dstep].
  rewrite (@pressure_ok _ (dpar k) _ _ _ (dinsA_wf x)), (@pressure_ok _ (dpar k) _ _ _ (dinsA_wf y)).
  cbn [bind]. intros H1 H2. injection H1 as <- <-. injection H2 as <- <-.
  destruct same_ar as (_ & R1 & R2 & _). rewrite !press_flat.
  change (d_t (dinsA x)) with t. change (d_t (dinsA y)) with t.
  change (d_d (dinsA x)) with d. change (d_d (dinsA y)) with d. split.
  - unfold pp, pz. rewrite R1. reflexivity.
  - intros f. unfold pz. rewrite R1. unfold dinsA, pflat. generalize dbaseA. intros b.
    destruct f; cbn [dread]; dsimp; reflexivity.
Qed.
Lemma absent_properties s1 o1 s2 o2 f :
  dexec k (feed x t d ++ [Properties]) = Some (s1, o1) ->
  dexec k (feed y t d ++ [Properties]) = Some (s2, o2) ->
  ~ In f [PMM; PW; PKappa] -> dread f s1 = dread f s2.
Proof.
  rewrite !dinsA_run. cbn [dstep].
  rewrite (@properties_ok _ (dpar k) _ _ _ (dinsA_wf x)), (@properties_ok _ (dpar k) _ _ _ (dinsA_wf y)).
  cbn [bind]. intros H1 H2 Hf. injection H1 as <- _. injection H2 as <- _.
  destruct same_ar as (R0 & R1 & R2 & R3 & R4 & R5 & R6).
  assert (RA : @pa0 _ (dpar k) (xf (lx x)) t d = @pa0 _ (dpar k) (xf (lx y)) t d) by exact (@pa0_XY (dpar k) _ _ HL t d).
  rewrite !props_flat. cbv zeta.
  change (d_t (dinsA x)) with t. change (d_t (dinsA y)) with t.
  change (d_d (dinsA x)) with d. change (d_d (dinsA y)) with d.
  change (d_x (dinsA x)) with (lx x). change (d_x (dinsA y)) with (lx y).
  destruct f; try (exfalso; apply Hf; cbn; tauto); cbn [dread rflat]; unfold rflat;
  cbn [d_t d_p d_d d_z d_dp_dd d_d2p_dd2 d_d2p_dtd d_dp_dt d_u d_h d_s d_cv d_cp d_g d_jt];
  unfold qjt, qcp, qg, qh, qd2pdd2, qu, qcv, qs, qa, qdpdt, qdpdd, qp, qz, qrt;
  rewrite ?R0, ?R1, ?R2, ?R3, ?R4, ?R5, ?R6, ?RA; reflexivity.
Qed.
End Dfin.

(* GERG-2008 *)
Section G.
Context {P : GParams}.
Variables X Y : nat -> F.
Hypothesis HXY : forall i, (1 <= i < 22)%nat -> X i = Y i \/ (act (X i) = false /\ act (Y i) = false).
Lemma act_XY i : (1 <= i < 22)%nat -> act (X i) = act (Y i).
Proof. intros Hi. destruct (HXY i Hi) as [->|[-> ->]]; reflexivity. Qed.
Lemma gval_XY i : (1 <= i < 22)%nat -> act (X i) = true -> X i = Y i.
Proof. intros Hi H. destruct (HXY i Hi) as [E|[E _]]; congruence. Qed.
Lemma gred_XY : gred X = gred Y.
Proof.
  unfold gred. apply fold_cong. intros st i Hi. apply in_seq in Hi. rewrite <- act_XY by lia.
  destruct (act (X i)) eqn:E; [|reflexivity]. unfold rrow. f_equal. apply fold_cong.
  intros [[vr tr] f] j Hj. apply in_seq in Hj. unfold rstep. rewrite <- act_XY by lia.
  destruct (act (X j)) eqn:E2; [|reflexivity]. rewrite (gval_XY i), (gval_XY j); trivial; lia.
Qed.
Lemma existsb_cong {T} (f g : T -> bool) l : (forall i, In i l -> f i = g i) -> existsb f l = existsb g l.
Proof.
  induction l as [|i l IH]; intros H; [reflexivity|]. cbn [existsb]. rewrite (H i) by now left.
  rewrite IH; [reflexivity|]. intros. apply H. now right.
Qed.
Lemma flat_map_cong {S T} (f g : S -> list T) l : (forall i, In i l -> f i = g i) -> flat_map f l = flat_map g l.
Proof.
  induction l as [|i l IH]; intros H; [reflexivity|]. cbn [flat_map]. rewrite (H i) by now left.
  rewrite IH; [reflexivity|]. intros. apply H. now right.
Qed.
Lemma actm_XY m : actm X m 21 = actm Y m 21.
Proof.
  unfold actm. apply existsb_cong. intros i Hi. apply in_seq in Hi. rewrite act_XY by lia. f_equal.
  unfold actrow. apply existsb_cong. intros j Hj. apply in_seq in Hj. now rewrite act_XY by lia.
Qed.
Lemma ntaup_XY l TP i k : (i < 22)%nat -> ntaup X l TP i k = ntaup Y l TP i k.
Proof.
  intros Hi. unfold ntaup. destruct (Nat.leb 1 i) eqn:E; [|reflexivity]. apply Nat.leb_le in E.
  now rewrite act_XY by lia.
Qed.
Lemma ntm_XY l TM m k : ntm X l TM m k = ntm Y l TM m k.
Proof. unfold ntm. now rewrite actm_XY. Qed.
Lemma gterms_XY del l TP TP' TM TM' : (forall i k, (i < 22)%nat -> TP i k = TP' i k) ->
  (forall m k, TM m k = TM' m k) -> gterms X del l TP TM = gterms Y del l TP' TM'.
Proof.
  intros HP HM. unfold gterms. f_equal; apply flat_map_cong; intros i Hi; apply in_seq in Hi.
  - unfold pure_terms. rewrite <- act_XY by lia. destruct (act (X i)) eqn:E; [|reflexivity].
    f_equal; apply map_ext; intros k; unfold pterm, eterm; rewrite (gval_XY i) by (trivial || lia);
    now rewrite HP by lia.
  - unfold mixrow. rewrite <- act_XY by lia. destruct (act (X i)) eqn:E; [|reflexivity].
    apply flat_map_cong. intros j Hj. apply in_seq in Hj. unfold mix_terms. rewrite <- act_XY by lia.
    destruct (act (X j)) eqn:E2; [|reflexivity]. destruct (Nat.ltb 0 (mnumb i j)); [|reflexivity].
    f_equal; apply map_ext; intros k; unfold mpterm, meterm;
    rewrite (gval_XY i), (gval_XY j) by (trivial || lia); now rewrite ?HM.
Qed.
Lemma ga0_XY t d : ga0 X t d = ga0 Y t d.
Proof.
  unfold ga0. replace (ga0sum Y t d) with (ga0sum X t d); [reflexivity|].
  unfold ga0sum. apply fold_cong. intros [[a0 a1] a2] i Hi. apply in_seq in Hi. unfold ga0_step.
  rewrite <- act_XY by lia. destruct (act (X i)) eqn:E; [|reflexivity].
  rewrite (gval_XY i) by (trivial || lia). reflexivity.
Qed.
End G.

Section Gfin.
Variables (k : start) (x y : nat -> F) (t d : F).
Hypothesis Hv : exists i, (1 <= i < 22)%nat /\ x i = y i /\ (flit (L 1 (-7)) <? fabs (x i - f0)) = true.
Hypothesis HXY : forall i, (1 <= i < 22)%nat ->
  x i = y i \/ ((GEPSILON <? x i) = false /\ (GEPSILON <? y i) = false).
Definition glx (x : nat -> F) := map x (seq 0 22).
Lemma glx_i z i : (i < 22)%nat -> xf (glx z) i = z i.
Proof.
  intros Hi. unfold xf, glx. rewrite (nth_indep _ _ (z 0%nat)) by (rewrite map_length, seq_length; exact Hi).
  rewrite map_nth. now rewrite seq_nth.
Qed.
Definition gbaseA : Gerg := match k with New => gerg_fresh | Default => gerg_default end.
Definition ginsA (z : nat -> F) : Gerg := set_g_d d (set_g_t t (set_g_x (glx z) gbaseA)).
Lemma ginsA_wf z : @gwf _ (gpar k) gc_zero (ginsA z).
Proof.
  unfold ginsA. apply (@gwf_poke _ (gpar k) PD), (@gwf_poke _ (gpar k) PT), gwf_set_x.
  - unfold glx. now rewrite map_length, seq_length.
  - unfold gbaseA. destruct k; [exact gwf_fresh|exact gwf_default].
Qed.
Lemma ginsA_run z o : gexec k (feed z t d ++ [o])
  = ('(s, r) <- gstep o (ginsA z) ;; Some (s, [OUnit; OUnit; OUnit; r])).
Proof.
  assert (E : gstart k = Some gbaseA) by (unfold gbaseA; destruct k; [exact gerg_new_ok|reflexivity]).
  unfold gexec. rewrite E. unfold feed, ginsA, glx. cbn [app grun bind gstep gpoke].
  destruct (gstep o _) as [[s r]|]; reflexivity.
Qed.
Lemma gxdiff_vis z i : (1 <= i < 22)%nat -> (flit (L 1 (-7)) <? fabs (z i - f0)) = true ->
  gx_diff (glx z) (repeat f0 22) = true.
Proof.
  intros Hi H. unfold gx_diff. apply existsb_exists. exists i. split; [apply in_seq; lia|].
  unfold differs. rewrite glx_i by lia. unfold xf. rewrite nth_repeat. exact H.
Qed.
Let Hx : gx_diff (glx x) (repeat f0 22) = true.
Proof. destruct Hv as (i & Hi & _ & H). now apply (gxdiff_vis x i). Qed.
Let Hy : gx_diff (glx y) (repeat f0 22) = true.
Proof. destruct Hv as (i & Hi & E & H). apply (gxdiff_vis y i); [assumption|now rewrite <- E]. Qed.
Let HL : forall i, (1 <= i < 22)%nat -> xf (glx x) i = xf (glx y) i \/ (act (xf (glx x) i) = false /\ act (xf (glx y) i) = false).
Proof. intros i Hi. rewrite !glx_i by lia. exact (HXY i Hi). Qed.
Lemma same_terms : @gal_terms _ (gpar k) gc_zero (ginsA x) = @gal_terms _ (gpar k) gc_zero (ginsA y).
Proof.
  unfold gal_terms, gal_cache. replace (g_xold (ginsA x)) with (repeat f0 22) by (unfold ginsA, gbaseA; now destruct k).
  replace (g_xold (ginsA y)) with (repeat f0 22) by (unfold ginsA, gbaseA; now destruct k).
  change (g_x (ginsA x)) with (glx x). change (g_x (ginsA y)) with (glx y).
  change (g_t (ginsA x)) with t. change (g_t (ginsA y)) with t.
  change (g_d (ginsA x)) with d. change (g_d (ginsA y)) with d.
  unfold gc_next. replace (@gc_red _ (gpar k) (glx x) (repeat f0 22) gc_zero)
    with (@mkGC A (@gdr _ (gpar k) (xf (glx y))) (@gtr _ (gpar k) (xf (glx y))) f0 f0 (fun _ _ => f0) (fun _ _ => f0)).
  2: { unfold gc_red. rewrite Hx. unfold gdr, gtr. now rewrite (@gred_XY (gpar k) _ _ HL). }
  replace (@gc_red _ (gpar k) (glx y) (repeat f0 22) gc_zero)
    with (@mkGC A (@gdr _ (gpar k) (xf (glx y))) (@gtr _ (gpar k) (xf (glx y))) f0 f0 (fun _ _ => f0) (fun _ _ => f0)).
  2: { unfold gc_red. now rewrite Hy. }
  generalize (@gdr _ (gpar k) (xf (glx y))) (@gtr _ (gpar k) (xf (glx y))). intros r1 r2.
  unfold gc_tau, gc_fresh. cbn [gc_told gc_tr gc_tr2 gc_dr gc_tp gc_tm]. unfold cterms.
  destruct (_ || _); cbn [gc_told gc_tr gc_tr2 gc_dr gc_tp gc_tm]; apply (gterms_XY _ _ HL); intros; trivial.
  - now apply (@ntaup_XY (gpar k) _ _ HL).
  - now apply (@ntm_XY (gpar k) _ _ HL).
Qed.
Local Opaque gterms arT arS tab2 nxold gc_red gc_tau ga0 gmm gal_terms gal_cache.
Lemma gabsent_pressure s1 o1 s2 o2 :
  gexec k (feed x t d ++ [Pressure]) = Some (s1, o1) ->
  gexec k (feed y t d ++ [Pressure]) = Some (s2, o2) ->
  o1 = o2 /\ forall f, gread f s1 = gread f s2.
Proof.
  rewrite !ginsA_run. cbn [gstep].
  rewrite (@gpressure_ok _ (gpar k) _ _ (ginsA_wf x)), (@gpressure_ok _ (gpar k) _ _ (ginsA_wf y)).
  cbn [bind]. intros H1 H2. injection H1 as <- <-. injection H2 as <- <-.
  rewrite !gpress_flat, same_terms.
  change (g_t (ginsA x)) with t. change (g_t (ginsA y)) with t.
  change (g_d (ginsA x)) with d. change (g_d (ginsA y)) with d. split; [reflexivity|].
  intros f. unfold gpflat. unfold ginsA. generalize gbaseA. intros b. destruct f; cbn [gread]; gsimp; reflexivity.
Qed.
Lemma gabsent_properties s1 o1 s2 o2 :
  gexec k (feed x t d ++ [Properties]) = Some (s1, o1) ->
  gexec k (feed y t d ++ [Properties]) = Some (s2, o2) ->
  o1 = o2 /\ forall f, ~ In f [PMM; PW; PKappa] -> gread f s1 = gread f s2.
Proof.
  rewrite !ginsA_run. cbn [gstep].
  rewrite (@gproperties_ok _ (gpar k) _ _ (ginsA_wf x)), (@gproperties_ok _ (gpar k) _ _ (ginsA_wf y)).
  cbn [bind]. intros H1 H2. injection H1 as <- <-. injection H2 as <- <-.
  assert (RA : @ga0 _ (gpar k) (xf (glx x)) t d = @ga0 _ (gpar k) (xf (glx y)) t d) by exact (@ga0_XY (gpar k) _ _ HL t d).
  rewrite !gprops_flat, same_terms. cbv zeta.
  change (g_t (ginsA x)) with t. change (g_t (ginsA y)) with t.
  change (g_d (ginsA x)) with d. change (g_d (ginsA y)) with d.
  change (g_x (ginsA x)) with (glx x). change (g_x (ginsA y)) with (glx y).
  split; [reflexivity|]. intros f Hf.
  destruct f; try (exfalso; apply Hf; cbn; tauto); cbn [gread]; unfold grflat;
  cbn [g_t g_p g_d g_z g_dp_dd g_d2p_dd2 g_d2p_dtd g_dp_dt g_u g_h g_s g_cv g_cp g_g g_jt];
  unfold gqjt, gqcp, gqg, gqh, gqd2pdd2, gqu, gqcv, gqs; rewrite ?RA; reflexivity.
Qed.
End Gfin.
End Absent.
