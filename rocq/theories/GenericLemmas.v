(* The generic lemmas restated over reachable objects and API steps. *)
From Coq Require Import ZArith List Bool.
From Verif Require Import FArith Prelude Tab Composition DetailTables DetailModel DetailPure
  DetailRefine DetailEval GergTables GergModel GergPure GergRefine GergEval Api ApiSafe SpecGeneric
  DensityProofs BasicProofs.
Import ListNotations.

Section Generic.
Context {A : Arith}.
Local Open Scope bool_scope.
Local Open Scope F_scope.
Local Opaque pressure properties gerg_pressure gerg_properties density gerg_density.

Lemma dreach_x s : dreach s -> length (d_x s) = 21%nat.
Proof. intros H. destruct (dreach_wf s H) as (P & cx & ct & W). exact (wf_x _ _ _ W). Qed.
Lemma greach_x s : greach s -> length (g_x s) = 22%nat.
Proof. intros H. destruct (greach_wf s H) as (P & c & W). exact (gw_x _ _ W). Qed.
Lemma dreach_step s o s' r : dreach s -> dstep o s = Some (s', r) -> dreach s'.
Proof. intros H E. apply (dreach_run s [o] s' [r] H). cbn [drun]. now rewrite E. Qed.
Lemma greach_step s o s' r : greach s -> gstep o s = Some (s', r) -> greach s'.
Proof. intros H E. apply (greach_run s [o] s' [r] H). cbn [grun]. now rewrite E. Qed.

Lemma dset_comp_step s c : dreach s ->
  dstep (SetComp c) s
  = Some (match comp_check c with ROk => set_d_x (fractions c) s | RErr _ => s end,
          OComp (comp_check c)).
Proof. intros H. cbn [dstep]. rewrite (dset_comp c s (dreach_x s H)). reflexivity. Qed.
Lemma gset_comp_step s c : greach s ->
  gstep (SetComp c) s
  = Some (match comp_check c with ROk => set_g_x (f0 :: fractions c) s | RErr _ => s end,
          OComp (comp_check c)).
Proof. intros H. cbn [gstep]. rewrite (gset_comp c s (greach_x s H)). reflexivity. Qed.

Lemma dmm_step s : dreach s ->
  exists s', dstep MolarMass s = Some (s', OVal (wsum (d_x s) (map flit D_MMI)))
    /\ s' = set_d_mm (wsum (d_x s) (map flit D_MMI)) s.
Proof.
  intros H. pose proof (dreach_x s H) as Hx. rewrite <- (pmm_wsum (d_x s) Hx). eexists.
  split; [|reflexivity]. cbn [dstep]. now rewrite (molar_mass_ok s Hx).
Qed.
Lemma gmm_step s : greach s ->
  gstep MolarMass s = Some (set_g_mm (wsum (tl (g_x s)) (tl (map flit G_MMI_GERG))) s, OUnit).
Proof.
  intros H. pose proof (greach_x s H) as Hx. rewrite <- (gmm_wsum (g_x s) Hx).
  cbn [gstep]. now rewrite (gmm_ok s Hx).
Qed.

Lemma dexec_some k l : exists s r, dexec k l = Some (s, r).
Proof. destruct (dexec_inv k l) as (s & r & E & _). eauto. Qed.
Lemma gexec_some k l : exists s r, gexec k l = Some (s, r).
Proof. destruct (gexec_inv k l) as (s & r & E & _). eauto. Qed.

Lemma ddens_inv i s s' r : dstep (Density i) s = Some (s', ODens r) -> density s = Some (s', r).
Proof. cbn [dstep]. destruct (density s) as [[s1 r1]|]; cbn [bind]; congruence. Qed.
Lemma gdens_inv i s s' r : gstep (Density i) s = Some (s', ODens r) ->
  gerg_density i s = Some (s', r).
Proof. cbn [gstep]. destruct (gerg_density i s) as [[s1 r1]|]; cbn [bind]; congruence. Qed.
Lemma dpress_inv s s' v : dstep Pressure s = Some (s', v) ->
  exists p, v = OVal p /\ pressure s = Some (s', p).
Proof.
  cbn [dstep]. destruct (pressure s) as [[s1 r1]|]; cbn [bind]; intros E; [|discriminate E].
  injection E as <- <-. eauto.
Qed.
Lemma gpress_inv s s' v : gstep Pressure s = Some (s', v) ->
  exists p, v = OVal p /\ gerg_pressure s = Some (s', p).
Proof.
  cbn [gstep]. destruct (gerg_pressure s) as [[s1 r1]|]; cbn [bind]; intros E; [|discriminate E].
  injection E as <- <-. eauto.
Qed.

Lemma ddens_step s i s' r : dstep (Density i) s = Some (s', ODens r) ->
  (r = RErr PressureTooLow /\ (fabs (d_p s) <? EPSILON) = true /\ s' = set_d_d f0 s)
  \/ (fabs (d_p s) <? EPSILON) = false /\
     exists n, (n <= 20)%nat /\
       dsearch (fln (d_p s)) 0 (- fln (dguess s)) (set_d_d (dguess s) s) n r s'.
Proof.
  intros E. apply ddens_inv in E. apply density_search in E.
  destruct E as [(E1 & E2 & E3)|E]; auto.
Qed.
Lemma gdens_step s i s' r : greach s -> gstep (Density i) s = Some (s', ODens r) ->
  exists q g, (q <= 50)%nat /\ (g <= 3)%nat /\
    gsearch true i (gpseudo (g_x s)) (fln (g_p s)) 0 0 false (- fln (gguess i s))
      (set_g_d (gguess i s) s) q g r s'.
Proof.
  intros H E. apply gdens_inv in E.
  exact (gdensity_search true i s s' r (or_introl eq_refl) (greach_x s H) E).
Qed.
Lemma gdens_noflag : (forall x, (x <? f0) = true -> (x <? GEPSILON) = true) ->
  forall s i s' r, greach s -> gstep (Density i) s = Some (s', ODens r) ->
  exists q g, (q <= 50)%nat /\ (g <= 3)%nat /\
    gsearch false i (gpseudo (g_x s)) (fln (g_p s)) 0 0 false (- fln (gguess i s))
      (set_g_d (gguess i s) s) q g r s'.
Proof.
  intros Hl s i s' r H E. apply gdens_inv in E.
  exact (gdensity_search false i s s' r (or_intror Hl) (greach_x s H) E).
Qed.

Lemma ddens_contract s i s' r : dreach s -> dstep (Density i) s = Some (s', ODens r) ->
  dframe [PD; PZ] s s' /\
  (r = RErr IterationFail -> d_d s' = d_p s / RDETAIL / d_t s) /\
  (r = RErr PressureTooLow <-> (fabs (d_p s) <? EPSILON) = true) /\
  (r = RErr PressureTooLow -> s' = set_d_d f0 s).
Proof.
  intros H E. destruct (dreach_wf s H) as (P & cx & ct & W). apply ddens_step in E.
  destruct E as [(-> & E2 & ->)|(E1 & n & _ & E)].
  - split; [apply dframe_set_d; now left|]. split; [discriminate|]. split; [now split|auto].
  - destruct (dsearch_frame _ _ _ _ _ _ _ E _ _ (wf_set_d _ _ _ _ W)) as [Hf Hr].
    split; [eapply dframe_trans; [apply dframe_set_d; now left|exact Hf]|].
    split; [intros Er; now apply (proj2 (Hr _ Er))|].
    split; [split|]; intros Er; [|congruence|]; now destruct (Hr _ Er).
Qed.
Lemma gdens_contract s i s' r : greach s -> (i <= 0)%Z ->
  gstep (Density i) s = Some (s', ODens r) ->
  gframe [PD; PZ] s s' /\
  (forall e, r = RErr e -> e = IterationFail /\ g_d s' = g_p s / RGERG / g_t s).
Proof.
  intros H Hi E. destruct (greach_wf s H) as (P & c & W).
  destruct (gdens_step _ _ _ _ H E) as (q & g & _ & _ & S).
  destruct (gsearch_frame _ _ _ _ _ _ _ _ _ _ _ _ _ S _ (gwf_set_d _ _ _ W)) as [Hf Hr].
  assert (Ei : gdw i = [PD; PZ]) by (unfold gdw; destruct (Z.ltb_spec 0 i); [|reflexivity]; elim (Zlt_not_le _ _ H0 Hi)).
  rewrite Ei in Hf. split; [eapply gframe_trans; [apply gframe_set_d; now left|exact Hf]|].
  intros e Ee. destruct (Hr e Ee) as [E1 E2]. auto.
Qed.
Lemma gdens_inputs s i s' r : greach s -> gstep (Density i) s = Some (s', ODens r) ->
  g_t s' = g_t s /\ g_p s' = g_p s /\ g_x s' = g_x s.
Proof.
  intros H E. destruct (greach_wf s H) as (P & c & W).
  destruct (gdens_step _ _ _ _ H E) as (q & g & _ & _ & S).
  destruct (gsearch_frame _ _ _ _ _ _ _ _ _ _ _ _ _ S _ (gwf_set_d _ _ _ W)) as [[Hx Hf] _].
  split; [|split; [|exact Hx]].
  - exact (Hf PT (gdw_t i)).
  - exact (Hf PP (gdw_p i)).
Qed.

(* the state before the last step of a successful search is reachable: it is obtained from s by
   writing d and calling pressure *)
Lemma dreach_set_d v s : dreach s -> dreach (set_d_d v s).
Proof. intros H. exact (dreach_step s (Poke PD v) _ _ H eq_refl). Qed.
Lemma greach_set_d v s : greach s -> greach (set_g_d v s).
Proof. intros H. exact (greach_step s (Poke PD v) _ _ H eq_refl). Qed.
Lemma dreach_press s s' p : dreach s -> pressure s = Some (s', p) -> dreach s'.
Proof.
  intros H E. apply (dreach_step s Pressure s' (OVal p) H). cbn [dstep]. now rewrite E.
Qed.
Lemma greach_press s s' p : greach s -> gerg_pressure s = Some (s', p) -> greach s'.
Proof.
  intros H E. apply (greach_step s Pressure s' (OVal p) H). cbn [gstep]. now rewrite E.
Qed.

Lemma dframe_press w s v s1 p : dreach s -> In PD w -> In PZ w ->
  pressure (set_d_d v s) = Some (s1, p) -> dframe w s s1 /\ d_d s1 = v.
Proof.
  intros H W1 W2 E. destruct (dreach_wf _ (dreach_set_d v s H)) as (P & cx & ct & W).
  pose proof (pressure_frame _ _ _ _ _ W E) as Hf. split.
  - eapply dframe_trans; [apply (dframe_set_d v s w W1)|].
    eapply dframe_incl; [|exact Hf]. now intros ? [<-|[]].
  - apply (proj2 Hf PD). intros [|[]]; discriminate.
Qed.
Lemma gframe_press w s v s1 p : greach s -> In PD w -> In PZ w ->
  gerg_pressure (set_g_d v s) = Some (s1, p) -> gframe w s s1 /\ g_d s1 = v.
Proof.
  intros H W1 W2 E. destruct (greach_wf _ (greach_set_d v s H)) as (P & c & W).
  pose proof (gpressure_frame _ _ _ _ W E) as Hf. split.
  - eapply gframe_trans; [apply (gframe_set_d v s w W1)|].
    eapply gframe_incl; [|exact Hf]. now intros ? [<-|[]].
  - apply (proj2 Hf PD). intros [|[]]; discriminate.
Qed.

Definition dlast plog (s s' : Detail) : Prop :=
  exists v0 s0 s1 p w,
    dreach s0 /\ dframe [PD; PZ] s s0 /\
    (flit (L (-7) 0) <=? v0) && (v0 <=? flit (L 100 0)) = true /\
    dstep Pressure (set_d_d (fexp (- v0)) s0) = Some (s1, OVal p) /\
    (d_dp_dd_save s1 <? EPSILON) = false /\ (p <? EPSILON) = false /\
    w = (fln p - plog) * p / ((- fexp (- v0)) * d_dp_dd_save s1) /\
    (fabs w <? flit (L 1 (-7))) = true /\
    s' = set_d_d (fexp (- (v0 - w))) s1.
Lemma dlast_step plog s s1 s' : dframe [PD; PZ] s s1 -> dlast plog s1 s' -> dlast plog s s'.
Proof.
  intros Hf (v0 & s0 & s2 & p & w & K1 & K2 & K). exists v0, s0, s2, p, w.
  split; [assumption|]. split; [eapply dframe_trans; eassumption|assumption].
Qed.
Lemma dsearch_reach plog k v s n r s' : dsearch plog k v s n r s' -> r = ROk -> dreach s ->
  dlast plog s s'.
Proof.
  induction 1 as [k v s Hs|k v s s1 p n r s' Hk Hv Hp He Hd IH
    |k v s s1 p w n r s' Hk Hv Hp He Hw Hc Hd IH|k v s s1 p w Hk Hv Hp He Hw Hc];
  intros Er H; [discriminate Er| | |];
  (destruct (dframe_press [PD; PZ] _ _ _ _ H (or_introl eq_refl) (or_intror (or_introl eq_refl)) Hp)
     as [Hf Ed];
   pose proof (dreach_press _ _ _ (dreach_set_d (fexp (- v)) s H) Hp) as H1).
  - eapply dlast_step; [exact Hf|]. now apply IH.
  - eapply dlast_step; [exact Hf|]. now apply IH.
  - exists v, s, s1, p, w. apply orb_false_iff in He. rewrite Ed in Hw.
    repeat apply conj; try assumption; try apply He; try reflexivity.
    cbn [dstep]. now rewrite Hp.
Qed.
Lemma ddens_last s i s' : dreach s -> dstep (Density i) s = Some (s', ODens ROk) ->
  dlast (fln (d_p s)) s s'.
Proof.
  intros H E. apply ddens_step in E. destruct E as [(E & _)|(_ & n & _ & E)]; [discriminate E|].
  eapply dlast_step; [apply (dframe_set_d (dguess s)); now left|].
  eapply dsearch_reach; [exact E|reflexivity|]. now apply dreach_set_d.
Qed.

Definition glast plog (s s' : Gerg) : Prop :=
  exists v0 s0 s1 p w,
    greach s0 /\ gframe [PD; PZ] s s0 /\
    gstep Pressure (set_g_d (fexp (- v0)) s0) = Some (s1, OVal p) /\
    (g_dpddsave s1 <? GEPSILON) = false /\ (p <? GEPSILON) = false /\
    w = (fln p - plog) * p / ((- fexp (- v0)) * g_dpddsave s1) /\
    (fabs w <? flit (L 1 (-7))) = true /\
    s' = set_g_d (fexp (- (v0 + - w))) s1.
Lemma glast_step plog s s1 s' : gframe [PD; PZ] s s1 -> glast plog s1 s' -> glast plog s s'.
Proof.
  intros Hf (v0 & s0 & s2 & p & w & K1 & K2 & K). exists v0, s0, s2, p, w.
  split; [assumption|]. split; [eapply gframe_trans; eassumption|assumption].
Qed.
Lemma gpoint_reach dcx k v b f s v1 f1 s1 : gpoint dcx k v b f s v1 f1 s1 ->
  greach s -> greach s1 /\ gframe [PD; PZ] s s1.
Proof.
  intros [Hn|s2 Hn Hl ->] H; [split; [assumption|apply gframe_refl]|].
  split; [now apply greach_set_d|apply gframe_set_d; now left].
Qed.
Lemma gsearch_reach allow i dcx plog k f b v s q g r s' :
  gsearch allow i dcx plog k f b v s q g r s' -> r = ROk -> greach s -> glast plog s s'.
Proof.
  induction 1 as [k f b v s Hs
    |k f b v s v1 f1 s1 s2 p q g r s' Hk Hp Ep He Hd IH
    |k f b v s v1 f1 s1 s2 p w q g r s' Hk Hp Ep He Hw Hc Hd IH
    |k f b v s v1 f1 s1 s2 p w q g r s' Ha Hk Hp Ep He Hw Hc Hm Hd IH
    |k f b v s v1 f1 s1 s2 p w r s' Hk Hp Ep He Hw Hc Hm Hf];
  intros Er H; [discriminate Er| | | |];
  (destruct (gpoint_reach _ _ _ _ _ _ _ _ _ Hp H) as [Hs1 Hf1];
   destruct (gframe_press [PD; PZ] _ _ _ _ Hs1 (or_introl eq_refl)
     (or_intror (or_introl eq_refl)) Ep) as [Hf2 Ed];
   pose proof (greach_press _ _ _ (greach_set_d (fexp (- v1)) s1 Hs1) Ep) as H2).
  - eapply glast_step; [exact (gframe_trans _ _ _ _ Hf1 Hf2)|]. now apply IH.
  - eapply glast_step; [exact (gframe_trans _ _ _ _ Hf1 Hf2)|]. now apply IH.
  - eapply glast_step; [exact (gframe_trans _ _ _ _ Hf1 Hf2)|]. now apply IH.
  - eapply glast_step; [exact Hf1|]. unfold gfinish in Hf.
    destruct (0 <? i)%Z.
    + subst r. apply gcheck_fails in Hf. discriminate Hf.
    + injection Hf as <- _. exists v1, s1, s2, p, w. apply orb_false_iff in He.
      rewrite Ed in Hw. repeat apply conj; try assumption; try apply He; try reflexivity.
      cbn [gstep]. now rewrite Ep.
Qed.
Lemma gdens_last s i s' : greach s -> gstep (Density i) s = Some (s', ODens ROk) ->
  glast (fln (g_p s)) s s'.
Proof.
  intros H E. destruct (gdens_step _ _ _ _ H E) as (q & g & _ & _ & S).
  eapply glast_step; [apply (gframe_set_d (gguess i s)); now left|].
  eapply gsearch_reach; [exact S|reflexivity|]. now apply greach_set_d.
Qed.

Lemma ddens_old_d s i v : (- EPSILON <? d_d s) = true -> (- EPSILON <? v) = true ->
  dstep (Density i) (dpoke PD v s) = dstep (Density i) s.
Proof. intros H1 H2. cbn [dstep dpoke]. now rewrite density_old_d. Qed.
Lemma gdens_old_d s i v : (- GEPSILON <? g_d s) = true -> (- GEPSILON <? v) = true ->
  gstep (Density i) (gpoke PD v s) = gstep (Density i) s.
Proof. intros H1 H2. cbn [gstep gpoke]. now rewrite gdensity_old_d. Qed.

Lemma dconfined s s' o : dreach s ->
  (dstep Pressure s = Some (s', o) -> dframe [PZ] s s') /\
  (dstep Properties s = Some (s', o) -> d_t s' = d_t s /\ d_d s' = d_d s /\ d_x s' = d_x s).
Proof.
  intros H. destruct (dreach_wf s H) as (P & cx & ct & W). split; intros E.
  - apply dpress_inv in E. destruct E as (p & _ & E). eapply pressure_frame; eassumption.
  - cbn [dstep] in E. rewrite (properties_ok _ _ _ W) in E. cbn [bind] in E.
    injection E as <- _. rewrite props_flat. repeat split.
Qed.
Lemma gconfined s s' o : greach s ->
  (gstep Pressure s = Some (s', o) -> gframe [PZ] s s') /\
  (gstep Properties s = Some (s', o) ->
     g_t s' = g_t s /\ g_p s' = g_p s /\ g_d s' = g_d s /\ g_x s' = g_x s).
Proof.
  intros H. destruct (greach_wf s H) as (P & c & W). split; intros E.
  - apply gpress_inv in E. destruct E as (p & _ & E). eapply gpressure_frame; eassumption.
  - cbn [gstep] in E. rewrite (gproperties_ok _ _ W) in E. cbn [bind] in E.
    injection E as <- _. rewrite gprops_flat. repeat split.
Qed.

Lemma dagain : self_same -> forall o s s' r, dreach s -> o = Pressure \/ o = Properties ->
  dstep o s = Some (s', r) -> dstep o s' = Some (s', r).
Proof.
  intros Hl o s s' r H [->| ->] E; destruct (dreach_wf s H) as (P & cx & ct & W).
  - apply dpress_inv in E. destruct E as (p & -> & E). cbn [dstep].
    now rewrite (pressure_again _ _ _ _ _ Hl W E).
  - cbn [dstep] in *. destruct (properties s) as [s1|] eqn:Ep; [|discriminate E].
    cbn [bind] in E. injection E as <- <-. now rewrite (properties_again _ _ _ _ Hl W Ep).
Qed.
Lemma gagain : self_same -> forall o s s' r, greach s -> o = Pressure \/ o = Properties ->
  gstep o s = Some (s', r) -> gstep o s' = Some (s', r).
Proof.
  intros Hl o s s' r H [->| ->] E; destruct (greach_wf s H) as (P & c & W).
  - apply gpress_inv in E. destruct E as (p & -> & E). cbn [gstep].
    now rewrite (gpressure_again _ _ _ _ Hl W E).
  - cbn [gstep] in *. destruct (gerg_properties s) as [[s1 v1]|] eqn:Ep; [|discriminate E].
    cbn [bind] in E. injection E as <- <-. now rewrite (gproperties_again _ _ _ _ Hl W Ep).
Qed.

Lemma gdens_check_fails s i s' r : greach s -> (0 < i)%Z ->
  gstep (Density i) s = Some (s', ODens r) -> r = RErr IterationFail.
Proof.
  intros H Hi E. destruct (gdens_step _ _ _ _ H E) as (q & g & _ & _ & S).
  eapply gsearch_check_fails; eassumption.
Qed.
End Generic.
