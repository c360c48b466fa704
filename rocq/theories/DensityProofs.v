(* density: the search relations, frames, the dead restart flag, the phase check. *)
From Coq Require Import ZArith List Bool Lia.
From Verif Require Import FArith Prelude Tab Composition DetailTables DetailModel DetailPure
  DetailRefine DetailEval GergTables GergModel GergPure GergRefine GergEval Api ApiSafe SpecGeneric.
Import ListNotations.

Section Dens.
Context {A : Arith}.
Local Open Scope bool_scope.
Local Open Scope F_scope.
Local Opaque tab seq pressure gerg_pressure gerg_properties gvinc grestart_d fln fexp.

(* DETAIL: the loop is the search *)
Lemma dloop_search plog n : forall k v s s' r, (k + n = 20)%nat ->
  density_loop n plog v s = Some (s', r) ->
  exists m, (k <= m <= 20)%nat /\ dsearch plog k v s m r s'.
Proof.
  induction n as [|n IH]; intros k v s s' r Hk H; cbn [density_loop] in H.
  - unfold density_fail in H. injection H as <- <-. exists k. split; [lia|].
    apply ds_stop. left. lia.
  - unfold vlog_ok in H.
    destruct ((flit (L (-7) 0) <=? v) && (v <=? flit (L 100 0))) eqn:E; cbn [negb] in H.
    2:{ unfold density_fail in H. injection H as <- <-. exists k. split; [lia|].
        apply ds_stop. now right. }
    cbv zeta in H.
    destruct (pressure (set_d_d (fexp (- v)) s)) as [[s1 p]|] eqn:Ep; [|discriminate H].
    cbn [bind] in H.
    destruct ((d_dp_dd_save s1 <? EPSILON) || (p <? EPSILON)) eqn:E1.
    + apply (IH (S k)) in H; [|lia]. destruct H as (m & Hm & H). exists m. split; [lia|].
      eapply ds_back; eauto; lia.
    + unfold TOLR in H.
      destruct (fabs ((fln p - plog) * p / (- d_d s1 * d_dp_dd_save s1)) <? flit (L 1 (-7))) eqn:E2.
      * injection H as <- <-. exists (S k). split; [lia|].
        eapply ds_done; eauto; lia.
      * apply (IH (S k)) in H; [|lia]. destruct H as (m & Hm & H). exists m. split; [lia|].
        eapply ds_newton; eauto; lia.
Qed.

Lemma density_start_eq s : density_start s = set_d_d (dguess s) s.
Proof. unfold density_start, dguess. now destruct (_ >? _). Qed.

Lemma density_search s s' r : density s = Some (s', r) ->
  ((fabs (d_p s) <? EPSILON) = true /\ r = RErr PressureTooLow /\ s' = set_d_d f0 s)
  \/ ((fabs (d_p s) <? EPSILON) = false /\
      exists n, (n <= 20)%nat /\
        dsearch (fln (d_p s)) 0 (- fln (dguess s)) (set_d_d (dguess s) s) n r s').
Proof.
  unfold density. destruct (fabs (d_p s) <? EPSILON) eqn:E.
  - intros H. injection H as <- <-. left. auto.
  - cbv zeta. rewrite density_start_eq. intros H. right. split; [reflexivity|].
    apply (dloop_search _ _ 0%nat) in H; [|reflexivity]. destruct H as (m & Hm & H).
    exists m. split; [lia|]. exact H.
Qed.

(* GERG: the loop is the search *)
Definition notneg : Prop := forall x : F, (x <? f0) = true -> (x <? GEPSILON) = true.

Lemma gloop_search allow iflag dcx plog n : (allow = true \/ notneg) ->
  forall k f b v s s' r, (k + n = 50)%nat -> (f <= 3)%nat ->
  gdensity_loop n iflag dcx plog (S k) f b v s = Some (s', r) ->
  exists q g, (k <= q <= 50)%nat /\ (f <= g <= 3)%nat /\
    gsearch allow iflag dcx plog k f b v s q g r s'.
Proof.
  intros Hallow.
  induction n as [|n IH]; intros k f b v s s' r Hk Hf H; cbn [gdensity_loop] in H.
  - unfold gdensity_fail in H. injection H as <- <-. exists k, f. do 2 (split; [lia|]).
    apply gs_stop. left. lia.
  - assert (Hstep : forall v1 f1 s1, gpoint dcx k v b f s v1 f1 s1 -> (f <= f1 <= 3)%nat ->
      gdensity_step iflag dcx plog (S k) false v1 s1
        (fun ifail vlog s => gdensity_loop n iflag dcx plog (S (S k)) f1 ifail vlog s)
      = Some (s', r) ->
      exists q g, (k <= q <= 50)%nat /\ (f <= g <= 3)%nat /\
        gsearch allow iflag dcx plog k f b v s q g r s').
    { intros v1 f1 s1 Hp Hf1 H1. unfold gdensity_step in H1. cbv zeta in H1.
      destruct (gerg_pressure (set_g_d (fexp (- v1)) s1)) as [[s2 p]|] eqn:Ep; [|discriminate H1].
      cbn [bind] in H1.
      destruct ((g_dpddsave s2 <? GEPSILON) || (p <? GEPSILON)) eqn:E1.
      - apply (IH (S k)) in H1; [|lia|lia]. destruct H1 as (q & g & Hq & Hg & H1).
        exists q, g. do 2 (split; [lia|]). eapply gs_back; eauto; lia.
      - unfold TOLR in H1.
        destruct (fabs ((fln p - plog) * p / (- g_d s2 * g_dpddsave s2)) <? flit (L 1 (-7))) eqn:E2.
        + destruct (g_dpddsave s2 <? f0) eqn:E3.
          * destruct Hallow as [Ha|Ha].
            2:{ apply Ha in E3. rewrite E3 in E1. discriminate E1. }
            apply (IH (S k)) in H1; [|lia|lia]. destruct H1 as (q & g & Hq & Hg & H1).
            exists q, g. do 2 (split; [lia|]). eapply gs_flag; eauto; lia.
          * exists (S k), f1. do 2 (split; [lia|]). eapply gs_done; eauto; lia.
        + apply (IH (S k)) in H1; [|lia|lia]. destruct H1 as (q & g & Hq & Hg & H1).
          exists q, g. do 2 (split; [lia|]). eapply gs_newton; eauto; lia. }
    change (negb (vlog_ok v) || Nat.eqb (S k) 20 || Nat.eqb (S k) 30 || Nat.eqb (S k) 40 || b)
      with (gmust_restart k v b) in H.
    destruct (gmust_restart k v b) eqn:E.
    + destruct (Nat.ltb_spec 2 f) as [Hl|Hl].
      * unfold gdensity_fail in H. injection H as <- <-. exists k, f. do 2 (split; [lia|]).
        apply gs_stop. right. split; [assumption|lia].
      * cbv zeta in H. eapply Hstep; [| |exact H]; [|lia].
        apply gp_restart; [assumption|lia|reflexivity].
    + assert (b = false) as ->.
      { unfold gmust_restart in E. apply orb_false_iff in E. apply E. }
      eapply Hstep; [| |exact H]; [|lia]. now apply gp_go.
Qed.

Lemma gdcx_eq x : length x = 22%nat -> gdcx (xf x) = gpseudo x.
Proof.
  intros Hx. unfold gdcx, gpseudo.
  assert (E : snd (gpc (xf x))
    = fold_left (fun a p => a + fst p / snd p) (combine (tl x) (tl (map flit G_DC))) f0);
    [|rewrite E; reflexivity].
  do 22 (destruct x as [|? x]; [discriminate Hx|]). destruct x; [|discriminate Hx].
  Local Transparent seq. reflexivity. Local Opaque seq.
Qed.
Lemma gdensity_start_eq iflag s : length (g_x s) = 22%nat ->
  gdensity_start iflag (gdcx (xf (g_x s))) s = set_g_d (gguess iflag s) s.
Proof.
  intros Hx. rewrite (gdcx_eq _ Hx). unfold gdensity_start, gguess.
  destruct (_ >? _); [|reflexivity].
  cbv zeta. destruct (iflag =? 2)%Z; [|reflexivity]. destruct s; reflexivity.
Qed.

Lemma gdensity_search allow iflag s s' r : (allow = true \/ notneg) ->
  length (g_x s) = 22%nat -> gerg_density iflag s = Some (s', r) ->
  exists q g, (q <= 50)%nat /\ (g <= 3)%nat /\
    gsearch allow iflag (gpseudo (g_x s)) (fln (g_p s)) 0 0 false (- fln (gguess iflag s))
      (set_g_d (gguess iflag s) s) q g r s'.
Proof.
  intros Ha Hx. unfold gerg_density. rewrite (pcp_ok s Hx). cbn [bind]. cbv zeta.
  rewrite (gdensity_start_eq iflag s Hx). intros H.
  apply (gloop_search allow _ _ _ _ Ha 0%nat) in H; [|reflexivity|lia].
  destruct H as (q & g & Hq & Hg & H). exists q, g. do 2 (split; [lia|]).
  rewrite <- (gdcx_eq _ Hx). exact H.
Qed.

(* the phase check never succeeds *)
Lemma gcheck_fails s s' r : gdensity_check s = Some (s', r) -> r = RErr IterationFail.
Proof.
  unfold gdensity_check. destruct (gerg_properties s) as [[s1 p]|]; [|discriminate].
  cbn [bind]. unfold gdensity_fail.
  match goal with |- context [if ?b then _ else _] => destruct b end;
    intros H; injection H as _ <-; reflexivity.
Qed.
Lemma gsearch_check_fails allow iflag dcx plog k f b v s q g r s' : (0 < iflag)%Z ->
  gsearch allow iflag dcx plog k f b v s q g r s' -> r = RErr IterationFail.
Proof.
  intros Hi H. induction H; auto.
  unfold gfinish in *. destruct (Z.ltb_spec 0 iflag); [|lia]. eapply gcheck_fails; eassumption.
Qed.

(* a converged search *)
Definition dinputs (s s' : Detail) : Prop := d_t s' = d_t s /\ d_p s' = d_p s /\ d_x s' = d_x s.

(* frames *)
Section D.
Context {P : DParams}.
Lemma pressure_frame cx ct s s' v : wf cx ct s -> pressure s = Some (s', v) ->
  dframe [PZ] s s'.
Proof.
  Local Transparent pressure.
  intros H E. rewrite (pressure_ok _ _ _ H) in E. injection E as <- _. split; [reflexivity|].
  intros f Hf. destruct f; try reflexivity. elim Hf. now left.
  Local Opaque pressure.
Qed.
Lemma dframe_trans w s1 s2 s3 : dframe w s1 s2 -> dframe w s2 s3 -> dframe w s1 s3.
Proof. intros [H1 H2] [H3 H4]. split; [congruence|]. intros f Hf. now rewrite H4, H2. Qed.
Lemma dframe_incl w w' s1 s2 : incl w w' -> dframe w s1 s2 -> dframe w' s1 s2.
Proof. intros Hi [H1 H2]. split; [assumption|]. intros f Hf. apply H2. intro. now apply Hf, Hi. Qed.
Lemma dframe_set_d v s w : In PD w -> dframe w s (set_d_d v s).
Proof. intros Hw. split; [reflexivity|]. intros f Hf. destruct f; try reflexivity. now elim Hf. Qed.

Lemma dsearch_frame plog k v s n r s' : dsearch plog k v s n r s' ->
  forall cx ct, wf cx ct s ->
  dframe [PD; PZ] s s' /\
  (forall e, r = RErr e -> e = IterationFail /\ d_d s' = d_p s / RDETAIL / d_t s).
Proof.
  assert (Hstep : forall cx ct s s1 v p, wf cx ct s ->
    pressure (set_d_d v s) = Some (s1, p) ->
    dframe [PD; PZ] s s1 /\ exists cx ct, wf cx ct s1).
  { intros cx ct s0 s1 v0 p H E. apply (wf_set_d _ _ _ v0) in H. split.
    - eapply dframe_trans; [apply (dframe_set_d v0); now left|].
      eapply dframe_incl; [|eapply pressure_frame; eassumption]. intros ? [<-|[]]. right. now left.
    - rewrite (pressure_ok _ _ _ H) in E. injection E as <- _. eexists _, _. now apply wf_press. }
  induction 1 as [k v s Hs|k v s s1 p n r s' Hk Hv Hp He Hd IH
    |k v s s1 p w n r s' Hk Hv Hp He Hw Hc Hd IH|k v s s1 p w Hk Hv Hp He Hw Hc];
  intros cx ct H.
  - split; [apply dframe_set_d; now left|]. intros e He. injection He as <-. auto.
  - destruct (Hstep _ _ _ _ _ _ H Hp) as (Hf & cx' & ct' & H1).
    destruct (IH _ _ H1) as [Hf2 Hr]. split; [eapply dframe_trans; eassumption|].
    intros e Ee. destruct (Hr e Ee) as [-> Ed]. split; [reflexivity|]. rewrite Ed.
    pose proof (proj2 Hf PT) as E1. pose proof (proj2 Hf PP) as E2. cbn in E1, E2.
    rewrite E1, E2; [reflexivity|..]; intros [|[|[]]]; discriminate.
  - destruct (Hstep _ _ _ _ _ _ H Hp) as (Hf & cx' & ct' & H1).
    destruct (IH _ _ H1) as [Hf2 Hr]. split; [eapply dframe_trans; eassumption|].
    intros e Ee. destruct (Hr e Ee) as [-> Ed]. split; [reflexivity|]. rewrite Ed.
    pose proof (proj2 Hf PT) as E1. pose proof (proj2 Hf PP) as E2. cbn in E1, E2.
    rewrite E1, E2; [reflexivity|..]; intros [|[|[]]]; discriminate.
  - destruct (Hstep _ _ _ _ _ _ H Hp) as (Hf & cx' & ct' & H1).
    split; [|discriminate]. eapply dframe_trans; [eassumption|]. apply dframe_set_d. now left.
Qed.

(* the last step of a successful search *)
Lemma dsearch_last plog k v s n s' : dsearch plog k v s n ROk s' ->
  forall cx ct, wf cx ct s ->
  exists v0 s0 s1 p w cx ct,
    wf cx ct s0 /\ dframe [PD; PZ] s s0 /\
    (flit (L (-7) 0) <=? v0) && (v0 <=? flit (L 100 0)) = true /\
    pressure (set_d_d (fexp (- v0)) s0) = Some (s1, p) /\
    (d_dp_dd_save s1 <? EPSILON) = false /\ (p <? EPSILON) = false /\
    w = (fln p - plog) * p / ((- fexp (- v0)) * d_dp_dd_save s1) /\
    (fabs w <? flit (L 1 (-7))) = true /\
    s' = set_d_d (fexp (- (v0 - w))) s1.
Proof.
  assert (Hstep : forall cx ct s s1 v p, wf cx ct s ->
    pressure (set_d_d v s) = Some (s1, p) ->
    dframe [PD; PZ] s s1 /\ d_d s1 = v /\ exists cx ct, wf cx ct s1).
  { intros cx ct s0 s1 v0 p H E. apply (wf_set_d _ _ _ v0) in H. split; [|split].
    - eapply dframe_trans; [apply (dframe_set_d v0); now left|].
      eapply dframe_incl; [|eapply pressure_frame; eassumption]. intros ? [<-|[]]. right. now left.
    - pose proof (proj2 (pressure_frame _ _ _ _ _ H E) PD) as Q. cbn in Q.
      apply Q. intros [|[]]; discriminate.
    - rewrite (pressure_ok _ _ _ H) in E. injection E as <- _. eexists _, _. now apply wf_press. }
  intros H. remember (@ROk DensityError) as r eqn:Er. revert Er.
  induction H as [k v s Hs|k v s s1 p n r s' Hk Hv Hp He Hd IH
    |k v s s1 p w n r s' Hk Hv Hp He Hw Hc Hd IH|k v s s1 p w Hk Hv Hp He Hw Hc];
  intros Er cx ct H; [discriminate Er| | |].
  - destruct (Hstep _ _ _ _ _ _ H Hp) as (Hf & _ & cx' & ct' & H1).
    destruct (IH Er _ _ H1) as (v0 & s0 & s2 & p2 & w & cx2 & ct2 & K1 & K2 & K).
    exists v0, s0, s2, p2, w, cx2, ct2. split; [assumption|].
    split; [eapply dframe_trans; eassumption|assumption].
  - destruct (Hstep _ _ _ _ _ _ H Hp) as (Hf & _ & cx' & ct' & H1).
    destruct (IH Er _ _ H1) as (v0 & s0 & s2 & p2 & w2 & cx2 & ct2 & K1 & K2 & K).
    exists v0, s0, s2, p2, w2, cx2, ct2. split; [assumption|].
    split; [eapply dframe_trans; eassumption|assumption].
  - destruct (Hstep _ _ _ _ _ _ H Hp) as (Hf & Ed & cx' & ct' & H1).
    exists v, s, s1, p, w, cx, ct. apply orb_false_iff in He. destruct He as [He1 He2].
    rewrite Ed in Hw.
    repeat apply conj; try assumption; reflexivity.
Qed.
End D.

Section G.
Context {P : GParams}.
Lemma gpressure_frame c s s' v : gwf c s -> gerg_pressure s = Some (s', v) ->
  gframe [PZ] s s'.
Proof.
  intros H E. rewrite (gpressure_ok _ _ H) in E. injection E as <- _. split; [reflexivity|].
  intros f Hf. destruct f; try reflexivity. elim Hf. now left.
Qed.
Lemma gproperties_frame c s s' v : gwf c s -> gerg_properties s = Some (s', v) ->
  gframe [PZ; PMM; PDpDd; PD2pDd2; PD2pDtd; PDpDt; PU; PH; PS; PCv; PCp; PW; PG; PJt; PKappa] s s'.
Proof.
  intros H E. rewrite (gproperties_ok _ _ H) in E. injection E as <- _. split; [reflexivity|].
  intros f Hf. destruct f; try reflexivity; elim Hf; cbn; tauto.
Qed.
Lemma gframe_trans w s1 s2 s3 : gframe w s1 s2 -> gframe w s2 s3 -> gframe w s1 s3.
Proof. intros [H1 H2] [H3 H4]. split; [congruence|]. intros f Hf. now rewrite H4, H2. Qed.
Lemma gframe_incl w w' s1 s2 : incl w w' -> gframe w s1 s2 -> gframe w' s1 s2.
Proof. intros Hi [H1 H2]. split; [assumption|]. intros f Hf. apply H2. intro. now apply Hf, Hi. Qed.
Lemma gframe_set_d v s w : In PD w -> gframe w s (set_g_d v s).
Proof. intros Hw. split; [reflexivity|]. intros f Hf. destruct f; try reflexivity. now elim Hf. Qed.
Lemma gframe_refl w s : gframe w s s.
Proof. now split. Qed.

(* fields density(iflag) may change *)
Definition gdw (iflag : Z) : list pfield :=
  if (0 <? iflag)%Z
  then [PD; PZ; PMM; PDpDd; PD2pDd2; PD2pDtd; PDpDt; PU; PH; PS; PCv; PCp; PW; PG; PJt; PKappa]
  else [PD; PZ].
Lemma gdw_d i : In PD (gdw i).
Proof. unfold gdw. destruct (0 <? i)%Z; now left. Qed.
Lemma gdw_z i : In PZ (gdw i).
Proof. unfold gdw. destruct (0 <? i)%Z; right; now left. Qed.
Lemma gdw_t i : ~ In PT (gdw i).
Proof. unfold gdw. destruct (0 <? i)%Z; cbn; intuition discriminate. Qed.
Lemma gdw_p i : ~ In PP (gdw i).
Proof. unfold gdw. destruct (0 <? i)%Z; cbn; intuition discriminate. Qed.

Lemma gpoint_frame dcx k v b f s v1 f1 s1 : gpoint dcx k v b f s v1 f1 s1 ->
  forall c w, gwf c s -> In PD w -> gwf c s1 /\ gframe w s s1.
Proof.
  intros [Hn|s2 Hn Hl ->] c w H Hw.
  - split; [assumption|apply gframe_refl].
  - split; [now apply gwf_set_d|now apply gframe_set_d].
Qed.
Lemma gstep_frame i dcx k v b f s v1 f1 s1 s2 p : gpoint dcx k v b f s v1 f1 s1 ->
  gerg_pressure (set_g_d (fexp (- v1)) s1) = Some (s2, p) ->
  forall c, gwf c s ->
  gframe (gdw i) s s2 /\ g_d s2 = fexp (- v1) /\ exists c, gwf c s2.
Proof.
  intros Hp E c H.
  destruct (gpoint_frame _ _ _ _ _ _ _ _ _ Hp c (gdw i) H (gdw_d i)) as [H1 Hf].
  apply (gwf_set_d _ _ (fexp (- v1))) in H1. split; [|split].
  - eapply gframe_trans; [eassumption|].
    eapply gframe_trans; [apply (gframe_set_d (fexp (- v1))); apply gdw_d|].
    eapply gframe_incl; [|eapply gpressure_frame; eassumption]. intros ? [<-|[]]. apply gdw_z.
  - pose proof (proj2 (gpressure_frame _ _ _ _ H1 E) PD) as Q. cbn in Q.
    apply Q. intros [|[]]; discriminate.
  - rewrite (gpressure_ok _ _ H1) in E. injection E as <- _. eexists. now apply gwf_press.
Qed.

Lemma gsearch_frame allow i dcx plog k f b v s q g r s' :
  gsearch allow i dcx plog k f b v s q g r s' -> forall c, gwf c s -> gframe (gdw i) s s' /\
  (forall e, r = RErr e -> e = IterationFail /\
    ((i <= 0)%Z -> g_d s' = g_p s / RGERG / g_t s)).
Proof.
  assert (Htr : forall s s2 s', gframe (gdw i) s s2 -> gframe (gdw i) s2 s' /\
    (forall e, r = RErr e -> e = IterationFail /\
       ((i <= 0)%Z -> g_d s' = g_p s2 / RGERG / g_t s2)) ->
    gframe (gdw i) s s' /\
    (forall e, r = RErr e -> e = IterationFail /\
       ((i <= 0)%Z -> g_d s' = g_p s / RGERG / g_t s))).
  { intros t t2 t' Hf [Hf2 Hr]. split; [eapply gframe_trans; eassumption|].
    intros e Ee. destruct (Hr e Ee) as [-> Ed]. split; [reflexivity|]. intros Hi. rewrite (Ed Hi).
    pose proof (proj2 Hf PT (gdw_t i)) as E1. pose proof (proj2 Hf PP (gdw_p i)) as E2.
    cbn in E1, E2. now rewrite E1, E2. }
  intros HS. induction HS as [k f b v s Hs
    |k f b v s v1 f1 s1 s2 p q g r s' Hk Hp Ep He Hd IH
    |k f b v s v1 f1 s1 s2 p w q g r s' Hk Hp Ep He Hw Hc Hd IH
    |k f b v s v1 f1 s1 s2 p w q g r s' Ha Hk Hp Ep He Hw Hc Hm Hd IH
    |k f b v s v1 f1 s1 s2 p w r s' Hk Hp Ep He Hw Hc Hm Hf]; intros c H.
  - split; [apply gframe_set_d, gdw_d|]. intros e He. injection He as <-. auto.
  - destruct (gstep_frame i _ _ _ _ _ _ _ _ _ _ _ Hp Ep c H) as (Hf & _ & c2 & H2).
    eapply Htr; [eassumption|]. eapply IH; eassumption.
  - destruct (gstep_frame i _ _ _ _ _ _ _ _ _ _ _ Hp Ep c H) as (Hf & _ & c2 & H2).
    eapply Htr; [eassumption|]. eapply IH; eassumption.
  - destruct (gstep_frame i _ _ _ _ _ _ _ _ _ _ _ Hp Ep c H) as (Hf & _ & c2 & H2).
    eapply Htr; [eassumption|]. eapply IH; eassumption.
  - destruct (gstep_frame i _ _ _ _ _ _ _ _ _ _ _ Hp Ep c H) as (Hf2 & _ & c2 & H2).
    apply (gwf_set_d _ _ (fexp (- (v1 + - w)))) in H2.
    assert (Hf3 : gframe (gdw i) s (set_g_d (fexp (- (v1 + - w))) s2)).
    { eapply gframe_trans; [eassumption|]. apply gframe_set_d, gdw_d. }
    unfold gfinish in Hf. destruct (Z.ltb_spec 0 i) as [Hi|Hi].
    + split.
      2:{ intros e ->. apply gcheck_fails in Hf. injection Hf as ->. split; [reflexivity|lia]. }
      unfold gdensity_check in Hf.
      destruct (gerg_properties (set_g_d (fexp (- (v1 + - w))) s2)) as [[s3 p3]|] eqn:E3;
        [|discriminate Hf]. cbn [bind] in Hf.
      pose proof (gproperties_frame _ _ _ _ H2 E3) as Hf4.
      assert (Hf5 : gframe (gdw i) s s3).
      { eapply gframe_trans; [eassumption|]. eapply gframe_incl; [|exact Hf4].
        unfold gdw. destruct (Z.ltb_spec 0 i); [|lia]. intros ? HIn. now right. }
      unfold gdensity_fail in Hf.
      match type of Hf with context [if ?b then _ else _] => destruct b end;
        injection Hf as <- _; [|assumption].
      eapply gframe_trans; [eassumption|]. apply gframe_set_d, gdw_d.
    + injection Hf as <- <-. split; [assumption|discriminate].
Qed.

Lemma gsearch_last allow i dcx plog k f b v s q g s' :
  gsearch allow i dcx plog k f b v s q g ROk s' -> forall c, gwf c s ->
  exists v0 s0 s1 p w c,
    gwf c s0 /\ gframe [PD; PZ] s s0 /\
    gerg_pressure (set_g_d (fexp (- v0)) s0) = Some (s1, p) /\
    (g_dpddsave s1 <? GEPSILON) = false /\ (p <? GEPSILON) = false /\
    w = (fln p - plog) * p / ((- fexp (- v0)) * g_dpddsave s1) /\
    (fabs w <? flit (L 1 (-7))) = true /\
    s' = set_g_d (fexp (- (v0 + - w))) s1.
Proof.
  intros HS. remember (@ROk DensityError) as r0 eqn:Er. revert Er.
  induction HS as [k f b v s Hs
    |k f b v s v1 f1 s1 s2 p q g r s' Hk Hp Ep He Hd IH
    |k f b v s v1 f1 s1 s2 p w q g r s' Hk Hp Ep He Hw Hc Hd IH
    |k f b v s v1 f1 s1 s2 p w q g r s' Ha Hk Hp Ep He Hw Hc Hm Hd IH
    |k f b v s v1 f1 s1 s2 p w r s' Hk Hp Ep He Hw Hc Hm Hf]; intros Er c H.
  - discriminate Er.
  - destruct (gstep_frame 0 _ _ _ _ _ _ _ _ _ _ _ Hp Ep c H) as (Hf & _ & c2 & H2).
    destruct (IH Er _ H2) as (v0 & s0 & s3 & p3 & w3 & c3 & K1 & K2 & K).
    exists v0, s0, s3, p3, w3, c3. split; [assumption|].
    split; [eapply gframe_trans; eassumption|assumption].
  - destruct (gstep_frame 0 _ _ _ _ _ _ _ _ _ _ _ Hp Ep c H) as (Hf & _ & c2 & H2).
    destruct (IH Er _ H2) as (v0 & s0 & s3 & p3 & w3 & c3 & K1 & K2 & K).
    exists v0, s0, s3, p3, w3, c3. split; [assumption|].
    split; [eapply gframe_trans; eassumption|assumption].
  - destruct (gstep_frame 0 _ _ _ _ _ _ _ _ _ _ _ Hp Ep c H) as (Hf & _ & c2 & H2).
    destruct (IH Er _ H2) as (v0 & s0 & s3 & p3 & w3 & c3 & K1 & K2 & K).
    exists v0, s0, s3, p3, w3, c3. split; [assumption|].
    split; [eapply gframe_trans; eassumption|assumption].
  - destruct (gstep_frame 0 _ _ _ _ _ _ _ _ _ _ _ Hp Ep c H) as (_ & Ed & c2 & H2).
    destruct (gpoint_frame _ _ _ _ _ _ _ _ _ Hp c [PD; PZ] H (or_introl eq_refl)) as [H1 Hf1].
    unfold gfinish in Hf. destruct (Z.ltb_spec 0 i) as [Hi|Hi].
    + subst r. apply gcheck_fails in Hf. discriminate Hf.
    + injection Hf as <- _. apply orb_false_iff in He. rewrite Ed in Hw.
      exists v1, s1, s2, p, w, c. repeat apply conj; try assumption; try apply He; try apply Hf1; reflexivity.
Qed.
End G.

(* the old density is only a guess *)
Lemma density_old_d s v : (- EPSILON <? d_d s) = true -> (- EPSILON <? v) = true ->
  density (set_d_d v s) = density s.
Proof.
  intros H1 H2. unfold density, density_start. dsimp. rewrite H1, H2.
  destruct s; reflexivity.
Qed.
Lemma gdensity_old_d i s v : (- GEPSILON <? g_d s) = true -> (- GEPSILON <? v) = true ->
  gerg_density i (set_g_d v s) = gerg_density i s.
Proof.
  intros H1 H2. unfold gerg_density, gdensity_start. gsimp. rewrite H1, H2.
  change (pseudocriticalpoint (set_g_d v s)) with (pseudocriticalpoint s).
  destruct (pseudocriticalpoint s) as [[dcx tcx]|]; [|reflexivity]. cbn [bind].
  destruct s; reflexivity.
Qed.
End Dens.
