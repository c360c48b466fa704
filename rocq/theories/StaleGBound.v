(* How stale the cached reducing parameters of a GERG-2008 object can be, over the reals. *)
From Coq Require Import Reals ZArith List Bool Lra Lia.
From Verif Require Import FArith Prelude Tab Composition DetailModel DetailPure GergTables GergModel GergPure
  GergRefine GergEval Api ApiSafe SpecGeneric SpecHistory DensityProofs BasicProofs GenericLemmas HistoryGerg ArithR RSum SpecReal
  CompReal DetailReal DetailThermo GergReal GergIdeal GergThermo SpecDetail SpecGerg DetailEos GergEos GergLimit
  NewtonReal Drift DriftReal DriftGerg Stale StaleMix StaleGerg.
Import ListNotations.
Local Open Scope R_scope.
Local Existing Instance ArithR.
Local Existing Instance gp_new.
Local Opaque gterms arT arS tab2 nxold gc_red gc_tau ga0 gmm gx_diff tab gerg_pressure gerg_properties differs.

Lemma gx_diff_iff x y : @gx_diff ArithR x y = false <->
  forall i, (1 <= i < 22)%nat -> Rabs (nth i x 0 - nth i y 0) <= 1 / 10000000.
Proof.
  split; [|apply gx_diff_false].
  Local Transparent gx_diff. unfold gx_diff. Local Opaque gx_diff. rewrite <- not_true_iff_false, existsb_exists.
  intros H i Hi. apply differs_R. apply not_true_iff_false. intros K. apply H. exists i. split; [apply in_seq; lia|exact K].
Qed.

(* one evaluation *)
Lemma g_eval_press c s : @gwf ArithR gp_new c s -> exists s' p, gerg_pressure s = Some (s', p) /\
  gwf (gal_cache c s) s' /\ slots_eq (g_xold s') (g_x s) /\ g_x s' = g_x s /\ g_t s' = g_t s.
Proof.
  intros W. pose proof (gpressure_ok _ _ W) as E. pose proof (gwf_press _ _ W) as W1.
  rewrite gpress_flat in E, W1. do 2 eexists. split; [exact E|]. split; [exact W1|].
  split; [apply nxold_slots|]. split; reflexivity.
Qed.
Lemma g_eval_props c s : @gwf ArithR gp_new c s -> exists s' p, gerg_properties s = Some (s', p) /\
  gwf (gal_cache c s) s' /\ slots_eq (g_xold s') (g_x s) /\ g_x s' = g_x s /\ g_t s' = g_t s.
Proof.
  intros W. pose proof (gproperties_ok _ _ W) as E. pose proof (gwf_props _ _ W) as W1.
  rewrite gprops_flat in E, W1. cbv zeta in E, W1. do 2 eexists. split; [exact E|]. split; [exact W1|].
  split; [apply nxold_slots|]. split; reflexivity.
Qed.
Lemma gal_keep (c : @gcache ArithR) s : gx_diff (g_x s) (g_xold s) = false ->
  gc_dr (gal_cache (P := gp_new) c s) = gc_dr c /\ gc_tr (gal_cache (P := gp_new) c s) = gc_tr c.
Proof.
  Local Transparent gc_red gc_tau. intros H. unfold gal_cache, gc_next, gc_red. rewrite H. unfold gc_tau.
  destruct (gc_fresh _ _); split; reflexivity. Local Opaque gc_red gc_tau.
Qed.
Lemma gal_renew (c : @gcache ArithR) s : gx_diff (g_x s) (g_xold s) = true ->
  gc_dr (gal_cache (P := gp_new) c s) = gdr (xf (g_x s)) /\ gc_tr (gal_cache (P := gp_new) c s) = gtr (xf (g_x s)).
Proof.
  Local Transparent gc_red gc_tau. intros H. unfold gal_cache, gc_next, gc_red. rewrite H. unfold gc_tau.
  destruct (gc_fresh _ _); split; reflexivity. Local Opaque gc_red gc_tau.
Qed.

Section V.
Variable V : list (list R * R).
Hypothesis HV : forall x t, In (x, t) V -> length x = 22%nat /\ exists i, (1 <= i < 22)%nat /\ 1 / 10000000 < nth i x 0.
Local Notation e := (1 / 10000000).
(* the reducing parameters are those of a composition asked for, within n * 1e-7 of x *)
Definition gnear (n : nat) (c : @gcache ArithR) (x : list R) : Prop :=
  exists y u, In (y, u) V /\ gc_dr c = gdr (xf y) /\ gc_tr c = gtr (xf y) /\
    forall i, (1 <= i < 22)%nat -> Rabs (nth i y 0 - nth i x 0) <= INR n * e.
Lemma gnear_le n m c x : (n <= m)%nat -> gnear n c x -> gnear m c x.
Proof.
  intros H (y & u & I & A & B & K). apply le_INR in H. exists y, u. split; [exact I|]. split; [exact A|]. split; [exact B|].
  intros i Hi. specialize (K i Hi). lra.
Qed.
Lemma gnear_slots n c (x z : list R) : slots_eq (A := ArithR) x z -> gnear n c x -> gnear n c z.
Proof.
  intros H (y & u & I & A & B & K). exists y, u. split; [exact I|]. split; [exact A|]. split; [exact B|].
  intros i Hi. specialize (H i Hi). change (nth i x 0 = nth i z 0) in H. rewrite <- H. now apply K.
Qed.
Lemma gnear_self n c x t : In (x, t) V -> gc_dr c = gdr (xf x) -> gc_tr c = gtr (xf x) -> gnear n c x.
Proof.
  intros I A B. exists x, t. split; [exact I|]. split; [exact A|]. split; [exact B|]. intros i Hi. apply zero_le.
Qed.
Definition gstale (N : nat) (s : @Gerg ArithR) : Prop :=
  exists c, @gwf ArithR gp_new c s /\
    (slots_eq (g_xold s) (repeat (@f0 ArithR) 22) \/ (1 <= N)%nat /\ gnear (pred N) c (g_xold s)).
Definition gseen (N : nat) (s : @Gerg ArithR) : Prop :=
  exists c, @gwf ArithR gp_new c s /\ gnear N c (g_x s) /\ slots_eq (g_xold s) (g_x s).
Lemma gseen_stale N s : gseen N s -> gstale (S N) s.
Proof.
  intros (c & W & K & X). exists c. split; [exact W|]. right. split; [lia|]. cbn [pred].
  apply (gnear_slots _ _ (g_x s)); [|exact K]. intros i Hi. symmetry. now apply X.
Qed.
Lemma ev_near N c s : In (g_x s, g_t s) V ->
  (slots_eq (g_xold s) (repeat (@f0 ArithR) 22) \/ (1 <= N)%nat /\ gnear (pred N) c (g_xold s)) ->
  gnear N (gal_cache c s) (g_x s).
Proof.
  intros Hin H. destruct (gx_diff (g_x s) (g_xold s)) eqn:E.
  - destruct (gal_renew c s E) as [A B]. exact (gnear_self N _ _ _ Hin A B).
  - destruct H as [Z|[HN (y & u & I & A & B & K)]].
    + exfalso. destruct (HV _ _ Hin) as (_ & i & Hi & Hx). rewrite (gx_diff_slots _ _ _ Z) in E.
      rewrite (gx_diff_0 (g_x s) i Hi Hx) in E. discriminate E.
    + destruct (gal_keep c s E) as [A' B']. exists y, u. split; [exact I|]. split; [congruence|]. split; [congruence|].
      intros i Hi. replace N with (S (pred N)) by lia. rewrite gx_diff_iff in E. exact (tri _ _ _ _ (K i Hi) (E i Hi)).
Qed.
Lemma ev_again N c s : gnear N c (g_x s) -> slots_eq (g_xold s) (g_x s) -> gnear N (gal_cache c s) (g_x s).
Proof.
  intros (y & u & I & A & B & K) X.
  assert (E : gx_diff (g_x s) (g_xold s) = false) by (rewrite (gx_diff_slots _ _ _ X); apply gx_diff_same_R).
  destruct (gal_keep c s E) as [A' B']. exists y, u. split; [exact I|]. split; [congruence|]. split; [congruence|]. exact K.
Qed.
Definition after (N : nat) (s : @Gerg ArithR) (s' : @Gerg ArithR) : Prop := gseen N s' /\ g_x s' = g_x s /\ g_t s' = g_t s.
Lemma gpress_stale N s : gstale N s -> In (g_x s, g_t s) V -> exists s' p, gerg_pressure s = Some (s', p) /\ after N s s'.
Proof.
  intros (c & W & H) Hin. destruct (g_eval_press c s W) as (s' & p & E & W' & X & Ex & Et). exists s', p. split; [exact E|].
  split; [|split; assumption]. exists (gal_cache c s). split; [exact W'|]. rewrite Ex. split; [|exact X]. now apply ev_near.
Qed.
Lemma gpress_seen N s : gseen N s -> exists s' p, gerg_pressure s = Some (s', p) /\ after N s s'.
Proof.
  intros (c & W & H & X0). destruct (g_eval_press c s W) as (s' & p & E & W' & X & Ex & Et). exists s', p. split; [exact E|].
  split; [|split; assumption]. exists (gal_cache c s). split; [exact W'|]. rewrite Ex. split; [|exact X]. now apply ev_again.
Qed.
Lemma gprops_stale N s : gstale N s -> In (g_x s, g_t s) V -> exists s' p, gerg_properties s = Some (s', p) /\ after N s s'.
Proof.
  intros (c & W & H) Hin. destruct (g_eval_props c s W) as (s' & p & E & W' & X & Ex & Et). exists s', p. split; [exact E|].
  split; [|split; assumption]. exists (gal_cache c s). split; [exact W'|]. rewrite Ex. split; [|exact X]. now apply ev_near.
Qed.
Lemma gprops_seen N s : gseen N s -> exists s' p, gerg_properties s = Some (s', p) /\ after N s s'.
Proof.
  intros (c & W & H & X0). destruct (g_eval_props c s W) as (s' & p & E & W' & X & Ex & Et). exists s', p. split; [exact E|].
  split; [|split; assumption]. exists (gal_cache c s). split; [exact W'|]. rewrite Ex. split; [|exact X]. now apply ev_again.
Qed.
Lemma gseen_set_d N s v : gseen N s -> gseen N (set_g_d v s).
Proof. intros (c & W & H). exists c. split; [now apply gwf_set_d|exact H]. Qed.
Lemma gstale_set_d N s v : gstale N s -> gstale N (set_g_d v s).
Proof. intros (c & W & H). exists c. split; [now apply gwf_set_d|exact H]. Qed.
Lemma after_trans N s s1 s2 : g_x s1 = g_x s -> g_t s1 = g_t s -> after N s1 s2 -> after N s s2.
Proof. intros A B (C & D & E). split; [exact C|]. split; congruence. Qed.
Lemma after_set_d N s v : gseen N s -> after N s (set_g_d v s).
Proof. intros H. split; [now apply gseen_set_d|]. split; reflexivity. Qed.

Lemma check_seen N s s' r : gseen N s -> gdensity_check s = Some (s', r) -> after N s s'.
Proof.
  intros H E. unfold gdensity_check in E. destruct (gprops_seen N s H) as (s1 & p & E1 & H1 & X1 & T1). rewrite E1 in E.
  cbn [bind] in E. apply (after_trans N s s1); [assumption|assumption|]. destruct (_ || _).
  - unfold gdensity_fail in E. injection E as <- _. now apply after_set_d.
  - injection E as <- _. split; [exact H1|]. split; reflexivity.
Qed.
(* the body of an iteration, once the pressure has been evaluated *)
Lemma body_seen N iflag dcx plog it b v s s1 p k s' r :
  gerg_pressure (set_g_d (fexp (- v)%F) s) = Some (s1, p) -> after N s s1 ->
  (forall b v t t' r', gseen N t -> k b v t = Some (t', r') -> after N t t') ->
  gdensity_step iflag dcx plog it b v s k = Some (s', r) -> after N s s'.
Proof.
  intros E1 (H1 & X1 & T1) Hk E. unfold gdensity_step in E. cbv zeta in E. rewrite E1 in E. cbn [bind] in E.
  apply (after_trans N s s1); [assumption|assumption|].
  destruct (_ || _); [exact (Hk _ _ _ _ _ H1 E)|]. destruct (fabs _ <? TOLR)%F; [|exact (Hk _ _ _ _ _ H1 E)].
  destruct (g_dpddsave s1 <? f0)%F; [exact (Hk _ _ _ _ _ H1 E)|].
  destruct (0 <? iflag)%Z.
  - eapply after_trans; [| |exact (check_seen N _ s' r (gseen_set_d N s1 _ H1) E)]; reflexivity.
  - injection E as <- _. now apply after_set_d.
Qed.
Lemma gloop_seen N iflag dcx plog n : forall it nf b v s s' r, gseen N s ->
  gdensity_loop n iflag dcx plog it nf b v s = Some (s', r) -> after N s s'.
Proof.
  induction n as [|n IH]; intros it nf b v s s' r H E; cbn [gdensity_loop] in E.
  - unfold gdensity_fail in E. injection E as <- _. now apply after_set_d.
  - destruct (negb (vlog_ok v) || _ || _ || _ || b).
    + destruct (Nat.ltb 2 nf). { unfold gdensity_fail in E. injection E as <- _. now apply after_set_d. }
      cbv zeta in E. set (s0 := set_g_d (grestart_d (S nf) dcx (g_d s)) s) in *.
      assert (H0 : gseen N s0) by now apply gseen_set_d.
      apply (after_trans N s s0); [reflexivity|reflexivity|]. clearbody s0.
      destruct (gpress_seen N (set_g_d (fexp (- - fln (g_d s0))%F) s0) (gseen_set_d N s0 _ H0)) as (s1 & p & E1 & K1).
      apply (body_seen N _ _ _ _ _ _ s0 s1 p _ s' r E1 K1) in E; [exact E|].
      intros b' v' t t' r' Ht Et. exact (IH _ _ _ _ _ _ _ Ht Et).
    + destruct (gpress_seen N (set_g_d (fexp (- v)%F) s) (gseen_set_d N s _ H)) as (s1 & p & E1 & K1).
      apply (body_seen N _ _ _ _ _ _ s s1 p _ s' r E1 K1) in E; [exact E|].
      intros b' v' t t' r' Ht Et. exact (IH _ _ _ _ _ _ _ Ht Et).
Qed.
Lemma gloop_stale N iflag dcx plog n b v s s' r : gstale N s -> In (g_x s, g_t s) V ->
  gdensity_loop (S n) iflag dcx plog 1 0 b v s = Some (s', r) -> after N s s'.
Proof.
  intros H Hin E. cbn [gdensity_loop] in E. change (Nat.ltb 2 0) with false in E. cbv iota in E.
  destruct (negb (vlog_ok v) || _ || _ || _ || b).
  - cbv zeta in E. set (s0 := set_g_d (grestart_d 1 dcx (g_d s)) s) in *.
    assert (H0 : gstale N s0) by now apply gstale_set_d.
    assert (I0 : In (g_x s0, g_t s0) V) by exact Hin.
    apply (after_trans N s s0); [reflexivity|reflexivity|]. clearbody s0.
    destruct (gpress_stale N (set_g_d (fexp (- - fln (g_d s0))%F) s0) (gstale_set_d N s0 _ H0) I0) as (s1 & p & E1 & K1).
    apply (body_seen N _ _ _ _ _ _ s0 s1 p _ s' r E1 K1) in E; [exact E|].
    intros b' v' t t' r' Ht Et. exact (gloop_seen _ _ _ _ _ _ _ _ _ _ _ _ Ht Et).
  - destruct (gpress_stale N (set_g_d (fexp (- v)%F) s) (gstale_set_d N s _ H) Hin) as (s1 & p & E1 & K1).
    apply (body_seen N _ _ _ _ _ _ s s1 p _ s' r E1 K1) in E; [exact E|].
    intros b' v' t t' r' Ht Et. exact (gloop_seen _ _ _ _ _ _ _ _ _ _ _ _ Ht Et).
Qed.
Local Opaque gdensity_loop.
Lemma gdens_stale N i s s' r : gstale N s -> In (g_x s, g_t s) V -> gerg_density i s = Some (s', r) -> after N s s'.
Proof.
  intros H Hin E. unfold gerg_density in E. pose proof H as (c & W & _). rewrite pcp_ok in E by exact (gw_x _ _ W).
  cbn [bind] in E. cbv zeta in E. rewrite gdensity_start_eq in E by exact (gw_x _ _ W).
  match type of E with gdensity_loop _ _ _ _ _ _ _ _ ?s = _ => set (s0 := s) in * end.
  assert (H0 : gstale N s0) by now apply gstale_set_d. assert (I0 : In (g_x s0, g_t s0) V) by exact Hin.
  apply (after_trans N s s0); [reflexivity|reflexivity|]. clearbody s0.
  revert E. change 50%nat with (S 49). intros E. exact (gloop_stale N i _ _ 49 _ _ s0 s' r H0 I0 E).
Qed.
Definition evals (o : @op ArithR) : bool := match o with Pressure | Density _ | Properties => true | _ => false end.
Lemma eval_stale N o s s' r : evals o = true -> gstale N s -> In (g_x s, g_t s) V -> gstep o s = Some (s', r) -> after N s s'.
Proof.
  intros Ho H Hin E. destruct o as [f v|v|c| | |i|]; try discriminate Ho; cbn [gstep] in E.
  - destruct (gpress_stale N s H Hin) as (s1 & p & E1 & K). rewrite E1 in E. cbn [bind] in E. injection E as <- _. exact K.
  - destruct (gerg_density i s) as [[s1 r1]|] eqn:E1; [|discriminate E]. cbn [bind] in E. injection E as <- _.
    exact (gdens_stale N i s s1 r1 H Hin E1).
  - destruct (gprops_stale N s H Hin) as (s1 & p & E1 & K). rewrite E1 in E. cbn [bind] in E. injection E as <- _. exact K.
Qed.
Lemma gstep_stale N o s s' r : gstale N s ->
  incl (match o with Pressure | Density _ | Properties => [(g_x s, g_t s)] | _ => [] end) V -> gstep o s = Some (s', r) ->
  gstale (length (match o with Pressure | Density _ | Properties => [(g_x s, g_t s)] | _ => [] end) + N) s' /\
  g_x s' = HistoryGerg.nextx o (g_x s) /\ g_t s' = HistoryGerg.nextt o (g_t s).
Proof.
  intros H Hin E. destruct (evals o) eqn:Ho.
  - assert (I : In (g_x s, g_t s) V) by (destruct o; try discriminate Ho; now apply Hin; left).
    destruct (eval_stale N o s s' r Ho H I E) as (K & A & B). destruct o; try discriminate Ho; cbn [length plus HistoryGerg.nextx HistoryGerg.nextt];
    (split; [now apply gseen_stale|]; now split).
  - pose proof H as (c0 & W & H0). pose proof (gw_x _ _ W) as L.
    destruct o as [f v|v|c| | |i|]; try discriminate Ho; cbn [gstep HistoryGerg.nextx HistoryGerg.nextt length plus] in *.
    + injection E as <- _. split; [|destruct f; split; reflexivity]. exists c0. split; [now apply gwf_poke|]. destruct f; exact H0.
    + injection E as <- _. split; [|split; reflexivity]. exists c0. split; [apply gwf_set_x; [reflexivity|exact W]|exact H0].
    + rewrite gset_comp in E by exact L. cbn [bind] in E. injection E as <- _.
      destruct (comp_check c); (split; [|split; reflexivity]); [|exact H]. exists c0. split; [now apply gwf_set_x|exact H0].
    + rewrite gmm_ok in E by exact L. cbn [bind] in E. injection E as <- _. split; [|split; reflexivity].
      exists c0. split; [now apply (gwf_poke PMM)|exact H0].
Qed.
Lemma grun_stale l l2 : forall N s s' r, gstale N s ->
  incl (asked 22 (fun c => f0 :: fractions c) (g_x s) (g_t s) (l ++ l2)) V -> grun l s = Some (s', r) ->
  gstale (length (asked 22 (fun c => f0 :: fractions c) (g_x s) (g_t s) l) + N) s' /\
  incl (asked 22 (fun c => f0 :: fractions c) (g_x s') (g_t s') l2) V.
Proof.
  induction l as [|o l IH]; intros N s s' r H Hin E; cbn [grun] in E.
  - injection E as <- _. auto.
  - cbn [app] in Hin. rewrite HistoryGerg.asked_cons in Hin. apply incl_app_inv in Hin. destruct Hin as [Hin1 Hin2].
    destruct (gstep o s) as [[s1 r1]|] eqn:E1; [|discriminate E]. cbn [bind] in E.
    destruct (grun l s1) as [[s2 r2]|] eqn:E2; [|discriminate E]. cbn [bind] in E. injection E as <- _.
    destruct (gstep_stale N o s s1 r1 H Hin1 E1) as (H1 & Ex & Et). rewrite HistoryGerg.asked_cons, app_length.
    rewrite <- Ex, <- Et in Hin2 |- *.
    destruct (IH _ _ _ _ H1 Hin2 E2) as (A & B). split; [|exact B].
    replace (length (match o with Pressure | Density _ | Properties => [(g_x s, g_t s)] | _ => [] end)
      + length (asked 22 (fun c => f0 :: fractions c) (g_x s1) (g_t s1) l) + N)%nat
      with (length (asked 22 (fun c => f0 :: fractions c) (g_x s1) (g_t s1) l) + (length (match o with Pressure | Density _ | Properties => [(g_x s, g_t s)] | _ => [] end) + N))%nat by lia.
    exact A.
Qed.
End V.

Lemma gstale_fresh V : gstale V 0 gerg_fresh.
Proof. exists gc_zero. split; [exact gwf_fresh|]. left. intros i Hi. reflexivity. Qed.
Lemma gfresh_x : @g_x ArithR gerg_fresh = repeat (@f0 ArithR) 22. Proof. reflexivity. Qed.
Lemma gfresh_t : @g_t ArithR gerg_fresh = @f0 ArithR. Proof. reflexivity. Qed.
(* a new object asked once, for composition y *)
Lemma fresh_red (y : list R) : length y = 22%nat -> (exists i, (1 <= i < 22)%nat /\ 1 / 10000000 < nth i y 0) ->
  exists s1 r1, gexec New [SetX (A := ArithR) (fun i => nth i y 0); Pressure] = Some (s1, r1) /\
    g_drold s1 = gdr (xf y) /\ g_trold s1 = gtr (xf y).
Proof.
  intros L (i & Hi & Hx).
  assert (Y : @map nat (@F ArithR) (fun i => nth i y 0) (seq 0 22) = y).
  { do 22 (destruct y as [|? y]; [discriminate L|]). destruct y; [reflexivity|discriminate L]. }
  enough (G : exists s1 r1, grun [SetX (A := ArithR) (fun i => nth i y 0); Pressure] gerg_fresh = Some (s1, r1) /\
    g_drold s1 = gdr (xf y) /\ g_trold s1 = gtr (xf y)).
  { destruct G as (s & r & G & Hh). exists s, r. split; [now apply gexec_new|exact Hh]. }
  cbn [grun gstep]. rewrite Y. cbn [bind].
  pose proof (gwf_set_x y gc_zero gerg_fresh L (@gwf_fresh ArithR)) as W.
  assert (X : g_x (set_g_x (A := ArithR) y gerg_fresh) = y) by apply gsetx_x.
  assert (O : g_xold (set_g_x (A := ArithR) y gerg_fresh) = repeat (@f0 ArithR) 22) by (rewrite gsetx_xold; exact gfresh_xold).
  revert W X O. generalize (set_g_x (A := ArithR) y gerg_fresh). intros s W X O.
  destruct (g_eval_press _ s W) as (s' & p & E & W' & _). rewrite E. cbn [bind]. do 2 eexists. split; [reflexivity|].
  assert (D : gx_diff (g_x s) (g_xold s) = true) by (rewrite O, X; exact (gx_diff_0 y i Hi Hx)).
  destruct (gal_renew gc_zero s D) as [A B]. rewrite X in A, B. split.
  - rewrite <- A. exact (gw_dr _ _ W').
  - rewrite <- B. exact (gw_tr _ _ W').
Qed.
Lemma g_stale_bound : forall l op (s s' : @Gerg ArithR) r o, gexec New l = Some (s, r) ->
  (op = Pressure \/ (exists i, op = Density i) \/ op = Properties) ->
  (forall x t, In (x, t) (gasked (l ++ [op])) -> exists i, (1 <= i < 22)%nat /\ 1 / 10000000 < nth i x 0) ->
  gstep op s = Some (s', o) ->
  exists y s1 r1, (exists u, In (y, u) (gasked (l ++ [op]))) /\
    (forall i, (1 <= i < 22)%nat -> Rabs (nth i y 0 - nth i (g_x s') 0) <= INR (length (gasked l)) / 10000000) /\
    gexec New [SetX (A := ArithR) (fun i => nth i y 0); Pressure] = Some (s1, r1) /\
    g_drold s' = g_drold s1 /\ g_trold s' = g_trold s1.
Proof.
  intros l op s s' r o E Hop HV Eo. set (V := gasked (l ++ [op])) in *.
  assert (Ho : evals op = true) by (destruct Hop as [->|[[i ->]| ->]]; reflexivity).
  assert (HV' : forall x t, In (x, t) V -> length x = 22%nat /\ exists i, (1 <= i < 22)%nat /\ 1 / 10000000 < nth i x 0).
  { intros x t H. split; [|now apply (HV x t)]. revert H. apply HistoryGerg.asked_lengths. reflexivity. }
  pose proof (gexec_new_inv _ _ E) as E0.
  generalize (grun_stale V HV' l [op] 0 gerg_fresh s r (gstale_fresh V)). rewrite gfresh_x, gfresh_t, Nat.add_0_r.
  intros G. destruct (G (incl_refl _) E0) as (H1 & Hin). clear G.
  assert (I : In (g_x s, g_t s) V). { apply Hin. destruct Hop as [->|[[i ->]| ->]]; now left. }
  destruct (eval_stale V HV' _ op s s' o Ho H1 I Eo) as ((c & W & (y & u & Iy & A & B & K) & _) & _ & _).
  destruct (HV' y u Iy) as (L & Hy). destruct (fresh_red y L Hy) as (s1 & r1 & E1 & D1 & T1).
  exists y, s1, r1. split; [eauto|]. split; [intros i Hi; exact (div7 _ _ (K i Hi))|]. split; [exact E1|].
  split.
  - rewrite D1. exact (eq_trans (gw_dr _ _ W) A).
  - rewrite T1. exact (eq_trans (gw_tr _ _ W) B).
Qed.
