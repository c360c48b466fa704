(* History independence of DETAIL for separated histories. *)
From Coq Require Import ZArith List Bool Lia.
From Verif Require Import FArith Prelude Tab Composition DetailTables DetailModel DetailPure
  DetailRefine DetailEval GergModel Api ApiSafe SpecGeneric SpecHistory DensityProofs BasicProofs
  GenericLemmas.
Import ListNotations.

Section Hist.
Context {A : Arith} {P : DParams}.
Local Open Scope bool_scope.
Local Open Scope F_scope.
Local Opaque ar_of ar00 ar01 ar02 ar03 ar10 ar11 ar20 cTun cBs cCsn cK3 x_diff pa0 pmm tab
  pressure properties.

Section V.
Variable V : list (list F * F).
Hypothesis HV : separated 0 V.
Hypothesis HL : forall x t, In (x, t) V -> length x = 21%nat.

(* caches are absent or those of some earlier input *)
Definition xinv (cx : option (list F)) (xo : list F) : Prop :=
  (cx = None /\ xo = repeat f0 21) \/ (exists x t, In (x, t) V /\ xo = x /\ cx = Some x).
Definition tinv (ct : option F) (to : F) : Prop :=
  (ct = None /\ to = f0) \/ (exists x t, In (x, t) V /\ to = t /\ ct = Some t).
Definition hinv (s : Detail) : Prop :=
  exists cx ct, wf cx ct s /\ xinv cx (d_xold s) /\ tinv ct (d_told s).

Lemma xapart_diff x y : length x = 21%nat -> xapart 0 x y -> x_diff x y = true.
Proof.
  intros Hx (i & Hi & Ha). Local Transparent x_diff. unfold x_diff. apply existsb_exists.
  exists i. split; [apply in_seq; lia|exact Ha]. Local Opaque x_diff.
Qed.
Lemma xinv_new x t cx xo : In (x, t) V -> xinv cx xo -> new_cx x xo cx = Some x.
Proof.
  intros Hin [[-> ->]|(x' & t' & Hin' & -> & ->)]; unfold new_cx.
  - rewrite xapart_diff; [reflexivity|now apply (HL x t)|].
    pose proof (proj1 (proj2 HV x t Hin)) as H. now rewrite (HL x t Hin) in H.
  - destruct (proj1 (proj1 HV _ _ _ _ Hin Hin')) as [<-|Ha].
    + now destruct (x_diff x x).
    + rewrite xapart_diff; [reflexivity|now apply (HL x t)|assumption].
Qed.
Lemma tinv_new x t ct to : In (x, t) V -> tinv ct to -> new_ct t to ct = Some t.
Proof.
  intros Hin [[-> ->]|(x' & t' & Hin' & -> & ->)]; unfold new_ct, differs.
  - pose proof (proj2 (proj2 HV x t Hin)) as H. unfold apart in H. now rewrite H.
  - destruct (proj2 (proj1 HV _ _ _ _ Hin Hin')) as [<-|Ha].
    + now destruct (_ >? _).
    + unfold apart in Ha. now rewrite Ha.
Qed.

Definition sim (s1 s2 : Detail) : Prop := dsame s1 s2 /\ hinv s1 /\ hinv s2.

Lemma hinv_evald x t s' : In (x, t) V -> d_xold s' = x -> d_told s' = t ->
  wf (Some x) (Some t) s' -> hinv s'.
Proof.
  intros Hin Ex Et W. exists (Some x), (Some t). split; [assumption|]. split; right; eauto 10.
Qed.

Lemma press_hist s : hinv s -> In (d_x s, d_t s) V ->
  let k := cache_of (Some (d_x s)) (Some (d_t s)) in
  exists s', pressure s = Some (s', pp k (d_t s) (d_d s)) /\ hinv s' /\
    dframe [PZ] s s' /\ d_z s' = pz k (d_t s) (d_d s) /\
    d_dp_dd_save s' = pdpdd k (d_t s) (d_d s).
Proof.
  intros (cx & ct & W & Hx & Ht) Hin k.
  assert (Ex : ncx cx s = Some (d_x s)) by (eapply xinv_new; eassumption).
  assert (Et : nct ct s = Some (d_t s)) by (eapply tinv_new; eassumption).
  pose proof (pressure_ok _ _ _ W) as E. pose proof (wf_press _ _ _ W) as W1.
  rewrite press_flat in E, W1. unfold ncache in E, W1. rewrite Ex, Et in E, W1.
  eexists. split; [exact E|].
  split; [eapply hinv_evald; [eassumption|reflexivity|reflexivity|exact W1]|].
  split; [|split; reflexivity]. split; [reflexivity|].
  intros f Hf. destruct f; try reflexivity. elim Hf. now left.
Qed.

Lemma dframe_same w s1 s2 s1' s2' : dsame s1 s2 -> dframe w s1 s1' -> dframe w s2 s2' ->
  (forall f, In f w -> dread f s1' = dread f s2') -> dsame s1' s2'.
Proof.
  intros [Hx Hf] [Hx1 Hf1] [Hx2 Hf2] Hw. split; [congruence|]. intros f.
  destruct (in_dec (fun a b : pfield => ltac:(decide equality)) f w) as [Hi|Hi]; [auto|].
  now rewrite Hf1, Hf2.
Qed.

Lemma sim_in s1 s2 : dsame s1 s2 -> In (d_x s1, d_t s1) V -> In (d_x s2, d_t s2) V.
Proof.
  intros [Hx Hf] H. rewrite <- Hx. pose proof (Hf PT) as Ht. cbn in Ht. now rewrite <- Ht.
Qed.

Lemma press_sim s1 s2 : sim s1 s2 -> In (d_x s1, d_t s1) V ->
  exists s1' s2' p, pressure s1 = Some (s1', p) /\ pressure s2 = Some (s2', p) /\
    sim s1' s2' /\ d_dp_dd_save s1' = d_dp_dd_save s2' /\
    d_x s1' = d_x s1 /\ d_t s1' = d_t s1.
Proof.
  intros (Hs & H1 & H2) Hin. pose proof (sim_in _ _ Hs Hin) as Hin2.
  destruct (press_hist s1 H1 Hin) as (s1' & E1 & K1 & F1 & Z1 & D1).
  destruct (press_hist s2 H2 Hin2) as (s2' & E2 & K2 & F2 & Z2 & D2).
  assert (Ex : d_x s2 = d_x s1) by (symmetry; apply Hs).
  assert (Et : d_t s2 = d_t s1) by (symmetry; apply (proj2 Hs PT)).
  assert (Ed : d_d s2 = d_d s1) by (symmetry; apply (proj2 Hs PD)).
  rewrite Ex, Et, Ed in E2, Z2, D2.
  exists s1', s2'. eexists. split; [exact E1|]. split; [exact E2|].
  split; [|split; [congruence|split; [apply F1|apply (proj2 F1 PT)]]].
  - split; [|split; assumption]. apply (dframe_same [PZ] s1 s2); try assumption.
    intros f [<-|[]]. cbn [dread]. congruence.
  - intros [|[]]; discriminate.
Qed.

Lemma hinv_poke f v s : hinv s -> hinv (dpoke f v s).
Proof.
  intros (cx & ct & W & Hx & Ht). exists cx, ct. split; [now apply wf_poke|].
  destruct f; split; assumption.
Qed.
Lemma hinv_set_x l s : length l = 21%nat -> hinv s -> hinv (set_d_x l s).
Proof.
  intros Hl (cx & ct & W & Hx & Ht). exists cx, ct. split; [now apply wf_set_x|]. now split.
Qed.
Lemma sim_poke f v s1 s2 : sim s1 s2 -> sim (dpoke f v s1) (dpoke f v s2).
Proof.
  intros (Hs & H1 & H2). split; [|split; now apply hinv_poke].
  destruct Hs as [Hx Hf]. split.
  - destruct f; exact Hx.
  - intros g. pose proof (Hf g) as Hg. destruct f, g; cbn in *; congruence.
Qed.
Lemma sim_set_d v s1 s2 : sim s1 s2 -> sim (set_d_d v s1) (set_d_d v s2).
Proof. apply (sim_poke PD). Qed.
Lemma sim_set_x l s1 s2 : length l = 21%nat -> sim s1 s2 -> sim (set_d_x l s1) (set_d_x l s2).
Proof.
  intros Hl (Hs & H1 & H2). split; [|split; now apply hinv_set_x].
  split; [reflexivity|]. intros g. pose proof (proj2 Hs g) as Hg. destruct g; exact Hg.
Qed.

Lemma loop_sim plog n : forall v s1 s2, sim s1 s2 -> In (d_x s1, d_t s1) V ->
  exists s1' s2' r, density_loop n plog v s1 = Some (s1', r) /\
    density_loop n plog v s2 = Some (s2', r) /\ sim s1' s2' /\
    d_x s1' = d_x s1 /\ d_t s1' = d_t s1.
Proof.
  assert (Hfail : forall s1 s2, sim s1 s2 -> exists s1' s2' r,
    Some (density_fail s1) = Some (s1', r) /\ Some (density_fail s2) = Some (s2', r) /\
    sim s1' s2' /\ d_x s1' = d_x s1 /\ d_t s1' = d_t s1).
  { intros s1 s2 Hs. unfold density_fail. do 3 eexists. split; [reflexivity|].
    split; [reflexivity|]. split; [|split; reflexivity].
    assert (E : d_p s2 / RDETAIL / d_t s2 = d_p s1 / RDETAIL / d_t s1).
    { destruct Hs as ((_ & Hf) & _). pose proof (Hf PP) as E1. pose proof (Hf PT) as E2.
      cbn in E1, E2. congruence. }
    rewrite E. now apply sim_set_d. }
  induction n as [|n IH]; intros v s1 s2 Hs Hin; cbn [density_loop].
  - now apply Hfail.
  - destruct (negb (vlog_ok v)); [now apply Hfail|]. cbv zeta.
    pose proof (sim_set_d (fexp (- v)) _ _ Hs) as Hs'.
    destruct (press_sim _ _ Hs' Hin) as (s1' & s2' & p & E1 & E2 & Hs2 & Ed & Ex & Et).
    rewrite E1, E2. cbn [bind]. rewrite <- Ed.
    assert (Edd : d_d s2' = d_d s1').
    { destruct Hs2 as ((_ & Hf) & _). symmetry. exact (Hf PD). }
    rewrite Edd.
    assert (Hin' : In (d_x s1', d_t s1') V) by (rewrite Ex, Et; exact Hin).
    assert (Hrec : forall v', exists t1 t2 r, density_loop n plog v' s1' = Some (t1, r) /\
      density_loop n plog v' s2' = Some (t2, r) /\ sim t1 t2 /\ d_x t1 = d_x s1 /\ d_t t1 = d_t s1).
    { intros v'. destruct (IH v' _ _ Hs2 Hin') as (t1 & t2 & r & R1 & R2 & R3 & R4 & R5).
      exists t1, t2, r. split; [exact R1|]; split; [exact R2|]; split; [exact R3|]; split; [rewrite R4; exact Ex|rewrite R5; exact Et]. }
    destruct (_ || _); [apply Hrec|]. destruct (fabs _ <? TOLR); [|apply Hrec].
    do 3 eexists. split; [reflexivity|]. split; [reflexivity|].
    split; [now apply sim_set_d|]. split; assumption.
Qed.

Lemma density_sim s1 s2 : sim s1 s2 -> In (d_x s1, d_t s1) V ->
  exists s1' s2' r, density s1 = Some (s1', r) /\ density s2 = Some (s2', r) /\ sim s1' s2' /\
    d_x s1' = d_x s1 /\ d_t s1' = d_t s1.
Proof.
  intros Hs Hin. unfold density. pose proof Hs as ((_ & Hf) & _).
  pose proof (Hf PP) as Ep. pose proof (Hf PT) as Et. pose proof (Hf PD) as Ed. cbn in Ep, Et, Ed.
  rewrite <- Ep. destruct (fabs (d_p s1) <? EPSILON).
  - do 3 eexists. split; [reflexivity|]. split; [reflexivity|].
    split; [now apply sim_set_d|]. split; reflexivity.
  - cbv zeta. rewrite !density_start_eq. unfold dguess. rewrite <- Ed, <- Ep, <- Et.
    set (g := if - EPSILON <? d_d s1 then _ else _). dsimp. rewrite <- Ep.
    destruct (loop_sim (fln (d_p s1)) 20 (- fln g) _ _ (sim_set_d g _ _ Hs) Hin) as
      (s1' & s2' & r & R). exists s1', s2', r. exact R.
Qed.

Lemma props_hist s : hinv s -> In (d_x s, d_t s) V ->
  exists s', properties s = Some s' /\ hinv s' /\ d_x s' = d_x s /\
    forall f, dread f s' = dread f (res_st (cache_of (Some (d_x s)) (Some (d_t s))) (xf (d_x s))
      (d_t s) (d_d s) (set_d_mm (pmm (xf (d_x s))) s)).
Proof.
  intros (cx & ct & W & Hx & Ht) Hin.
  assert (Ex : ncx cx s = Some (d_x s)) by (eapply xinv_new; eassumption).
  assert (Et : nct ct s = Some (d_t s)) by (eapply tinv_new; eassumption).
  pose proof (properties_ok _ _ _ W) as E. pose proof (wf_props _ _ _ W) as W1.
  rewrite props_flat in E, W1. cbv zeta in E, W1. unfold ncache in E, W1. rewrite Ex, Et in E, W1.
  eexists. split; [exact E|].
  split; [eapply hinv_evald; [eassumption|reflexivity|reflexivity|exact W1]|].
  split; [reflexivity|]. intros []; reflexivity.
Qed.
Lemma props_sim s1 s2 : sim s1 s2 -> In (d_x s1, d_t s1) V ->
  exists s1' s2', properties s1 = Some s1' /\ properties s2 = Some s2' /\ sim s1' s2' /\
    d_x s1' = d_x s1 /\ d_t s1' = d_t s1.
Proof.
  intros (Hs & H1 & H2) Hin. pose proof (sim_in _ _ Hs Hin) as Hin2.
  destruct (props_hist s1 H1 Hin) as (s1' & E1 & K1 & X1 & F1).
  destruct (props_hist s2 H2 Hin2) as (s2' & E2 & K2 & X2 & F2).
  assert (Ex : d_x s2 = d_x s1) by (symmetry; apply Hs).
  assert (Et : d_t s2 = d_t s1) by (symmetry; apply (proj2 Hs PT)).
  assert (Ed : d_d s2 = d_d s1) by (symmetry; apply (proj2 Hs PD)).
  exists s1', s2'. split; [assumption|]. split; [assumption|].
  split; [|split; [assumption|exact (F1 PT)]].
  split; [|split; assumption]. split; [congruence|]. intros f. rewrite F1, F2.
  rewrite Ex, Et, Ed. destruct f; try reflexivity; symmetry; [exact Et|exact Ed].
Qed.

(* what a step makes of the inputs *)
Definition nextx (o : op) (x : list F) : list F :=
  match o with
  | SetX v => map v (seq 0 21)
  | SetComp c => match comp_check c with ROk => fractions c | RErr _ => x end
  | _ => x
  end.
Definition nextt (o : op) (t : F) : F := match o with Poke PT v => v | _ => t end.
Lemma asked_cons o l x t :
  asked 21 fractions x t (o :: l)
  = match o with Pressure | Density _ | Properties => [(x, t)] | _ => [] end
    ++ asked 21 fractions (nextx o x) (nextt o t) l.
Proof. destruct o as [f v|v|c| | |i|]; try reflexivity. destruct f; reflexivity. Qed.

Lemma step_sim o s1 s2 : sim s1 s2 ->
  incl (match o with Pressure | Density _ | Properties => [(d_x s1, d_t s1)] | _ => [] end) V ->
  exists s1' s2' r, dstep o s1 = Some (s1', r) /\ dstep o s2 = Some (s2', r) /\ sim s1' s2' /\
    d_x s1' = nextx o (d_x s1) /\ d_t s1' = nextt o (d_t s1).
Proof.
  intros Hs Hin. pose proof Hs as (Hq & (cx1 & ct1 & W1 & _) & (cx2 & ct2 & W2 & _)).
  pose proof (wf_x _ _ _ W1) as L1. pose proof (wf_x _ _ _ W2) as L2.
  destruct o as [f v|v|c| | |i|]; cbn [dstep nextx nextt].
  - do 3 eexists. split; [reflexivity|]. split; [reflexivity|].
    split; [now apply sim_poke|]. destruct f; split; reflexivity.
  - do 3 eexists. split; [reflexivity|]. split; [reflexivity|].
    split; [apply sim_set_x; [now rewrite map_length, seq_length|assumption]|]. split; reflexivity.
  - rewrite !dset_comp by assumption. cbn [bind].
    do 3 eexists. split; [reflexivity|]. split; [reflexivity|].
    destruct (comp_check c).
    + split; [now apply sim_set_x|]. split; reflexivity.
    + split; [assumption|]. split; reflexivity.
  - rewrite !molar_mass_ok by assumption. cbn [bind].
    assert (Ex : d_x s2 = d_x s1) by (symmetry; apply Hq). rewrite Ex.
    do 3 eexists. split; [reflexivity|]. split; [reflexivity|].
    split; [now apply (sim_poke PMM)|]. split; reflexivity.
  - destruct (press_sim s1 s2 Hs (Hin _ (or_introl eq_refl)))
      as (s1' & s2' & p & E1 & E2 & K & _ & Ex & Et).
    rewrite E1, E2. cbn [bind]. eauto 10.
  - destruct (density_sim s1 s2 Hs (Hin _ (or_introl eq_refl)))
      as (s1' & s2' & r & E1 & E2 & K & Ex & Et).
    rewrite E1, E2. cbn [bind]. eauto 10.
  - destruct (props_sim s1 s2 Hs (Hin _ (or_introl eq_refl))) as (s1' & s2' & E1 & E2 & K & Ex & Et).
    rewrite E1, E2. cbn [bind]. eauto 10.
Qed.

Lemma run_sim l : forall s1 s2, sim s1 s2 -> incl (asked 21 fractions (d_x s1) (d_t s1) l) V ->
  exists s1' s2' r, drun l s1 = Some (s1', r) /\ drun l s2 = Some (s2', r) /\ sim s1' s2'.
Proof.
  induction l as [|o l IH]; intros s1 s2 Hs Hin; cbn [drun].
  - exists s1, s2, []. auto.
  - rewrite asked_cons in Hin. apply incl_app_inv in Hin. destruct Hin as [Hin1 Hin2].
    destruct (step_sim o s1 s2 Hs Hin1) as (s1' & s2' & r & E1 & E2 & K & Ex & Et).
    rewrite E1, E2. cbn [bind]. rewrite <- Ex, <- Et in Hin2.
    destruct (IH _ _ K Hin2) as (t1 & t2 & rs & R1 & R2 & R). rewrite R1, R2. cbn [bind].
    eauto 10.
Qed.
Lemma dsame_refl s : dsame s s. Proof. now split. Qed.
Lemma run_hinv l l2 : forall s s' r, hinv s ->
  incl (asked 21 fractions (d_x s) (d_t s) (l ++ l2)) V -> drun l s = Some (s', r) ->
  hinv s' /\ incl (asked 21 fractions (d_x s') (d_t s') l2) V.
Proof.
  induction l as [|o l IH]; intros s s' r H Hin E; cbn [drun] in E.
  - injection E as <- _. auto.
  - cbn [app] in Hin. rewrite asked_cons in Hin. apply incl_app_inv in Hin.
    destruct Hin as [Hin1 Hin2].
    destruct (step_sim o s s) as (s1 & s2 & r1 & E1 & E2 & K & Ex & Et);
      [split; [apply dsame_refl|now split]|assumption|].
    rewrite E1 in E. cbn [bind] in E.
    destruct (drun l s1) as [[s3 r3]|] eqn:E3; [|discriminate E]. cbn [bind] in E.
    injection E as <- _. rewrite <- Ex, <- Et in Hin2.
    eapply IH; [|exact Hin2|exact E3]. apply K.
Qed.
End V.

Lemma asked_lengths l : forall x t, length x = 21%nat ->
  forall y u, In (y, u) (asked 21 fractions x t l) -> length y = 21%nat.
Proof.
  induction l as [|o l IH]; intros x t Hx y u Hin; [elim Hin|].
  rewrite asked_cons in Hin. apply in_app_or in Hin. destruct Hin as [Hin|Hin].
  - destruct o; try elim Hin; intros E; try injection E as <- _; try assumption; elim E.
  - eapply IH; [|exact Hin]. destruct o as [f v|v|c| | |i|]; try exact Hx.
    + reflexivity.
    + cbn [nextx]. destruct (comp_check c); [reflexivity|exact Hx].
Qed.

(* copying the public fields into a new object *)
Lemma copy_pokes V fs s : forall s1, hinv V s1 ->
  exists s2 r, drun (map (fun f => Poke f (dread f s)) fs) s1 = Some (s2, r) /\ hinv V s2 /\
    d_x s2 = d_x s1 /\
    forall f, In f fs \/ dread f s1 = dread f s -> dread f s2 = dread f s.
Proof.
  induction fs as [|g fs IH]; intros s1 H; cbn [map drun dstep bind].
  - exists s1, []. repeat split; try assumption. intros f [[]|E]; exact E.
  - destruct (IH (dpoke g (dread g s) s1) (hinv_poke _ _ _ _ H)) as (s2 & r & E & K & Ex & Hf).
    rewrite E. cbn [bind]. exists s2, (OUnit :: r). split; [reflexivity|]. split; [assumption|].
    split; [rewrite Ex; destruct g; reflexivity|].
    intros f Hi. apply Hf. destruct Hi as [[->|Hi]|Hi].
    + right. destruct f; reflexivity.
    + now left.
    + right. destruct f, g; try exact Hi; reflexivity.
Qed.
Lemma copy_run V s s1 : hinv V s1 -> length (d_x s) = 21%nat ->
  exists s2 r, drun (dcopy s) s1 = Some (s2, r) /\ hinv V s2 /\ dsame s s2.
Proof.
  intros H Hx. unfold dcopy. cbn [drun dstep bind].
  set (x := map (fun i => nth i (d_x s) f0) (seq 0 21)).
  assert (E : x = d_x s).
  { unfold x. symmetry. etransitivity; [apply (list_tab' 21 (d_x s) f0 Hx)|].
    Local Transparent tab. reflexivity. Local Opaque tab. }
  destruct (copy_pokes V all_fields s (set_d_x x s1)) as (s2 & r & E2 & K & Ex & Hf).
  { apply hinv_set_x; [now rewrite E|assumption]. }
  rewrite E2. cbn [bind]. do 2 eexists. split; [reflexivity|]. split; [assumption|].
  split; [rewrite Ex; symmetry; exact E|]. intros f. symmetry. apply Hf. left.
  destruct f; cbn; tauto.
Qed.
End Hist.

Lemma dhistory {A : Arith} : forall k l l2 s r, dexec k l = Some (s, r) ->
  separated 0 (dasked (l ++ l2)) ->
  exists s1 r1, dexec k (dcopy s) = Some (s1, r1) /\
  exists s2 s3 r2, drun l2 s = Some (s2, r2) /\ drun l2 s1 = Some (s3, r2) /\ dsame s2 s3.
Proof.
  intros k l l2 s r E HV. unfold dexec in *.
  set (V := dasked (l ++ l2)) in *.
  assert (HL : forall x t, In (x, t) V -> length x = 21%nat).
  { intros x t. apply asked_lengths. reflexivity. }
  assert (H0 : exists s0, dstart k = Some s0 /\ @hinv _ (dpar k) V s0
    /\ d_x s0 = repeat f0 21 /\ d_t s0 = f0).
  { destruct k; cbn [dstart dpar].
    - exists detail_fresh. split; [exact detail_new_ok|]. split; [|split; reflexivity].
      exists None, None. split; [exact wf_fresh|]. split; left; split; reflexivity.
    - exists detail_default. split; [reflexivity|]. split; [|split; reflexivity].
      exists None, None. split; [exact wf_default|]. split; left; split; reflexivity. }
  destruct H0 as (s0 & E0 & H0 & Ex0 & Et0). rewrite E0 in E |- *. cbn [bind] in E |- *.
  assert (Hin : incl (asked 21 fractions (d_x s0) (d_t s0) (l ++ l2)) V).
  { rewrite Ex0, Et0. apply incl_refl. }
  destruct (run_hinv V HV HL l l2 s0 s r H0 Hin E) as [Hs Hin2].
  assert (Hx : length (d_x s) = 21%nat) by (destruct Hs as (cx & ct & W & _); exact (wf_x _ _ _ W)).
  destruct (copy_run V s s0 H0 Hx) as (s1 & r1 & E1 & K1 & Hsame).
  exists s1, r1. split; [exact E1|].
  destruct (@run_sim _ (dpar k) V HV HL l2 s s1) as (s2 & s3 & r2 & R1 & R2 & R3);
    [split; [exact Hsame|split; assumption]|exact Hin2|].
  exists s2, s3, r2. split; [exact R1|]. split; [exact R2|]. apply R3.
Qed.
