(* Drift: a history of evaluations in which each input differs from the one before by less than the
   code's comparison can see leaves the cached terms those of the first input. *)
From Coq Require Import ZArith List Bool Lia.
From Verif Require Import FArith Prelude Tab Composition DetailTables DetailModel DetailPure
  DetailRefine DetailEval GergTables GergModel GergPure GergRefine GergEval Api ApiSafe SpecGeneric
  SpecHistory DensityProofs BasicProofs GenericLemmas HistoryGerg.
Import ListNotations.

(* n rounds: change an input, evaluate *)
Fixpoint ramp {A : Arith} (o : nat -> op) (n : nat) : list op :=
  match n with O => [] | S m => ramp o m ++ [o (S m); Pressure] end.

Lemma drun_app {A : Arith} l l' : forall s, drun (l ++ l') s =
  match drun l s with Some (s1, r) => match drun l' s1 with Some (s2, r2) => Some (s2, r ++ r2) | None => None end | None => None end.
Proof.
  induction l as [|o l IH]; intros s; cbn [app drun].
  - destruct (drun l' s) as [[? ?]|]; reflexivity.
  - destruct (dstep o s) as [[s1 r]|]; [|reflexivity]. cbn [bind]. rewrite IH.
    destruct (drun l s1) as [[s2 r2]|]; [|reflexivity]. cbn [bind].
    destruct (drun l' s2) as [[s3 r3]|]; reflexivity.
Qed.
Lemma grun_app {A : Arith} l l' : forall s, grun (l ++ l') s =
  match grun l s with Some (s1, r) => match grun l' s1 with Some (s2, r2) => Some (s2, r ++ r2) | None => None end | None => None end.
Proof.
  induction l as [|o l IH]; intros s; cbn [app grun].
  - destruct (grun l' s) as [[? ?]|]; reflexivity.
  - destruct (gstep o s) as [[s1 r]|]; [|reflexivity]. cbn [bind]. rewrite IH.
    destruct (grun l s1) as [[s2 r2]|]; [|reflexivity]. cbn [bind].
    destruct (grun l' s2) as [[s3 r3]|]; reflexivity.
Qed.

Lemma dexec_app {A : Arith} k l l' s r s' r' : dexec k l = Some (s, r) -> drun l' s = Some (s', r') ->
  dexec k (l ++ l') = Some (s', r ++ r').
Proof.
  unfold dexec. generalize (dstart k). intros [b|] E E'; [|discriminate E]. cbn [bind] in *.
  now rewrite drun_app, E, E'.
Qed.
Lemma gexec_app {A : Arith} k l l' s r s' r' : gexec k l = Some (s, r) -> grun l' s = Some (s', r') ->
  gexec k (l ++ l') = Some (s', r ++ r').
Proof.
  unfold gexec. generalize (gstart k). intros [b|] E E'; [|discriminate E]. cbn [bind] in *.
  now rewrite grun_app, E, E'.
Qed.
Lemma dexec_new {A : Arith} l s r : drun l detail_fresh = Some (s, r) -> dexec New l = Some (s, r).
Proof.
  intros E. unfold dexec. refine (eq_trans (f_equal (fun o => bind o (drun l)) (detail_new_ok : dstart New = _)) _). exact E.
Qed.
Lemma gexec_new {A : Arith} l s r : grun l gerg_fresh = Some (s, r) -> gexec New l = Some (s, r).
Proof.
  intros E. unfold gexec. refine (eq_trans (f_equal (fun o => bind o (grun l)) (gerg_new_ok : gstart New = _)) _). exact E.
Qed.

Lemma bind_inv {S T} (o : option S) (f : S -> option T) s r : o = Some s -> bind o f = r -> f s = r.
Proof. intros -> E. exact E. Qed.
Lemma dexec_new_inv {A : Arith} l sr : dexec New l = Some sr -> drun l detail_fresh = Some sr.
Proof. exact (bind_inv (dstart New) (drun l) detail_fresh (Some sr) detail_new_ok). Qed.
Lemma gexec_new_inv {A : Arith} l sr : gexec New l = Some sr -> grun l gerg_fresh = Some sr.
Proof. exact (bind_inv (gstart New) (grun l) gerg_fresh (Some sr) gerg_new_ok). Qed.

Section D.
Context {A : Arith} {P : DParams}.
Local Open Scope bool_scope.
Local Open Scope F_scope.
Local Opaque ar_of ar00 ar01 ar02 ar03 ar10 ar11 ar20 cTun cBs cCsn cK3 x_diff pa0 pmm tab
  pressure properties differs.

(* the caches are those of (x0, t0); the inputs, also the remembered ones, are (x, t) *)
Record held (cx : option (list F)) (ct : option F) (x : list F) (t d : F) (s : Detail) : Prop := {
  h_wf : wf cx ct s; h_x : d_x s = x; h_t : d_t s = t; h_d : d_d s = d;
  h_xo : d_xold s = x; h_to : d_told s = t }.

Lemma press_held cx ct s x t : wf cx ct s -> d_xold s = x -> d_told s = t ->
  x_diff (d_x s) x = false -> differs (d_t s) t = false ->
  exists s', pressure s = Some (s', pp (cache_of cx ct) (d_t s) (d_d s)) /\
    held cx ct (d_x s) (d_t s) (d_d s) s'.
Proof.
  intros W Ex Et Hx Ht.
  assert (E1 : ncx cx s = cx) by (unfold ncx, new_cx; now rewrite Ex, Hx).
  assert (E2 : nct ct s = ct) by (unfold nct, new_ct; now rewrite Et, Ht).
  pose proof (pressure_ok _ _ _ W) as E. pose proof (wf_press _ _ _ W) as W1.
  rewrite press_flat in E, W1. unfold ncache in E, W1. rewrite E1, E2 in E, W1.
  eexists. split; [exact E|]. now constructor.
Qed.
Lemma press_new x t d s cx ct : wf cx ct s -> d_x s = x -> d_t s = t -> d_d s = d ->
  x_diff x (d_xold s) = true -> differs t (d_told s) = true ->
  exists s', pressure s = Some (s', pp (cache_of (Some x) (Some t)) t d) /\
    held (Some x) (Some t) x t d s'.
Proof.
  intros W <- <- <- Hx Ht.
  assert (E1 : ncx cx s = Some (d_x s)) by (unfold ncx, new_cx; now rewrite Hx).
  assert (E2 : nct ct s = Some (d_t s)) by (unfold nct, new_ct; now rewrite Ht).
  pose proof (pressure_ok _ _ _ W) as E. pose proof (wf_press _ _ _ W) as W1.
  rewrite press_flat in E, W1. unfold ncache in E, W1. rewrite E1, E2 in E, W1.
  eexists. split; [exact E|]. now constructor.
Qed.

(* temperature ramp *)
Lemma d_ramp_t (f : nat -> F) cx ct x d s : held cx ct x (f 0%nat) d s -> x_diff x x = false ->
  forall n, (forall i, (i < n)%nat -> differs (f (S i)) (f i) = false) ->
  exists s' r, drun (ramp (fun i => Poke PT (f i)) n) s = Some (s', r) /\ held cx ct x (f n) d s'.
Proof.
  intros H Hx. induction n as [|n IH]; intros Hf; cbn [ramp].
  - cbn [drun]. eauto.
  - destruct IH as (s1 & r1 & E1 & [W X T D XO TO]); [intros; apply Hf; lia|].
    rewrite drun_app, E1. cbn [drun dstep bind dpoke].
    destruct (press_held cx ct (set_d_t (f (S n)) s1) x (f n)) as (s2 & E2 & H2);
      [exact (wf_poke PT _ _ _ _ W)|exact XO|exact TO|change (x_diff (d_x s1) x = false); now rewrite X|apply Hf; lia|].
    rewrite E2. cbn [bind]. do 2 eexists. split; [reflexivity|].
    change (d_x (set_d_t (f (S n)) s1)) with (d_x s1) in H2.
    change (d_d (set_d_t (f (S n)) s1)) with (d_d s1) in H2. rewrite X, D in H2. exact H2.
Qed.
(* composition ramp *)
Lemma d_ramp_x (c : nat -> Composition) cx ct t d s : held cx ct (fractions (c 0%nat)) t d s ->
  differs t t = false -> (forall i, comp_check (c i) = ROk) ->
  forall n, (forall i, (i < n)%nat -> x_diff (fractions (c (S i))) (fractions (c i)) = false) ->
  exists s' r, drun (ramp (fun i => SetComp (c i)) n) s = Some (s', r) /\
    held cx ct (fractions (c n)) t d s'.
Proof.
  intros H Ht Hc. induction n as [|n IH]; intros Hf; cbn [ramp].
  - cbn [drun]. eauto.
  - destruct IH as (s1 & r1 & E1 & [W X T D XO TO]); [intros; apply Hf; lia|].
    rewrite drun_app, E1. cbn [drun dstep bind]. rewrite dset_comp by exact (wf_x _ _ _ W).
    rewrite Hc. cbn [bind].
    destruct (press_held cx ct (set_d_x (fractions (c (S n))) s1) (fractions (c n)) t) as (s2 & E2 & H2);
      [now apply wf_set_x|exact XO|exact TO|apply Hf; lia|change (differs (d_t s1) t = false); now rewrite T|].
    rewrite E2. cbn [bind]. do 2 eexists. split; [reflexivity|].
    change (d_t (set_d_x (fractions (c (S n))) s1)) with (d_t s1) in H2.
    change (d_d (set_d_x (fractions (c (S n))) s1)) with (d_d s1) in H2. rewrite T, D in H2. exact H2.
Qed.
End D.

Section G.
Context {A : Arith} {P : GParams}.
Local Open Scope bool_scope.
Local Open Scope F_scope.
Local Opaque gterms arT arS tab2 gc_red ga0 gmm gx_diff tab gerg_pressure gerg_properties differs.

(* the cached reducing parameters and temperature powers stay, only the remembered temperature moves *)
Definition at_t (c : gcache) (t : F) : gcache := mkGC (gc_dr c) (gc_tr c) t (gc_tr c) (gc_tp c) (gc_tm c).
Record gheld (c : gcache) (x : list F) (t d : F) (s : Gerg) : Prop := {
  gh_wf : gwf (at_t c t) s; gh_x : g_x s = x; gh_t : g_t s = t; gh_d : g_d s = d;
  gh_xo : slots_eq (g_xold s) x }.

Lemma gx_diff_slots x y z : slots_eq y z -> gx_diff x y = gx_diff x z.
Proof.
  Local Transparent gx_diff.
  intros H. unfold gx_diff.
  assert (G : forall l, (forall i, In i l -> (1 <= i < 22)%nat) ->
    existsb (fun i => differs (xf x i) (xf y i)) l = existsb (fun i => differs (xf x i) (xf z i)) l).
  { induction l as [|i l IH]; intros Hl; [reflexivity|]. cbn [existsb]. rewrite IH by (intros; apply Hl; now right).
    rewrite H by (apply Hl; now left). reflexivity. }
  apply G. intros i Hi. apply in_seq in Hi. lia.
  Local Opaque gx_diff.
Qed.
Lemma gpress_held c x t s : gwf (at_t c t) s -> slots_eq (g_xold s) x ->
  gx_diff (g_x s) x = false -> differs (g_t s) t = false -> differs (gc_tr c) (gc_tr c) = false ->
  exists s', gerg_pressure s =
      Some (s', gpp (cterms (g_x s) (g_t s) (g_d s) c) (g_t s) (g_d s)) /\
    gheld c (g_x s) (g_t s) (g_d s) s'.
Proof.
  intros W Hxo Hx Ht Hr.
  assert (C : gal_cache (at_t c t) s = at_t c (g_t s)).
  { unfold gal_cache, gc_next. Local Transparent gc_red. unfold gc_red. Local Opaque gc_red.
    rewrite (gx_diff_slots _ _ _ Hxo), Hx. unfold gc_tau, gc_fresh. cbn [at_t gc_told gc_tr gc_tr2].
    rewrite Ht, Hr. reflexivity. }
  pose proof (gpressure_ok _ _ W) as E. pose proof (gwf_press _ _ W) as W1.
  rewrite gpress_flat in E, W1. unfold gal_terms in E, W1. rewrite C in E, W1.
  eexists. split; [exact E|]. constructor; try reflexivity; [exact W1|].
  apply nxold_slots.
Qed.
Lemma gpress_new c0 s : gwf c0 s -> gx_diff (g_x s) (g_xold s) = true -> differs (g_t s) f0 = true ->
  exists s' c, gerg_pressure s =
      Some (s', gpp (can_terms (g_x s) (g_t s) (g_d s)) (g_t s) (g_d s)) /\
    gcan (g_x s) (g_t s) c /\ gheld c (g_x s) (g_t s) (g_d s) s' /\
    c = gc_next (g_x s) (g_xold s) (g_t s) c0.
Proof.
  intros W Hx Ht. set (c := gc_next (g_x s) (g_xold s) (g_t s) c0).
  assert (Hc : gcan (g_x s) (g_t s) c).
  { Local Transparent gc_red. unfold c, gc_next. apply tau_fresh; unfold gc_red; rewrite Hx; try reflexivity.
    unfold gc_fresh. cbn [gc_told]. now rewrite Ht. Local Opaque gc_red. }
  pose proof (gpressure_ok _ _ W) as E. pose proof (gwf_press _ _ W) as W1.
  rewrite gpress_flat in E, W1. unfold gal_terms in E, W1.
  change (gal_cache c0 s) with c in E, W1. rewrite (can_cterms _ _ _ _ Hc) in E, W1.
  exists (gpflat (gpdpdd (can_terms (g_x s) (g_t s) (g_d s)) (g_t s)) (gpz (can_terms (g_x s) (g_t s) (g_d s)))
     (arT 0 (can_terms (g_x s) (g_t s) (g_d s))) c (nxold (g_x s) (g_xold s)) s), c.
  split; [exact E|]. split; [exact Hc|]. split; [|reflexivity]. constructor; try reflexivity; [|apply nxold_slots].
  replace (at_t c (g_t s)) with c; [exact W1|].
  destruct Hc as [E1 E2 E3 E4 _ _]. clearbody c. clear E W1 W.
  destruct c as [c1 c2 c3 c4 c5 c6]; unfold at_t; cbn [gc_dr gc_tr gc_told gc_tr2 gc_tp gc_tm] in *. congruence.
Qed.

Lemma g_ramp_t (f : nat -> F) c x d s : gheld c x (f 0%nat) d s -> gx_diff x x = false ->
  differs (gc_tr c) (gc_tr c) = false ->
  forall n, (forall i, (i < n)%nat -> differs (f (S i)) (f i) = false) ->
  exists s' r, grun (ramp (fun i => Poke PT (f i)) n) s = Some (s', r) /\ gheld c x (f n) d s'.
Proof.
  intros H Hx Hr. induction n as [|n IH]; intros Hf; cbn [ramp].
  - cbn [grun]. eauto.
  - destruct IH as (s1 & r1 & E1 & [W X T D XO]); [intros; apply Hf; lia|].
    rewrite grun_app, E1. cbn [grun gstep bind gpoke].
    destruct (gpress_held c x (f n) (set_g_t (f (S n)) s1)) as (s2 & E2 & H2);
      [exact (gwf_poke PT _ _ _ W)|exact XO|change (gx_diff (g_x s1) x = false); now rewrite X|apply Hf; lia|exact Hr|].
    rewrite E2. cbn [bind]. do 2 eexists. split; [reflexivity|].
    change (g_x (set_g_t (f (S n)) s1)) with (g_x s1) in H2.
    change (g_d (set_g_t (f (S n)) s1)) with (g_d s1) in H2. rewrite X, D in H2. exact H2.
Qed.
Lemma g_ramp_x (c : nat -> Composition) k t d s : gheld k (f0 :: fractions (c 0%nat)) t d s ->
  differs t t = false -> differs (gc_tr k) (gc_tr k) = false -> (forall i, comp_check (c i) = ROk) ->
  forall n, (forall i, (i < n)%nat -> gx_diff (f0 :: fractions (c (S i))) (f0 :: fractions (c i)) = false) ->
  exists s' r, grun (ramp (fun i => SetComp (c i)) n) s = Some (s', r) /\
    gheld k (f0 :: fractions (c n)) t d s'.
Proof.
  intros H Ht Hr Hc. induction n as [|n IH]; intros Hf; cbn [ramp].
  - cbn [grun]. eauto.
  - destruct IH as (s1 & r1 & E1 & [W X T D XO]); [intros; apply Hf; lia|].
    rewrite grun_app, E1. cbn [grun gstep bind]. rewrite gset_comp by exact (gw_x _ _ W).
    rewrite Hc. cbn [bind].
    destruct (gpress_held k (f0 :: fractions (c n)) t (set_g_x (f0 :: fractions (c (S n))) s1)) as (s2 & E2 & H2);
      [now apply gwf_set_x|exact XO|apply Hf; lia|change (differs (g_t s1) t = false); now rewrite T|exact Hr|].
    rewrite E2. cbn [bind]. do 2 eexists. split; [reflexivity|].
    change (g_t (set_g_x (f0 :: fractions (c (S n))) s1)) with (g_t s1) in H2.
    change (g_d (set_g_x (f0 :: fractions (c (S n))) s1)) with (g_d s1) in H2. rewrite T, D in H2. exact H2.
Qed.
End G.
