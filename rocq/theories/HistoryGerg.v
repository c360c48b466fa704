(* History independence of GERG-2008 for separated histories. *)
From Coq Require Import ZArith List Bool Lia.
From Verif Require Import FArith Prelude Tab Composition DetailModel DetailPure GergTables GergModel
  GergPure GergRefine GergEval Api ApiSafe SpecGeneric SpecHistory DensityProofs BasicProofs
  GenericLemmas.
Import ListNotations.

Lemma short_len i : (i < 22)%nat -> short_form i = true -> (kpol i + kexp i < 13)%nat.
Proof.
  intros Hi. do 22 (destruct i as [|i]; [vm_compute; intros; (discriminate || lia)|]). lia.
Qed.

Section Hist.
Context {A : Arith} {P : GParams}.
Local Open Scope bool_scope.
Local Open Scope F_scope.

(* the terms depend on the cached powers only where they are used *)
Lemma pure_terms_ext X del TP TP' i :
  (act (X i) = true -> forall k, (1 <= k <= kpol i + kexp i)%nat -> TP i k = TP' i k) ->
  pure_terms X del TP i = pure_terms X del TP' i.
Proof.
  intros H. unfold pure_terms. destruct (act (X i)); [|reflexivity]. apply f_equal2.
  - apply map_ext_in. intros k Hk. apply in_seq in Hk. unfold pterm. rewrite H by lia. reflexivity.
  - apply map_ext_in. intros k Hk. apply in_seq in Hk. unfold eterm. rewrite H by lia. reflexivity.
Qed.
Lemma actm_pair X i j : (1 <= i <= 20)%nat -> (i < j <= 21)%nat ->
  act (X i) = true -> act (X j) = true -> actm X (mnumb i j) 21 = true.
Proof.
  intros Hi Hj Ai Aj. unfold actm. apply existsb_exists. exists i.
  split; [apply in_seq; lia|]. rewrite Ai. cbn [andb]. unfold actrow. apply existsb_exists.
  exists j. split; [apply in_seq; lia|]. rewrite Aj, Nat.eqb_refl. reflexivity.
Qed.
Lemma flat_map_ext_in {S T} (f g : S -> list T) l : (forall x, In x l -> f x = g x) ->
  flat_map f l = flat_map g l.
Proof.
  intros H. induction l as [|x l IH]; [reflexivity|]. cbn [flat_map].
  rewrite (H x (or_introl eq_refl)), IH; [reflexivity|]. intros y Hy. apply H. now right.
Qed.
Lemma gterms_ext X del lntau TP TP' TM TM' :
  (forall i k, (1 <= i < 22)%nat -> act (X i) = true -> (1 <= k <= kpol i + kexp i)%nat ->
     TP i k = TP' i k) ->
  (forall m k, (0 < m)%nat -> actm X m 21 = true -> (1 <= k <= kpolij m)%nat -> TM m k = TM' m k) ->
  gterms X del lntau TP TM = gterms X del lntau TP' TM'.
Proof.
  intros H1 H2. unfold gterms. apply f_equal2.
  - apply flat_map_ext_in. intros i Hi. apply in_seq in Hi. apply pure_terms_ext.
    intros Ha k Hk. apply H1; [lia|assumption|assumption].
  - apply flat_map_ext_in. intros i Hi. apply in_seq in Hi. unfold mixrow.
    destruct (act (X i)) eqn:Ai; [|reflexivity].
    apply flat_map_ext_in. intros j Hj. apply in_seq in Hj. unfold mix_terms.
    destruct (act (X j)) eqn:Aj; [|reflexivity].
    destruct (Nat.ltb_spec 0 (mnumb i j)) as [Hm|Hm]; [|reflexivity]. apply f_equal2; [|reflexivity].
    apply map_ext_in. intros k Hk. apply in_seq in Hk. unfold mpterm.
    rewrite (H2 (mnumb i j) k); [reflexivity|assumption| |lia].
    apply actm_pair; [lia|lia|assumption|assumption].
Qed.

(* the cache of an object asked for (x, t) and nothing else *)
Section Can.
Variables (x : list F) (t : F).
Definition clntau := fln (gtr (xf x) / t).
Definition cTP (i k : nat) : F :=
  lv2 G_NOIK i k * fexp (q_toik (if short_form i then 5 else i) k * clntau).
Definition cTM (m k : nat) : F := q_nijk m k * fexp (q_tijk m k * clntau).
Record gcan (c : gcache) : Prop := {
  cn_dr : gc_dr c = gdr (xf x);
  cn_tr : gc_tr c = gtr (xf x);
  cn_told : gc_told c = t;
  cn_tr2 : gc_tr2 c = gtr (xf x);
  cn_tp : forall i k, (1 <= i < 22)%nat -> act (xf x i) = true ->
    (1 <= k <= kpol i + kexp i)%nat -> gc_tp c i k = cTP i k;
  cn_tm : forall m k, (0 < m)%nat -> actm (xf x) m 21 = true -> (1 <= k <= kpolij m)%nat ->
    gc_tm c m k = cTM m k }.
Definition can_terms (d : F) := gterms (xf x) (d / gdr (xf x)) clntau cTP cTM.

Lemma can_cterms d c : gcan c -> cterms x t d c = can_terms d.
Proof.
  intros [E1 E2 E3 E4 E5 E6]. unfold cterms, can_terms. rewrite E1, E2. fold clntau.
  apply gterms_ext; [intros; now apply E5|intros; now apply E6].
Qed.
Lemma tau_fresh c : gc_dr c = gdr (xf x) -> gc_tr c = gtr (xf x) -> gc_fresh t c = true ->
  gcan (gc_tau (xf x) t c).
Proof.
  intros E1 E2 E3. unfold gc_tau. rewrite E3, E2. fold clntau. constructor; cbn [gc_dr gc_tr gc_told gc_tr2 gc_tp gc_tm]; trivial.
  - intros i k Hi Ha Hk. unfold ntaup, cTP. rewrite Ha.
    assert (Nat.leb 1 i = true) as -> by (apply Nat.leb_le; lia). cbn [andb].
    destruct (short_form i) eqn:Es.
    + pose proof (short_len i (proj2 Hi) Es).
      assert (Nat.leb 1 k && Nat.ltb k 13 = true) as ->; [|reflexivity].
      apply andb_true_iff. split; [apply Nat.leb_le; lia|apply Nat.ltb_lt; lia].
    + assert (Nat.leb 1 k && Nat.leb k (kpol i + kexp i) = true) as ->; [|reflexivity].
      apply andb_true_iff. split; apply Nat.leb_le; lia.
  - intros m k Hm Ha Hk. unfold ntm, cTM.
    assert (Nat.ltb 0 m && actm (xf x) m 21 && Nat.leb 1 k && Nat.leb k (kpolij m) = true) as ->;
      [|reflexivity].
    rewrite Ha, andb_true_r, !andb_true_iff. repeat split.
    + now apply Nat.ltb_lt.
    + apply Nat.leb_le; lia.
    + apply Nat.leb_le; lia.
Qed.
Lemma tau_again c : gcan c -> gcan (gc_tau (xf x) t c).
Proof.
  intros H. destruct (gc_fresh t c) eqn:E; [apply tau_fresh; [apply H|apply H|exact E]|].
  unfold gc_tau. rewrite E. destruct H as [E1 E2 E3 E4 E5 E6]. constructor; cbn [gc_dr gc_tr gc_told gc_tr2 gc_tp gc_tm]; trivial.
Qed.
End Can.

Local Opaque gterms arT arS tab2 nxold gc_red gc_tau ga0 gmm gx_diff tab
  gerg_pressure gerg_properties.
Section V.
Variable V : list (list F * F).
Hypothesis HV : separated 1 V.
Hypothesis HL : forall x t, In (x, t) V -> length x = 22%nat.

Definition slots_eq (x y : list F) : Prop := forall i, (1 <= i < 22)%nat -> xf x i = xf y i.
Definition cinv (c : gcache) (xo : list F) : Prop :=
  slots_eq xo (repeat f0 22) \/ (exists x t, In (x, t) V /\ slots_eq xo x /\ gcan x t c).
Definition hinv (s : Gerg) : Prop := exists c, gwf c s /\ cinv c (g_xold s).

Lemma xapart_diff x y z : length x = 22%nat -> xapart 1 x y -> slots_eq z y -> gx_diff x z = true.
Proof.
  intros Hx (i & Hi & Ha) Hz. Local Transparent gx_diff. unfold gx_diff. apply existsb_exists.
  exists i. split; [apply in_seq; lia|]. rewrite Hz by lia. exact Ha. Local Opaque gx_diff.
Qed.
Lemma red_new x t c xo : In (x, t) V -> gx_diff x xo = true -> gcan x t (gc_next x xo t c).
Proof.
  intros Hin E. unfold gc_next. apply tau_fresh.
  - Local Transparent gc_red. unfold gc_red. now rewrite E.
  - unfold gc_red. now rewrite E.
  - unfold gc_red, gc_fresh. rewrite E. cbn [gc_told gc_tr gc_tr2].
    pose proof (proj2 (proj2 HV x t Hin)) as H. unfold apart in H. unfold differs. now rewrite H.
  Local Opaque gc_red.
Qed.
Lemma cinv_new x t c xo : In (x, t) V -> cinv c xo -> gcan x t (gc_next x xo t c).
Proof.
  intros Hin [H0|(x' & t' & Hin' & Hxo & Hc)].
  - apply red_new; [assumption|]. apply (xapart_diff x (repeat f0 22)); [now apply (HL x t)| |exact H0].
    pose proof (proj1 (proj2 HV x t Hin)) as H. now rewrite (HL x t Hin) in H.
  - destruct (gx_diff x xo) eqn:E; [now apply red_new|].
    destruct (proj1 HV _ _ _ _ Hin Hin') as [[<-|Hx] Ht].
    2:{ rewrite (xapart_diff x x' xo (HL _ _ Hin) Hx Hxo) in E. discriminate E. }
    unfold gc_next. Local Transparent gc_red. unfold gc_red. rewrite E. Local Opaque gc_red.
    destruct (gc_fresh t c) eqn:Ef; [apply tau_fresh; [apply Hc|apply Hc|exact Ef]|].
    destruct Ht as [<-|Ht]; [now apply tau_again|].
    unfold gc_fresh in Ef. apply orb_false_iff in Ef. destruct Ef as [Ef _].
    rewrite (cn_told _ _ _ Hc) in Ef. unfold differs, apart in *. congruence.
Qed.

Definition sim (s1 s2 : Gerg) : Prop := gsame s1 s2 /\ hinv s1 /\ hinv s2.

Lemma nxold_slots x xo : slots_eq (nxold x xo) x.
Proof.
  intros i Hi. Local Transparent nxold. unfold nxold. unfold xf at 1. rewrite nth_tab by lia.
  destruct (Nat.eqb_spec i 0); [lia|reflexivity]. Local Opaque nxold.
Qed.

Lemma press_hist s : hinv s -> In (g_x s, g_t s) V ->
  let l := can_terms (g_x s) (g_t s) (g_d s) in
  exists s', gerg_pressure s = Some (s', gpp l (g_t s) (g_d s)) /\ hinv s' /\
    gframe [PZ] s s' /\ g_z s' = gpz l /\ g_dpddsave s' = gpdpdd l (g_t s).
Proof.
  intros (c & W & Hc) Hin l.
  pose proof (cinv_new _ _ _ _ Hin Hc) as Hn. change (gc_next (g_x s) (g_xold s) (g_t s) c)
    with (gal_cache c s) in Hn.
  assert (El : gal_terms c s = l) by now apply can_cterms.
  pose proof (gpressure_ok _ _ W) as E. pose proof (gwf_press _ _ W) as W1.
  rewrite gpress_flat in E, W1. rewrite El in E, W1.
  eexists. split; [exact E|]. split.
  { eexists. split; [exact W1|]. right. exists (g_x s), (g_t s). split; [assumption|].
    split; [apply nxold_slots|exact Hn]. }
  split; [|split; reflexivity]. split; [reflexivity|].
  intros f Hf. destruct f; try reflexivity. elim Hf. now left.
Qed.

Lemma gframe_same w s1 s2 s1' s2' : gsame s1 s2 -> gframe w s1 s1' -> gframe w s2 s2' ->
  (forall f, In f w -> gread f s1' = gread f s2') -> gsame s1' s2'.
Proof.
  intros [Hx Hf] [Hx1 Hf1] [Hx2 Hf2] Hw. split; [congruence|]. intros f.
  destruct (in_dec (fun a b : pfield => ltac:(decide equality)) f w) as [Hi|Hi]; [auto|].
  now rewrite Hf1, Hf2.
Qed.

Lemma sim_in s1 s2 : gsame s1 s2 -> In (g_x s1, g_t s1) V -> In (g_x s2, g_t s2) V.
Proof.
  intros [Hx Hf] H. rewrite <- Hx. pose proof (Hf PT) as Ht. cbn in Ht. now rewrite <- Ht.
Qed.

Lemma press_sim s1 s2 : sim s1 s2 -> In (g_x s1, g_t s1) V ->
  exists s1' s2' p, gerg_pressure s1 = Some (s1', p) /\ gerg_pressure s2 = Some (s2', p) /\
    sim s1' s2' /\ g_dpddsave s1' = g_dpddsave s2' /\
    g_x s1' = g_x s1 /\ g_t s1' = g_t s1.
Proof.
  intros (Hs & H1 & H2) Hin. pose proof (sim_in _ _ Hs Hin) as Hin2.
  destruct (press_hist s1 H1 Hin) as (s1' & E1 & K1 & F1 & Z1 & D1).
  destruct (press_hist s2 H2 Hin2) as (s2' & E2 & K2 & F2 & Z2 & D2).
  assert (Ex : g_x s2 = g_x s1) by (symmetry; apply Hs).
  assert (Et : g_t s2 = g_t s1) by (symmetry; apply (proj2 Hs PT)).
  assert (Ed : g_d s2 = g_d s1) by (symmetry; apply (proj2 Hs PD)).
  rewrite Ex, Et, Ed in E2, Z2, D2.
  exists s1', s2'. eexists. split; [exact E1|]. split; [exact E2|].
  split; [|split; [congruence|split; [apply F1|apply (proj2 F1 PT)]]].
  - split; [|split; assumption]. apply (gframe_same [PZ] s1 s2); try assumption.
    intros f [<-|[]]. cbn [gread]. congruence.
  - intros [|[]]; discriminate.
Qed.

Lemma hinv_poke f v s : hinv s -> hinv (gpoke f v s).
Proof.
  intros (c & W & Hc). exists c. split; [now apply gwf_poke|]. destruct f; exact Hc.
Qed.
Lemma hinv_set_x l s : length l = 22%nat -> hinv s -> hinv (set_g_x l s).
Proof. intros Hl (c & W & Hc). exists c. split; [now apply gwf_set_x|exact Hc]. Qed.
Lemma sim_poke f v s1 s2 : sim s1 s2 -> sim (gpoke f v s1) (gpoke f v s2).
Proof.
  intros (Hs & H1 & H2). split; [|split; now apply hinv_poke].
  destruct Hs as [Hx Hf]. split.
  - destruct f; exact Hx.
  - intros g. pose proof (Hf g) as Hg. destruct f, g; cbn in *; congruence.
Qed.
Lemma sim_set_d v s1 s2 : sim s1 s2 -> sim (set_g_d v s1) (set_g_d v s2).
Proof. apply (sim_poke PD). Qed.
Lemma sim_set_x l s1 s2 : length l = 22%nat -> sim s1 s2 -> sim (set_g_x l s1) (set_g_x l s2).
Proof.
  intros Hl (Hs & H1 & H2). split; [|split; now apply hinv_set_x].
  split; [reflexivity|]. intros g. pose proof (proj2 Hs g) as Hg. destruct g; exact Hg.
Qed.


Lemma props_hist s : hinv s -> In (g_x s, g_t s) V ->
  let l := can_terms (g_x s) (g_t s) (g_d s) in
  exists s', gerg_properties s = Some (s', gqp l (g_t s) (g_d s)) /\ hinv s' /\ g_x s' = g_x s /\
    forall f, gread f s' = gread f (gres_st l (xf (g_x s)) (g_t s) (g_d s)
      (set_g_mm (gmm (xf (g_x s))) s)).
Proof.
  intros (c & W & Hc) Hin l.
  pose proof (cinv_new _ _ _ _ Hin Hc) as Hn. change (gc_next (g_x s) (g_xold s) (g_t s) c)
    with (gal_cache c s) in Hn.
  assert (El : gal_terms c s = l) by now apply can_cterms.
  pose proof (gproperties_ok _ _ W) as E. pose proof (gwf_props _ _ W) as W1.
  rewrite gprops_flat in E, W1. cbv zeta in E, W1. rewrite El in E, W1.
  eexists. split; [exact E|]. split.
  { eexists. split; [exact W1|]. right. exists (g_x s), (g_t s). split; [assumption|].
    split; [apply nxold_slots|exact Hn]. }
  split; [reflexivity|]. intros []; reflexivity.
Qed.
Lemma props_sim s1 s2 : sim s1 s2 -> In (g_x s1, g_t s1) V ->
  exists s1' s2' p, gerg_properties s1 = Some (s1', p) /\ gerg_properties s2 = Some (s2', p) /\
    sim s1' s2' /\ g_x s1' = g_x s1 /\ g_t s1' = g_t s1.
Proof.
  intros (Hs & H1 & H2) Hin. pose proof (sim_in _ _ Hs Hin) as Hin2.
  destruct (props_hist s1 H1 Hin) as (s1' & E1 & K1 & X1 & F1).
  destruct (props_hist s2 H2 Hin2) as (s2' & E2 & K2 & X2 & F2).
  assert (Ex : g_x s2 = g_x s1) by (symmetry; apply Hs).
  assert (Et : g_t s2 = g_t s1) by (symmetry; apply (proj2 Hs PT)).
  assert (Ep : g_p s2 = g_p s1) by (symmetry; apply (proj2 Hs PP)).
  assert (Ed : g_d s2 = g_d s1) by (symmetry; apply (proj2 Hs PD)).
  rewrite Ex, Et, Ed in E2.
  exists s1', s2'. eexists. split; [exact E1|]. split; [exact E2|].
  split; [|split; [assumption|exact (F1 PT)]].
  split; [|split; assumption]. split; [congruence|]. intros f. rewrite F1, F2.
  rewrite Ex, Et, Ed. destruct f; try reflexivity; symmetry; [exact Et|exact Ep|exact Ed].
Qed.

(* a method run on two similar objects *)
Definition simr (s1 : Gerg) (m1 m2 : option (Gerg * result DensityError)) : Prop :=
  exists s1' s2' r, m1 = Some (s1', r) /\ m2 = Some (s2', r) /\ sim s1' s2' /\
    g_x s1' = g_x s1 /\ g_t s1' = g_t s1.
Lemma fail_sim s1 s2 : sim s1 s2 -> simr s1 (Some (gdensity_fail s1)) (Some (gdensity_fail s2)).
Proof.
  intros Hs. unfold gdensity_fail. do 3 eexists. split; [reflexivity|].
  split; [reflexivity|]. split; [|split; reflexivity].
  assert (E : g_p s2 / RGERG / g_t s2 = g_p s1 / RGERG / g_t s1).
  { destruct Hs as ((_ & Hf) & _). pose proof (Hf PP) as E1. pose proof (Hf PT) as E2.
    cbn in E1, E2. congruence. }
  rewrite E. now apply sim_set_d.
Qed.
Lemma simr_trans s0 s1 m1 m2 : g_x s1 = g_x s0 -> g_t s1 = g_t s0 -> simr s1 m1 m2 -> simr s0 m1 m2.
Proof.
  intros Ex Et (t1 & t2 & r & R1 & R2 & R3 & R4 & R5). exists t1, t2, r.
  split; [exact R1|]. split; [exact R2|]. split; [exact R3|]. split; congruence.
Qed.
Lemma check_sim s1 s2 : sim s1 s2 -> In (g_x s1, g_t s1) V ->
  simr s1 (gdensity_check s1) (gdensity_check s2).
Proof.
  intros Hs Hin. unfold gdensity_check.
  destruct (props_sim _ _ Hs Hin) as (s1' & s2' & p & E1 & E2 & Hs2 & Ex & Et).
  rewrite E1, E2. cbn [bind]. apply (simr_trans s1 s1'); [assumption|assumption|].
  assert (Eq : forall f, gread f s2' = gread f s1') by (intros f; symmetry; apply Hs2).
  pose proof (Eq PDpDd) as Q1. pose proof (Eq PD2pDtd) as Q2. pose proof (Eq PCv) as Q3.
  pose proof (Eq PCp) as Q4. pose proof (Eq PW) as Q5. cbn in Q1, Q2, Q3, Q4, Q5.
  rewrite Q1, Q2, Q3, Q4, Q5.
  match goal with |- simr _ (if ?b then _ else _) _ => destruct b end; [now apply fail_sim|].
  do 3 eexists. split; [reflexivity|]. split; [reflexivity|]. split; [assumption|]. split; reflexivity.
Qed.

Lemma step_body_sim iflag dcx plog it b v s1 s2 k :
  sim s1 s2 -> In (g_x s1, g_t s1) V ->
  (forall b v t1 t2, sim t1 t2 -> In (g_x t1, g_t t1) V -> simr t1 (k b v t1) (k b v t2)) ->
  simr s1 (gdensity_step iflag dcx plog it b v s1 k) (gdensity_step iflag dcx plog it b v s2 k).
Proof.
  intros Hs Hin Hk. unfold gdensity_step. cbv zeta.
  pose proof (sim_set_d (fexp (- v)) _ _ Hs) as Hs'.
  destruct (press_sim _ _ Hs' Hin) as (s1' & s2' & p & E1 & E2 & Hs2 & Ed & Ex & Et).
  rewrite E1, E2. cbn [bind]. rewrite <- Ed.
  assert (Edd : g_d s2' = g_d s1').
  { destruct Hs2 as ((_ & Hf) & _). symmetry. exact (Hf PD). }
  rewrite Edd.
  assert (Hin' : In (g_x s1', g_t s1') V) by (rewrite Ex, Et; exact Hin).
  apply (simr_trans s1 s1'); [exact Ex|exact Et|].
  destruct (_ || _); [now apply Hk|]. destruct (fabs _ <? TOLR); [|now apply Hk].
  destruct (g_dpddsave s1' <? f0); [now apply Hk|].
  match goal with |- context [set_g_d ?w s1'] => pose proof (sim_set_d w _ _ Hs2) as Hs3 end.
  destruct (0 <? iflag)%Z.
  - exact (check_sim _ _ Hs3 Hin').
  - do 3 eexists. split; [reflexivity|]. split; [reflexivity|]. split; [exact Hs3|].
    split; reflexivity.
Qed.

Lemma loop_sim iflag dcx plog n : forall it nf b v s1 s2, sim s1 s2 -> In (g_x s1, g_t s1) V ->
  simr s1 (gdensity_loop n iflag dcx plog it nf b v s1) (gdensity_loop n iflag dcx plog it nf b v s2).
Proof.
  induction n as [|n IH]; intros it nf b v s1 s2 Hs Hin; cbn [gdensity_loop].
  - now apply fail_sim.
  - destruct (negb (vlog_ok v) || _ || _ || _ || b).
    + destruct (Nat.ltb 2 nf); [now apply fail_sim|]. cbv zeta. gsimp.
      assert (Edd : g_d s2 = g_d s1).
      { destruct Hs as ((_ & Hf) & _). symmetry. exact (Hf PD). }
      rewrite Edd.
      apply (simr_trans s1 (set_g_d (grestart_d (S nf) dcx (g_d s1)) s1)); [reflexivity|reflexivity|].
      apply step_body_sim; [now apply sim_set_d|exact Hin|]. intros; now apply IH.
    + apply step_body_sim; [assumption|exact Hin|]. intros; now apply IH.
Qed.

Lemma density_sim i s1 s2 : sim s1 s2 -> In (g_x s1, g_t s1) V ->
  simr s1 (gerg_density i s1) (gerg_density i s2).
Proof.
  intros Hs Hin. unfold gerg_density. pose proof Hs as ((Hx & Hf) & (c1 & W1 & _) & (c2 & W2 & _)).
  pose proof (gw_x _ _ W1) as L1. pose proof (gw_x _ _ W2) as L2.
  rewrite !pcp_ok by assumption. cbn [bind]. cbv zeta. rewrite !gdensity_start_eq by assumption.
  assert (Eg : gguess i s2 = gguess i s1).
  { pose proof (Hf PP) as Ep. pose proof (Hf PT) as Et. pose proof (Hf PD) as Ed.
    cbn in Ep, Et, Ed. unfold gguess. now rewrite Hx, Ep, Et, Ed. }
  rewrite Eg. gsimp. pose proof (Hf PP) as Ep. cbn in Ep. rewrite <- Ep, <- Hx.
  eapply simr_trans; [| |apply loop_sim; [now apply sim_set_d|exact Hin]]; reflexivity.
Qed.

(* what a step makes of the inputs *)
Definition nextx (o : op) (x : list F) : list F :=
  match o with
  | SetX v => map v (seq 0 22)
  | SetComp c => match comp_check c with ROk => f0 :: fractions c | RErr _ => x end
  | _ => x
  end.
Definition nextt (o : op) (t : F) : F := match o with Poke PT v => v | _ => t end.
Lemma asked_cons o l x t :
  asked 22 (fun c => f0 :: fractions c) x t (o :: l)
  = match o with Pressure | Density _ | Properties => [(x, t)] | _ => [] end
    ++ asked 22 (fun c => f0 :: fractions c) (nextx o x) (nextt o t) l.
Proof. destruct o as [f v|v|c| | |i|]; try reflexivity. destruct f; reflexivity. Qed.

Lemma step_sim o s1 s2 : sim s1 s2 ->
  incl (match o with Pressure | Density _ | Properties => [(g_x s1, g_t s1)] | _ => [] end) V ->
  exists s1' s2' r, gstep o s1 = Some (s1', r) /\ gstep o s2 = Some (s2', r) /\ sim s1' s2' /\
    g_x s1' = nextx o (g_x s1) /\ g_t s1' = nextt o (g_t s1).
Proof.
  intros Hs Hin. pose proof Hs as (Hq & (c1 & W1 & _) & (c2 & W2 & _)).
  pose proof (gw_x _ _ W1) as L1. pose proof (gw_x _ _ W2) as L2.
  destruct o as [f v|v|c| | |i|]; cbn [gstep nextx nextt].
  - do 3 eexists. split; [reflexivity|]. split; [reflexivity|].
    split; [now apply sim_poke|]. destruct f; split; reflexivity.
  - do 3 eexists. split; [reflexivity|]. split; [reflexivity|].
    split; [apply sim_set_x; [now rewrite map_length, seq_length|assumption]|]. split; reflexivity.
  - rewrite !gset_comp by assumption. cbn [bind].
    do 3 eexists. split; [reflexivity|]. split; [reflexivity|].
    destruct (comp_check c).
    + split; [now apply sim_set_x|]. split; reflexivity.
    + split; [assumption|]. split; reflexivity.
  - rewrite !gmm_ok by assumption. cbn [bind].
    assert (Ex : g_x s2 = g_x s1) by (symmetry; apply Hq). rewrite Ex.
    do 3 eexists. split; [reflexivity|]. split; [reflexivity|].
    split; [now apply (sim_poke PMM)|]. split; reflexivity.
  - destruct (press_sim s1 s2 Hs (Hin _ (or_introl eq_refl)))
      as (s1' & s2' & p & E1 & E2 & K & _ & Ex & Et).
    rewrite E1, E2. cbn [bind]. eauto 10.
  - destruct (density_sim i s1 s2 Hs (Hin _ (or_introl eq_refl)))
      as (s1' & s2' & r & E1 & E2 & K & Ex & Et).
    rewrite E1, E2. cbn [bind]. eauto 10.
  - destruct (props_sim s1 s2 Hs (Hin _ (or_introl eq_refl))) as (s1' & s2' & p & E1 & E2 & K & Ex & Et).
    rewrite E1, E2. cbn [bind]. eauto 10.
Qed.

Lemma run_sim l : forall s1 s2, sim s1 s2 -> incl (asked 22 (fun c => f0 :: fractions c) (g_x s1) (g_t s1) l) V ->
  exists s1' s2' r, grun l s1 = Some (s1', r) /\ grun l s2 = Some (s2', r) /\ sim s1' s2'.
Proof.
  induction l as [|o l IH]; intros s1 s2 Hs Hin; cbn [grun].
  - exists s1, s2, []. auto.
  - rewrite asked_cons in Hin. apply incl_app_inv in Hin. destruct Hin as [Hin1 Hin2].
    destruct (step_sim o s1 s2 Hs Hin1) as (s1' & s2' & r & E1 & E2 & K & Ex & Et).
    rewrite E1, E2. cbn [bind]. rewrite <- Ex, <- Et in Hin2.
    destruct (IH _ _ K Hin2) as (t1 & t2 & rs & R1 & R2 & R). rewrite R1, R2. cbn [bind].
    eauto 10.
Qed.
Lemma gsame_refl s : gsame s s. Proof. now split. Qed.
Lemma run_hinv l l2 : forall s s' r, hinv s ->
  incl (asked 22 (fun c => f0 :: fractions c) (g_x s) (g_t s) (l ++ l2)) V -> grun l s = Some (s', r) ->
  hinv s' /\ incl (asked 22 (fun c => f0 :: fractions c) (g_x s') (g_t s') l2) V.
Proof.
  induction l as [|o l IH]; intros s s' r H Hin E; cbn [grun] in E.
  - injection E as <- _. auto.
  - cbn [app] in Hin. rewrite asked_cons in Hin. apply incl_app_inv in Hin.
    destruct Hin as [Hin1 Hin2].
    destruct (step_sim o s s) as (s1 & s2 & r1 & E1 & E2 & K & Ex & Et);
      [split; [apply gsame_refl|now split]|assumption|].
    rewrite E1 in E. cbn [bind] in E.
    destruct (grun l s1) as [[s3 r3]|] eqn:E3; [|discriminate E]. cbn [bind] in E.
    injection E as <- _. rewrite <- Ex, <- Et in Hin2.
    eapply IH; [|exact Hin2|exact E3]. apply K.
Qed.
End V.

Lemma asked_lengths l : forall x t, length x = 22%nat ->
  forall y u, In (y, u) (asked 22 (fun c => f0 :: fractions c) x t l) -> length y = 22%nat.
Proof.
  induction l as [|o l IH]; intros x t Hx y u Hin; [elim Hin|].
  rewrite asked_cons in Hin. apply in_app_or in Hin. destruct Hin as [Hin|Hin].
  - destruct o; try elim Hin; intros E; try injection E as <- _; try assumption; elim E.
  - eapply IH; [|exact Hin]. destruct o as [f v|v|c| | |i|]; try exact Hx.
    + reflexivity.
    + cbn [nextx]. destruct (comp_check c); [reflexivity|exact Hx].
Qed.

(* copying the public fields into a new object *)
Lemma copy_pokes V fs s : forall s1, hinv V s1 ->
  exists s2 r, grun (map (fun f => Poke f (gread f s)) fs) s1 = Some (s2, r) /\ hinv V s2 /\
    g_x s2 = g_x s1 /\
    forall f, In f fs \/ gread f s1 = gread f s -> gread f s2 = gread f s.
Proof.
  induction fs as [|g fs IH]; intros s1 H; cbn [map grun gstep bind].
  - exists s1, []. repeat split; try assumption. intros f [[]|E]; exact E.
  - destruct (IH (gpoke g (gread g s) s1) (hinv_poke _ _ _ _ H)) as (s2 & r & E & K & Ex & Hf).
    rewrite E. cbn [bind]. exists s2, (OUnit :: r). split; [reflexivity|]. split; [assumption|].
    split; [rewrite Ex; destruct g; reflexivity|].
    intros f Hi. apply Hf. destruct Hi as [[->|Hi]|Hi].
    + right. destruct f; reflexivity.
    + now left.
    + right. destruct f, g; try exact Hi; reflexivity.
Qed.
Lemma copy_run V s s1 : hinv V s1 -> length (g_x s) = 22%nat ->
  exists s2 r, grun (gcopy s) s1 = Some (s2, r) /\ hinv V s2 /\ gsame s s2.
Proof.
  intros H Hx. unfold gcopy. cbn [grun gstep bind].
  set (x := map (fun i => nth i (g_x s) f0) (seq 0 22)).
  assert (E : x = g_x s).
  { unfold x. symmetry. etransitivity; [apply (list_tab' 22 (g_x s) f0 Hx)|].
    Local Transparent tab. reflexivity. Local Opaque tab. }
  destruct (copy_pokes V all_fields s (set_g_x x s1)) as (s2 & r & E2 & K & Ex & Hf).
  { apply hinv_set_x; [now rewrite E|assumption]. }
  rewrite E2. cbn [bind]. do 2 eexists. split; [reflexivity|]. split; [assumption|].
  split; [rewrite Ex; symmetry; exact E|]. intros f. symmetry. apply Hf. left.
  destruct f; cbn; tauto.
Qed.
End Hist.

Lemma ghistory {A : Arith} : forall k l l2 s r, gexec k l = Some (s, r) ->
  separated 1 (gasked (l ++ l2)) ->
  exists s1 r1, gexec k (gcopy s) = Some (s1, r1) /\
  exists s2 s3 r2, grun l2 s = Some (s2, r2) /\ grun l2 s1 = Some (s3, r2) /\ gsame s2 s3.
Proof.
  intros k l l2 s r E HV. unfold gexec in *.
  set (V := gasked (l ++ l2)) in *.
  assert (HL : forall x t, In (x, t) V -> length x = 22%nat).
  { intros x t. apply asked_lengths. reflexivity. }
  assert (H0 : exists s0, gstart k = Some s0 /\ @hinv _ (gpar k) V s0
    /\ g_x s0 = repeat f0 22 /\ g_t s0 = f0).
  { destruct k; cbn [gstart gpar].
    - exists gerg_fresh. split; [exact gerg_new_ok|]. split; [|split; reflexivity].
      exists gc_zero. split; [exact gwf_fresh|]. left. intros i Hi. reflexivity.
    - exists gerg_default. split; [reflexivity|]. split; [|split; reflexivity].
      exists gc_zero. split; [exact gwf_default|]. left. intros i Hi. reflexivity. }
  destruct H0 as (s0 & E0 & H0 & Ex0 & Et0). rewrite E0 in E |- *. cbn [bind] in E |- *.
  assert (Hin : incl (asked 22 (fun c => f0 :: fractions c) (g_x s0) (g_t s0) (l ++ l2)) V).
  { rewrite Ex0, Et0. apply incl_refl. }
  destruct (run_hinv V HV HL l l2 s0 s r H0 Hin E) as [Hs Hin2].
  assert (Hx : length (g_x s) = 22%nat) by (destruct Hs as (c & W & _); exact (gw_x _ _ W)).
  destruct (copy_run V s s0 H0 Hx) as (s1 & r1 & E1 & K1 & Hsame).
  exists s1, r1. split; [exact E1|].
  destruct (@run_sim _ (gpar k) V HV HL l2 s s1) as (s2 & s3 & r2 & R1 & R2 & R3);
    [split; [exact Hsame|split; assumption]|exact Hin2|].
  exists s2, s3, r2. split; [exact R1|]. split; [exact R2|]. apply R3.
Qed.
