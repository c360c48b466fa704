(* What a history of writes and pressure calls returns, as a function of the history: only the
   caches, the inputs and the remembered inputs matter. *)
From Coq Require Import ZArith List Bool Lia.
From Verif Require Import FArith Prelude Tab Composition DetailModel DetailPure DetailRefine DetailEval
  GergTables GergModel GergPure GergRefine GergEval Api ApiSafe SpecGeneric BasicProofs GenericLemmas Drift.
Import ListNotations.

Definition basic {A : Arith} (o : op) : bool :=
  match o with Poke _ _ | SetX _ | Pressure => true | _ => false end.

Section D.
Context {A : Arith} {P : DParams}.
Local Opaque ar_of ar00 ar01 ar02 ar03 ar10 ar11 ar20 cTun cBs cCsn cK3 x_diff pa0 pmm tab
  pressure properties differs.
Fixpoint dplay (cx : option (list F)) (ct : option F) (x xo : list F) (t to d : F) (l : list op) : list out :=
  match l with
  | [] => []
  | SetX y :: l => OUnit :: dplay cx ct (map y (seq 0 21)) xo t to d l
  | Poke PT v :: l => OUnit :: dplay cx ct x xo v to d l
  | Poke PD v :: l => OUnit :: dplay cx ct x xo t to v l
  | Poke _ _ :: l => OUnit :: dplay cx ct x xo t to d l
  | Pressure :: l =>
    OVal (pp (cache_of (new_cx x xo cx) (new_ct t to ct)) t d) :: dplay (new_cx x xo cx) (new_ct t to ct) x x t t d l
  | _ :: l => OUnit :: dplay cx ct x xo t to d l
  end.
Lemma dplay_ok l : forallb basic l = true -> forall cx ct s, wf cx ct s ->
  exists s', drun l s = Some (s', dplay cx ct (d_x s) (d_xold s) (d_t s) (d_told s) (d_d s) l).
Proof.
  induction l as [|o l IH]; intros Hl cx ct s W; [exists s; reflexivity|].
  cbn [forallb] in Hl. apply andb_true_iff in Hl. destruct Hl as (Ho & Hl).
  destruct o as [f v|y|c| | |i|]; try discriminate Ho; cbn [drun dplay].
  - destruct (IH Hl cx ct (dpoke f v s) (wf_poke f v _ _ _ W)) as (s' & E). exists s'.
    cbn [dstep bind]. rewrite E. destruct f; reflexivity.
  - destruct (IH Hl cx ct (set_d_x (map y (seq 0 21)) s)) as (s' & E); [now apply wf_set_x|].
    exists s'. cbn [dstep bind]. rewrite E. reflexivity.
  - pose proof (pressure_ok _ _ _ W) as E. pose proof (wf_press _ _ _ W) as W1. rewrite press_flat in E, W1.
    destruct (IH Hl _ _ _ W1) as (s' & E'). exists s'. cbn [dstep]. rewrite E. cbn [bind]. rewrite E'. reflexivity.
Qed.
End D.

Section G.
Context {A : Arith} {P : GParams}.
Local Opaque gterms arT arS tab2 gc_red ga0 gmm gx_diff tab gerg_pressure gerg_properties differs gc_next cterms nxold.
Fixpoint gplay (c : gcache) (x xo : list F) (t d : F) (l : list op) : list out :=
  match l with
  | [] => []
  | SetX y :: l => OUnit :: gplay c (map y (seq 0 22)) xo t d l
  | Poke PT v :: l => OUnit :: gplay c x xo v d l
  | Poke PD v :: l => OUnit :: gplay c x xo t v l
  | Poke _ _ :: l => OUnit :: gplay c x xo t d l
  | Pressure :: l =>
    OVal (gpp (cterms x t d (gc_next x xo t c)) t d) :: gplay (gc_next x xo t c) x (nxold x xo) t d l
  | _ :: l => OUnit :: gplay c x xo t d l
  end.
Lemma gplay_ok l : forallb basic l = true -> forall c s, gwf c s ->
  exists s', grun l s = Some (s', gplay c (g_x s) (g_xold s) (g_t s) (g_d s) l).
Proof.
  induction l as [|o l IH]; intros Hl c s W; [exists s; reflexivity|].
  cbn [forallb] in Hl. apply andb_true_iff in Hl. destruct Hl as (Ho & Hl).
  destruct o as [f v|y|c0| | |i|]; try discriminate Ho; cbn [grun gplay].
  - destruct (IH Hl c (gpoke f v s) (gwf_poke f v _ _ W)) as (s' & E). exists s'.
    cbn [gstep bind]. rewrite E. destruct f; reflexivity.
  - destruct (IH Hl c (set_g_x (map y (seq 0 22)) s)) as (s' & E); [now apply gwf_set_x|].
    exists s'. cbn [gstep bind]. rewrite E. reflexivity.
  - pose proof (gpressure_ok _ _ W) as E. pose proof (gwf_press _ _ W) as W1. rewrite gpress_flat in E, W1.
    destruct (IH Hl _ _ W1) as (s' & E'). exists s'. cbn [gstep]. rewrite E. cbn [bind]. rewrite E'. reflexivity.
Qed.
End G.

(* histories of new objects *)
Lemma dfresh_in {A : Arith} : d_x detail_fresh = repeat f0 21 /\ d_xold detail_fresh = repeat f0 21 /\
  d_t detail_fresh = f0 /\ d_told detail_fresh = f0 /\ d_d detail_fresh = f0.
Proof. now repeat split. Qed.
Lemma gfresh_in {A : Arith} : g_x gerg_fresh = repeat f0 22 /\ g_xold gerg_fresh = repeat f0 22 /\
  g_t gerg_fresh = f0 /\ g_d gerg_fresh = f0.
Proof. now repeat split. Qed.
Lemma dplay_new {A : Arith} l : forallb basic l = true ->
  exists s, dexec New l = Some (s, @dplay A dp_new None None (repeat f0 21) (repeat f0 21) f0 f0 f0 l).
Proof.
  intros H. destruct (@dplay_ok A dp_new l H None None detail_fresh wf_fresh) as (s & E).
  destruct dfresh_in as (E1 & E2 & E3 & E4 & E5). rewrite E1, E2, E3, E4, E5 in E. exists s. now apply dexec_new.
Qed.
Lemma gplay_new {A : Arith} l : forallb basic l = true ->
  exists s, gexec New l = Some (s, @gplay A gp_new gc_zero (repeat f0 22) (repeat f0 22) f0 f0 l).
Proof.
  intros H. destruct (@gplay_ok A gp_new l H gc_zero gerg_fresh gwf_fresh) as (s & E).
  destruct gfresh_in as (E1 & E2 & E3 & E4). rewrite E1, E2, E3, E4 in E. exists s. now apply gexec_new.
Qed.
