(* The drift of the GERG cache in double precision: a single component. *)
From Coq Require Import Reals ZArith List Bool Lra Lia Psatz.
From Coquelicot Require Import Coquelicot.
From Flocq Require Import Core BinarySingleNaN.
From Verif Require Import FArith Prelude Tab ArithB64 B64Lemmas ArithR RSum SpecDetail SpecGerg SpecTables StdGerg SpecStd SpecAcc SpecAccG SpecGeneric SpecHistory DetailPure GergTables GergModel GergPure GergRefine GergEval Api ApiSafe BasicProofs GenericLemmas HistoryGerg SpecReal Thermo DetailReal DetailThermo GergReal GergIdeal GergThermo
  DetailEos GergEos Drift StdDetailProof StdGergProof B64Err AccFold AccMix AccEos AccProof GAccRed GAccTerms GAccEos GAccSize GAccProof DriftGerg DriftDouble.
Import ListNotations.
Local Open Scope R_scope.

Section New.
Context {A : Arith}.
Local Opaque gterms arT arS tab2 gc_red ga0 gmm gx_diff tab gerg_pressure gerg_properties differs.
Lemma gfirst_held (x : nat -> F) (t d : F) : gx_diff (map x (seq 0 22)) (repeat f0 22) = true -> differs t f0 = true ->
  exists s rr k, grun [SetX x; Poke PT t; Poke PD d; Pressure] gerg_fresh = Some (s, rr) /\
    @gcan A gp_new (map x (seq 0 22)) t k /\ @gheld A gp_new k (map x (seq 0 22)) t d s.
Proof.
  intros Hx Ht. set (s0 := set_g_d d (set_g_t t (set_g_x (map x (seq 0 22)) gerg_fresh))).
  assert (W : @gwf A gp_new gc_zero s0).
  { apply (@gwf_poke A gp_new PD), (@gwf_poke A gp_new PT), gwf_set_x; [now rewrite map_length, seq_length|exact gwf_fresh]. }
  destruct (@gpress_new A gp_new gc_zero s0 W Hx Ht) as (s & k & E & Hk & Hh & _).
  do 3 eexists. split; [|split; [exact Hk|exact Hh]]. cbn [grun gstep gpoke bind]. fold s0. rewrite E. reflexivity.
Qed.
Lemma gcopy_pressure (s : Gerg) x t d : g_x s = x -> g_t s = t -> g_d s = d -> length x = 22%nat ->
  gx_diff x (repeat f0 22) = true -> differs t f0 = true -> exists s1 r1, gexec New (gcopy s) = Some (s1, r1) /\ gsame s s1 /\
  exists s2, gstep Pressure s1 = Some (s2, OVal (gpp (@can_terms A gp_new x t d) t d)).
Proof.
  intros <- <- <- L Hx Ht. set (V := [(g_x s, g_t s)]).
  assert (Ha : xapart 1 (g_x s) (repeat f0 22)).
  { Local Transparent gx_diff. unfold gx_diff in Hx. Local Opaque gx_diff. apply existsb_exists in Hx. destruct Hx as (i & Hi & Q). exists i. apply in_seq in Hi.
    split; [lia|]. exact Q. }
  assert (HV : separated 1 V).
  { split.
    - intros y t y' t' [E|[]] [E'|[]]. injection E as <- <-. injection E' as <- <-. now split; left.
    - intros y t [E|[]]. injection E as <- <-. split; [rewrite L; exact Ha|exact Ht]. }
  assert (HL : forall y t, In (y, t) V -> length y = 22%nat).
  { intros y t [E|[]]. injection E as <- _. exact L. }
  assert (H0 : @HistoryGerg.hinv A gp_new V gerg_fresh).
  { exists gc_zero. split; [exact gwf_fresh|]. left. split; reflexivity. }
  destruct (HistoryGerg.copy_run V s gerg_fresh H0 L) as (s1 & r1 & E1 & K1 & Hsm).
  exists s1, r1. split; [exact (gexec_new _ _ _ E1)|]. split; [exact Hsm|].
  assert (Ex : g_x s1 = g_x s) by (symmetry; apply Hsm).
  assert (Et : g_t s1 = g_t s) by (symmetry; apply (proj2 Hsm PT)).
  assert (Ed : g_d s1 = g_d s) by (symmetry; apply (proj2 Hsm PD)).
  destruct (@HistoryGerg.press_hist A gp_new V HV HL s1 K1) as (s2 & E2 & _).
  { left. now rewrite Ex, Et. }
  exists s2. cbn [gstep]. rewrite E2. cbn [bind]. rewrite Ex, Et, Ed. reflexivity.
Qed.
Lemma gheld_pressure x t0 k t d s i : @gcan A gp_new x t0 k -> @gheld A gp_new k x t d s -> gx_diff x x = false -> differs t t = false ->
  differs (gc_tr k) (gc_tr k) = false -> (forall j, (1 <= j < 22)%nat -> act (xf x j) = true -> j = i) ->
  exists s', gstep Pressure s = Some (s', OVal (gpp (@can_terms A gp_new x t0 d) t d)).
Proof.
  intros Hk [W X T D XO] Hx Ht Hr Ho.
  destruct (gpress_held (P := gp_new) k x t s W XO) as (s' & E & _); [now rewrite X|now rewrite T|exact Hr|].
  exists s'. cbn [gstep]. rewrite E, X, T, D. cbn [bind]. do 3 f_equal. unfold gpp. do 2 f_equal.
  rewrite <- (can_cterms (P := gp_new) _ _ _ _ Hk). unfold cterms. apply gterms_one with (i := i). exact Ho.
Qed.
End New.

Section Drift.
Variable m : Libm.
Hypothesis A : accurate m.
Local Notation B := (ArithB64 m).
Variables (x : nat -> b64) (d : b64) (f : nat -> b64) (n i : nat).
Local Notation r := (fun i => bR (x i)).
Hypothesis Hx : forall i, (1 <= i < 22)%nat -> fin (x i) /\ (bR (x i) = 0 \/ p2 (-49) <= bR (x i)).
Hypothesis Hs : 99 / 100 <= tot 21 (fun i => bR (x (S i))) <= 101 / 100.
Hypothesis Ho : forall j, (1 <= j < 22)%nat -> j <> i -> bR (x j) = 0.
Hypothesis Hf : forall i, (i <= n)%nat -> fin (f i) /\ 32 <= bR (f i) <= 2048.
Hypothesis Hstep : forall i, (i < n)%nat -> Rabs (bR (f (S i)) - bR (f i)) <= 1 / 10000000.
Hypothesis Hd : fin d /\ (bR d = 0 \/ p2 (-20) <= bR d).
Hypothesis HD : bR d * vred r <= 5 / 2.
Local Notation xs := (map x (seq 0 22)).
Lemma gxs_same : @gx_diff B xs xs = false.
Proof.
  unfold gx_diff. destruct (existsb _ _) eqn:E; [|reflexivity]. apply existsb_exists in E. destruct E as (j & Hj & E). apply in_seq in Hj.
  rewrite (Xg m x j) in E by lia. rewrite differs_self in E; [discriminate E|]. apply Hx. lia.
Qed.
Lemma gwarm_end : exists s rr k, @gexec B New ([SetX (A := B) x; Poke (A := B) PT (f 0%nat); Poke (A := B) PD d; Pressure] ++ @ramp B (fun i => Poke (A := B) PT (f i)) n) = Some (s, rr) /\
  @gcan B gp_new xs (f 0%nat) k /\ @gheld B gp_new k xs (f n) d s /\ @differs B (gc_tr k) (gc_tr k) = false.
Proof.
  destruct (@gfirst_held B x (f 0%nat) d (diff_xg m x Hx Hs) (diff_tg m (f 0%nat) (Hf 0%nat ltac:(lia)))) as (s & rr & k & E & Hk & Hh).
  assert (Hr : @differs B (gc_tr k) (gc_tr k) = false).
  { apply differs_self. rewrite (cn_tr _ _ _ Hk). unfold gtr. exact (ap_fin _ _ _ _ _ _ (a_tred m _ (HXg m x Hx Hs) (Hsg m x Hs))). }
  destruct (@g_ramp_t B gp_new f k xs d s Hh gxs_same Hr n) as (s' & r' & E' & H').
  - intros j Hj. apply differs_near; [apply Hf; lia|apply Hf; lia|now apply Hstep].
  - do 3 eexists. split; [|split; [exact Hk|split; [exact H'|exact Hr]]]. exact (@gexec_app B New _ _ _ _ _ _ (@gexec_new B _ _ _ E) E').
Qed.
Lemma single j : (1 <= j < 22)%nat -> @act B (@xf B xs j) = true -> j = i.
Proof.
  intros Hj E. destruct (Nat.eq_dec j i) as [|N]; [assumption|]. exfalso.
  rewrite (proj1 (act_Y m _ (HXg m x Hx Hs) j Hj)) in E. rewrite (Xg m x j) in E by lia.
  rewrite (Ho j Hj N) in E. unfold act in E. apply Rltb_true in E. rewrite glit15 in E. lra.
Qed.
Lemma gdrift_double : exists a0 a1 s rr s' v s1 r1 s2 w,
  is_derive (fun delta => alphar r delta (tred r / bR (f 0%nat))) (bR d * vred r) a0 /\
  is_derive (fun delta => alphar r delta (tred r / bR (f n))) (bR d * vred r) a1 /\
  @gexec B New ([SetX (A := B) x; Poke (A := B) PT (f 0%nat); Poke (A := B) PD d; Pressure] ++ @ramp B (fun i => Poke (A := B) PT (f i)) n) = Some (s, rr) /\
  @gstep B Pressure s = Some (s', OVal (A := B) v) /\ fin v /\
  Rabs (bR v - bR d * Rg * bR (f n) * (1 + bR d * vred r * a0)) <= 1 / 10000000000 * (bR d * Rg * bR (f n) * gerg_size r (bR d * vred r) (tred r / bR (f 0%nat))) /\
  @gexec B New (@gcopy B s) = Some (s1, r1) /\ @gsame B s s1 /\ @gstep B Pressure s1 = Some (s2, OVal (A := B) w) /\ fin w /\
  Rabs (bR w - bR d * Rg * bR (f n) * (1 + bR d * vred r * a1)) <= 1 / 10000000000 * (bR d * Rg * bR (f n) * gerg_size r (bR d * vred r) (tred r / bR (f n))).
Proof.
  destruct gwarm_end as (s & rr & k & E & Hk & H & Hr).
  destruct (@gheld_pressure B _ _ _ _ _ _ i Hk H gxs_same) as (s' & E'); [apply differs_self, Hf; lia|exact Hr|exact single|].
  destruct (gpp_held m A x (f 0%nat) d Hx Hs (Hf 0%nat ltac:(lia)) Hd HD (f n) (Hf n ltac:(lia))) as (a0 & D0 & F1 & V1).
  destruct (gpp_held m A x (f n) d Hx Hs (Hf n ltac:(lia)) Hd HD (f n) (Hf n ltac:(lia))) as (a1 & D1 & F2 & V2).
  destruct H as [W X T D XO].
  destruct (@gcopy_pressure B s xs (f n) d X T D ltac:(now rewrite map_length, seq_length) (diff_xg m x Hx Hs) (diff_tg m (f n) (Hf n ltac:(lia)))) as (s1 & r1 & C1 & C2 & s2 & C3).
  exists a0, a1. do 8 eexists. split; [exact D0|]. split; [exact D1|].
  split; [exact E|]. split; [exact E'|]. split; [exact F1|]. split; [exact V1|]. split; [exact C1|]. split; [exact C2|].
  split; [exact C3|]. split; [exact F2|]. exact V2.
Qed.
End Drift.
