(* density() of the GERG module reports Ok at a density whose pressure is a thousandth of the one asked for. *)
From Coq Require Import Reals Ranalysis5 ZArith List Bool Lra Lia Psatz.
From Coquelicot Require Import Coquelicot.
From Flocq Require Import Core.
From Interval Require Import Tactic.
From Verif Require Import FArith Prelude GergTables GergModel GergPure GergRefine GergEval Api ApiSafe SpecGeneric SpecHistory
  ArithR RSum SpecReal SpecGerg StdGerg SpecStd SpecConv GergEos StdGergProof Drift Converge ConvDetail ConvReal ConvGerg ConvLow ConvLowG ConvCaseG FalseConv FalseConvCaseG.
Import ListNotations.
Local Open Scope R_scope.
Local Existing Instance ArithR.
Local Opaque gp gp1 gpres.

Lemma gp_cont d : 0 < d -> continuity_pt (gp) d.
Proof. intros H. apply continuity_pt_filterlim, @ex_derive_continuous. eexists. exact (gp_d d H). Qed.
Lemma gsmall : exists d, 22139 / 1000 <= d <= 22140 / 1000 /\ gp d = 1 / 1000000.
Proof.
  destruct (IVT_interv (fun d => gp d - 1 / 1000000) (22139 / 1000) (22140 / 1000)) as (d & H & E).
  - intros d H. apply continuity_pt_minus; [apply gp_cont; lra|]. apply continuity_pt_const. now intros ? ?.
  - lra.
  - pose proof g_lo. lra.
  - pose proof g_hi. lra.
  - exists d. split; [lra|lra].
Qed.
Lemma gfalse_conv : exists d0 s (d' p : R), 
  gexec New [SetX ch4g; Poke PT 150; Poke PP 5000; Poke PD ((- d0)%R : @F ArithR); Density 0; Pressure] = Some (s, [OUnit; OUnit; OUnit; OUnit; ODens ROk; OVal p]) /\
  22 <= d0 <= 23 /\ gread PD s = d' /\ gread PP s = 5000 /\ p = gpres New ch4g 150 d' /\ -1 < p < 1.
Proof.
  destruct gsmall as (d0 & Hd & Ep). exists d0.
  set (l := [SetX (A := ArithR) ch4g; Poke (A := ArithR) PT 150; Poke (A := ArithR) PP 5000; Poke (A := ArithR) PD ((- d0)%R : @F ArithR)]).  
  set (s1 := set_g_d ((- d0)%R : @F ArithR) (set_g_p (5000 : @F ArithR) (set_g_t (150 : @F ArithR) (set_g_x (map ch4g (seq 0 22) : list (@F ArithR)) gerg_fresh)))).
  assert (R1 : gexec New l = Some (s1, [OUnit; OUnit; OUnit; OUnit])) by (apply gexec_new; reflexivity).
  assert (Hx : exists j, (1 <= j < 22)%nat /\ 1 / 1000000 < ch4g j) by (exists 1%nat; split; [lia|cbn; lra]).
  assert (S1 : separated 1 (gasked (l ++ [Density 0]))) by exact (gsep1 ch4g 150 5000 0 Hx ltac:(lra)).
  set (p := gpres New (fun j => nth j (map ch4g (seq 0 22)) 0) 150).
  assert (PY : forall d, 0 < d -> p d = gp d) by (intros d H; unfold p; rewrite (gp_y ch4g 150 d); now apply gp_eq).
  assert (DY : forall d, 0 < d -> Derive p d = gp1 d).
  { intros d H. apply is_derive_unique. apply (is_derive_ext_loc gp p); [|now apply gp_d].
    apply (filter_imp (fun y => 0 < y)); [intros y Hy; symmetry; now apply PY|]. exact (open_gt 0 d H). }
  assert (Hy : exists j, (1 <= j < 22)%nat /\ 1 / 10000000 < nth j (map ch4g (seq 0 22)) 0) by exact (ygood ch4g Hx).
  assert (D0 : 0 < d0) by lra. pose proof (gp_box d0 ltac:(lra)) as BQ.
  destruct (g_one New l 0 s1 _ d0 R1 S1 ltac:(lia) Hy) as (s' & w & Hw & E & Ed & Hf).
  - change (0 < 150). lra.
  - split; [lra|]. apply Rle_trans with (exp 4); [interval|]. left. apply exp_increasing. lra.
  - reflexivity.
  - change (1 / 1000000000000000 <= 5000). lra.
  - change (1 / 1000000000000000 <= p d0). rewrite (PY d0 D0). rewrite Ep. lra.
  - change (1 / 1000000000000000 <= Derive p d0). rewrite (DY d0 D0). lra.
  - change (Rabs (ln (p d0) - ln 5000) * p d0
      < 1 / 10000000 * (d0 * Derive p d0)).
    rewrite (DY d0 D0). rewrite (PY d0 D0). rewrite Ep. apply Rlt_le_trans with (1 / 10000000 * (22 * 1000)); [interval|]. apply Rmult_le_compat_l; [lra|]. nra.
  - assert (R2 : gexec New (l ++ [Density 0]) = Some (s', [OUnit; OUnit; OUnit; OUnit] ++ [ODens ROk])).
    { eapply gexec_app; [exact R1|]. cbn [grun]. rewrite E. reflexivity. }
    assert (S2 : separated 1 (gasked ((l ++ [Density 0]) ++ [Pressure]))).
    { destruct S1 as [A1 A2]. split.
      - intros a b c e H1 H2. apply (A1 a b c e); [destruct H1 as [H1|[H1|[]]]|destruct H2 as [H2|[H2|[]]]]; (left; assumption).
      - intros a b H1. apply (A2 a b). destruct H1 as [H1|[H1|[]]]; (left; assumption). }
    assert (Ex : g_x s' = map ch4g (seq 0 22)) by exact (proj1 Hf).
    assert (Et : g_t s' = 150) by (apply (proj2 Hf PT); intros [|[|[]]]; discriminate).
    assert (Hd' : Rabs (g_d s' - d0) <= 1 / 400000).
    { rewrite Ed. pose proof (Rabs_def2 _ _ Hw) as [W1 W2]. assert (Rabs (exp w - 1) <= 11 / 100000000) by (apply Rabs_le; split; interval with (i_taylor w)).
      replace (d0 * exp w - d0) with (d0 * (exp w - 1)) by ring. rewrite Rabs_mult, Rabs_pos_eq by lra. nra. }
    assert (D1 : 0 < g_d s') by (apply Rabs_le_inv in Hd'; lra).
    destruct (g_after New _ s' _ R2 S2) as (s2 & E2 & Hf2); [rewrite Ex; exact Hy|rewrite Et; lra|].
    rewrite Ex, Et in E2. change (gstep Pressure s' = Some (s2, OVal (A := ArithR) (p (g_d s')))) in E2. rewrite (PY _ D1) in E2. set (d' := g_d s' : R) in *.
    assert (Ed2 : g_d s2 = d') by (apply (proj2 Hf2 PD); intros [|[]]; discriminate).
    exists s2, d', (gp d'). split.
    { refine (gexec_app New (l ++ [Density 0]) [Pressure] s' _ s2 [OVal (A := ArithR) (gp d')] R2 _). cbn [grun]. rewrite E2. reflexivity. }
    split; [lra|]. split; [exact Ed2|]. split; [rewrite (proj2 Hf2 PP) by (intros [|[]]; discriminate); exact (proj2 Hf PP ltac:(intros [|[|[]]]; discriminate))|]. split; [symmetry; now apply gp_eq|].
    destruct (MVT_gen (gp) d0 d' gp1) as (c & Hc & E').
    { intros z Hz. apply gp_d. destruct (Rle_dec d0 d'); [rewrite Rmin_left in Hz by lra|rewrite Rmin_right in Hz by lra]; apply Rabs_le_inv in Hd'; lra. }
    { intros z Hz. apply gp_cont. destruct (Rle_dec d0 d'); [rewrite Rmin_left in Hz by lra|rewrite Rmin_right in Hz by lra]; apply Rabs_le_inv in Hd'; lra. }
    rewrite Ep in E'.
    assert (Bc : 22138 / 1000 <= c <= 22141 / 1000).
    { apply Rabs_le_inv in Hd'. destruct (Rle_dec d0 d'); [rewrite Rmin_left, Rmax_right in Hc by lra|rewrite Rmin_right, Rmax_left in Hc by lra]; lra. }
    pose proof (gp_box c Bc) as Bp.
    assert (Rabs (gp1 c * (d' - d0)) <= 20000 * (1 / 400000)) as F.
    { rewrite Rabs_mult. apply Rmult_le_compat; [apply Rabs_pos|apply Rabs_pos|rewrite Rabs_pos_eq; lra|exact Hd']. }
    apply Rabs_le_inv in F. lra.
Qed.
