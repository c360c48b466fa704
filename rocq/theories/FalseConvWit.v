(* density() reports Ok at a density whose pressure is a thousandth of the one asked for. *)
From Coq Require Import Reals Ranalysis5 ZArith List Bool Lra Lia Psatz.
From Coquelicot Require Import Coquelicot.
From Interval Require Import Tactic.
From Verif Require Import FArith Prelude DetailTables DetailModel DetailPure DetailRefine DetailEval Api ApiSafe SpecGeneric SpecHistory
  ArithR RSum SpecReal SpecDetail StdDetail DetailThermo DetailEos SpecStd SpecAcc SpecConv SpecIdeal StdDetailProof Drift Converge ConvDetail ConvReal ConvLow ConvCase FalseConv FalseConvCase.
Import ListNotations.
Local Open Scope R_scope.
Local Existing Instance ArithR.
Local Opaque detail_p dp1 dpres.

Lemma p_cont d : 0 < d -> continuity_pt (detail_p (nn ch4) 150) d.
Proof. intros H. apply continuity_pt_filterlim, @ex_derive_continuous. eexists. exact (dp_1 d H). Qed.
Lemma small_p : exists d, 21849 / 1000 <= d <= 21850 / 1000 /\ detail_p (nn ch4) 150 d = 1 / 1000000.
Proof.
  destruct (IVT_interv (fun d => detail_p (nn ch4) 150 d - 1 / 1000000) (21849 / 1000) (21850 / 1000)) as (d & H & E).
  - intros d H. apply continuity_pt_minus; [apply p_cont; lra|]. apply continuity_pt_const. now intros ? ?.
  - lra.
  - pose proof p_lo. lra.
  - pose proof p_hi. lra.
  - exists d. split; [lra|lra].
Qed.
Lemma false_conv : exists d0 s (d' p : R), 
  dexec New [SetX ch4; Poke PT 150; Poke PP 5000; Poke PD ((- d0)%R : @F ArithR); Density 0; Pressure] = Some (s, [OUnit; OUnit; OUnit; OUnit; ODens ROk; OVal p]) /\
  21 <= d0 <= 22 /\ dread PD s = d' /\ dread PP s = 5000 /\ p = detail_p (nn ch4) 150 d' /\ -1 < p < 1.
Proof.
  destruct small_p as (d0 & Hd & Ep). exists d0.
  set (l := [SetX (A := ArithR) ch4; Poke (A := ArithR) PT 150; Poke (A := ArithR) PP 5000; Poke (A := ArithR) PD ((- d0)%R : @F ArithR)]).  
  set (s1 := set_d_d ((- d0)%R : @F ArithR) (set_d_p (5000 : @F ArithR) (set_d_t (150 : @F ArithR) (set_d_x (map ch4 (seq 0 21) : list (@F ArithR)) detail_fresh)))).
  assert (R1 : dexec New l = Some (s1, [OUnit; OUnit; OUnit; OUnit])) by (apply dexec_new; reflexivity).
  assert (Hx : exists j, (j < 21)%nat /\ 1 / 10000000 < ch4 j) by (exists 0%nat; split; [lia|cbn; lra]).
  assert (S1 : separated 0 (dasked (l ++ [Density 0]))) by exact (sep1 ch4 150 5000 0 Hx ltac:(lra)).
  set (p := dpres New (fun j => nth j (map ch4 (seq 0 21)) 0) 150).
  assert (PY : forall d, p d = detail_p (nn ch4) 150 d) by exact (p_y ch4 150 Hx ltac:(lra)).
  assert (DY : forall d, 0 < d -> Derive p d = dp1 d).
  { intros d H. rewrite (Derive_ext _ _ d PY). apply is_derive_unique, dp_1, H. }
  assert (D0 : 0 < d0) by lra. pose proof (dp_box d0 ltac:(lra)) as BQ.
  destruct (d_one New l 0 s1 _ d0 R1 S1) as (s' & w & Hw & E & Ed & Hf).
  - change (0 < 150). lra.
  - split; [lra|]. apply Rle_trans with (exp 4); [interval|]. left. apply exp_increasing. lra.
  - reflexivity.
  - change (1 / 1000000000000000 <= 5000). lra.
  - change (1 / 1000000000000000 <= p d0). rewrite (PY d0). rewrite Ep. lra.
  - change (1 / 1000000000000000 <= Derive p d0). rewrite (DY d0 D0). lra.
  - change (Rabs (ln (p d0) - ln 5000) * p d0
      < 1 / 10000000 * (d0 * Derive p d0)).
    rewrite (DY d0 D0). rewrite (PY d0). rewrite Ep. apply Rlt_le_trans with (1 / 10000000 * (21 * 1000)); [interval|]. apply Rmult_le_compat_l; [lra|]. nra.
  - assert (R2 : dexec New (l ++ [Density 0]) = Some (s', [OUnit; OUnit; OUnit; OUnit] ++ [ODens ROk])).
    { eapply dexec_app; [exact R1|]. cbn [drun]. rewrite E. reflexivity. }
    assert (S2 : separated 0 (dasked ((l ++ [Density 0]) ++ [Pressure]))).
    { destruct S1 as [A1 A2]. split.
      - intros a b c e H1 H2. apply (A1 a b c e); [destruct H1 as [H1|[H1|[]]]|destruct H2 as [H2|[H2|[]]]]; (left; assumption).
      - intros a b H1. apply (A2 a b). destruct H1 as [H1|[H1|[]]]; (left; assumption). }
    assert (Ex : d_x s' = map ch4 (seq 0 21)) by exact (proj1 Hf).
    assert (Et : d_t s' = 150) by (apply (proj2 Hf PT); intros [|[|[]]]; discriminate).
    destruct (d_after New _ s' _ R2 S2) as (s2 & E2 & Hf2); [rewrite Et; lra|].
    rewrite Ex, Et in E2. fold p in E2. rewrite PY in E2. set (d' := d_d s' : R) in *.
    assert (Ed2 : d_d s2 = d') by (apply (proj2 Hf2 PD); intros [|[]]; discriminate).
    exists s2, d', (detail_p (nn ch4) 150 d'). split.
    { refine (dexec_app New (l ++ [Density 0]) [Pressure] s' _ s2 [OVal (A := ArithR) (detail_p (nn ch4) 150 d')] R2 _). cbn [drun]. rewrite E2. reflexivity. }
    split; [lra|]. split; [exact Ed2|]. split; [rewrite (proj2 Hf2 PP) by (intros [|[]]; discriminate); exact (proj2 Hf PP ltac:(intros [|[|[]]]; discriminate))|]. split; [reflexivity|].
    assert (Hd' : Rabs (d' - d0) <= 1 / 400000).
    { rewrite Ed. pose proof (Rabs_def2 _ _ Hw) as [W1 W2]. assert (Rabs (exp w - 1) <= 11 / 100000000) by (apply Rabs_le; split; interval with (i_taylor w)).
      replace (d0 * exp w - d0) with (d0 * (exp w - 1)) by ring. rewrite Rabs_mult, Rabs_pos_eq by lra. nra. }
    destruct (MVT_gen (detail_p (nn ch4) 150) d0 d' dp1) as (c & Hc & E').
    { intros z Hz. apply dp_1. destruct (Rle_dec d0 d'); [rewrite Rmin_left in Hz by lra|rewrite Rmin_right in Hz by lra]; apply Rabs_le_inv in Hd'; lra. }
    { intros z Hz. apply p_cont. destruct (Rle_dec d0 d'); [rewrite Rmin_left in Hz by lra|rewrite Rmin_right in Hz by lra]; apply Rabs_le_inv in Hd'; lra. }
    rewrite Ep in E'.
    assert (Bc : 21848 / 1000 <= c <= 21851 / 1000).
    { apply Rabs_le_inv in Hd'. destruct (Rle_dec d0 d'); [rewrite Rmin_left, Rmax_right in Hc by lra|rewrite Rmin_right, Rmax_left in Hc by lra]; lra. }
    pose proof (dp_box c Bc) as Bp.
    assert (Rabs (dp1 c * (d' - d0)) <= 20000 * (1 / 400000)) as F.
    { rewrite Rabs_mult. apply Rmult_le_compat; [apply Rabs_pos|apply Rabs_pos|rewrite Rabs_pos_eq; lra|exact Hd']. }
    apply Rabs_le_inv in F. lra.
Qed.
