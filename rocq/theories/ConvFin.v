(* density() in double precision: the theorem from the loop (DETAIL). *)
From Coq Require Import Reals ZArith List Bool Lra Lia Psatz.
From Coquelicot Require Import Coquelicot.
From Flocq Require Import Core BinarySingleNaN.
From Interval Require Import Tactic.
From Verif Require Import FArith Prelude Tab ArithB64 B64Lemmas ArithR RSum SpecDetail SpecStd SpecAcc SpecSlope SpecConv SpecHistory SpecGeneric DetailTables DetailModel DetailPure DetailRefine DetailEval
  DetailEos Api ApiSafe BasicProofs DensityProofs GenericLemmas HistoryDetail Newton NewtonReal DetailThermo Drift StdDetailProof B64Err AccFold AccMix AccMix2 AccMix3 AccMix4 AccEos AccProof AccSlope AccSlopeProof ConvDetail SlopeReal AccDens AccDensProof Converge ConvergeEps ConvDouble.
Import ListNotations.
Local Open Scope R_scope.

Local Notation RR := (831451 / 100000).
Section F.
Variable m : Libm.
Hypothesis A : accurate m.
Let B := ArithB64 m.
Lemma start_ok g d0 : fin g -> bR g = d0 -> p2 (-18) <= d0 <= 300 ->
  fin (Bopp (lm_ln m g)) /\ -9 <= bR (Bopp (lm_ln m g)) <= 102 /\ Rabs (uof m (Bopp (lm_ln m g)) - - ln d0) <= 1 / 100000000.
Proof.
  intros F E H. assert (G0 : 0 < d0) by (pose proof (p2_pos (-18)); lra).
  assert (L : -13 <= ln d0 <= 6).
  { split.
    - apply Rle_trans with (ln (p2 (-18))); [change (p2 (-18)) with (/ 262144); interval|apply ln_mono; [apply p2_pos|lra]].
    - apply Rle_trans with (ln 300); [apply ln_mono; lra|interval]. }
  destruct (ap_ln m A g F ltac:(lra) ltac:(rewrite E; apply Rabs_le; lra)) as (Fl & E1 & _).
  assert (La : Rabs (ln d0) <= 13) by (apply Rabs_le; lra).
  rewrite E in E1. rewrite u64_val in E1. change (IZR 8) with 8 in E1.
  assert (E2 : Rabs (bR (lm_ln m g) - ln d0) <= 1 / 10000000000000) by lra. apply Rabs_le_inv in E2.
  assert (Fo : fin (Bopp (lm_ln m g))) by (unfold fin; now rewrite is_finite_Bopp). assert (Eo : bR (Bopp (lm_ln m g)) = - bR (lm_ln m g)) by apply B2R_Bopp.
  assert (Ro : -9 <= bR (Bopp (lm_ln m g)) <= 102) by lra.
  split; [exact Fo|]. split; [exact Ro|]. destruct (uof_ok m A _ Fo Ro) as (_ & _ & U). apply Rabs_le_inv in U. apply Rabs_le. lra.
Qed.

Lemma density_converges l i (s : @Detail B) o : @dexec B New l = Some (s, o) -> separated 0 (dasked (l ++ [Density (A := B) i])) ->
  let r j := bR (nth j (d_x s) B0) in let T := dread (A := B) PT s in let P := dread (A := B) PP s in
  let g := @dguess B s in let d0 := bR g in let p := detail_p r (bR T) in
  (forall j, (j < 21)%nat -> fin (nth j (d_x s) B0) /\ (r j = 0 \/ p2 (-50) <= r j)) ->
  99 / 100 <= tot 21 r <= 101 / 100 -> fin T /\ 32 <= bR T <= 2048 -> fin P -> 0 < bR P ->
  fin g /\ p2 (-18) <= d0 <= 300 -> detail_D r (3 * d0) <= 3 -> nearly_ideal p d0 (bR P) ->
  (forall d, d0 / 3 <= d <= 3 * d0 -> d * RR * bR T * slope_size r (bR T) d <= 10 * p d) ->
  exists s' e, dstep (A := B) (Density i) s = Some (s', ODens (A := B) ROk) /\ dframe (A := B) [PD; PZ] s s' /\
    let d := dread (A := B) PD s' in
    fin d /\ Rabs (p (bR d) - bR P) <= 1 / 10000000 * bR P /\ Rabs (bR d - e) <= 1 / 10000000 * e /\
    d0 / 3 <= e <= 3 * d0 /\ p e = bR P /\ forall e', d0 / 3 <= e' <= 3 * d0 -> p e' = bR P -> e' = e.
Proof.
  intros E HV r T P g d0 p Hx Hs HT FP HP [Fg Hd0] HD NI HS.
  destruct (@d_hinv B New l [Density (A := B) i] s o E HV) as (Hh & Hin & HL).
  specialize (Hin _ (or_introl eq_refl)). pose proof (HL _ _ Hin) as Lx.
  set (xs := fun j => nth j (d_x s) B0) in *. assert (X21 : d_x s = map xs (seq 0 21)) by (symmetry; apply nth21, Lx).
  change (d_t s) with T in Hin. rewrite X21 in Hin.
  assert (d0p : 0 < d0) by (pose proof (p2_pos (-18)); lra).
  assert (T0 : 32 <= bR T <= 2048) by apply HT.
  assert (HP' : p2 (-49) <= bR P).
  { pose proof (HS d0 ltac:(lra)) as S0. pose proof (slope_ge1 r (bR T) d0 ltac:(lra)) as S1. pose proof (proj1 NI) as N0.
    set (sl := slope_size r (bR T) d0) in *. clearbody sl.
    assert (1 / 262144 * 8 * 32 <= d0 * RR * bR T).
    { apply Rmult_le_compat; [lra|lra| |lra]. apply Rmult_le_compat; [lra|lra| |unfold RR; lra]. change (p2 (-18)) with (/ 262144) in Hd0. lra. }
    assert (d0 * RR * bR T * 1 <= d0 * RR * bR T * sl) by (apply Rmult_le_compat_l; lra).
    change (p2 (-49)) with (/ 562949953421312). lra. }
  destruct (start_ok g d0 Fg eq_refl Hd0) as (Fv & Rv & Uv).
  set (v := Bopp (lm_ln m g)) in *.
  assert (G0 : fair p (bR P) d0 0 (uof m v)).
  { apply (fair_start p (Derive p) (bR P) d0 d0p HP); [|exact (proj2 NI)|exact (proj1 NI)|exact Uv].
    intros d Hd. apply Derive_correct. eexists. exact (p_derive r (bR T) d Hd). }
  destruct (d_loop m A xs T P d0 Hx Hs HT FP HP' Hd0 HD NI HS _ HV HL Hin 19 0 v (@set_d_d B g s) eq_refl Fv Rv G0
    (@HistoryDetail.hinv_poke B dp_new _ PD g s Hh) X21 eq_refl) as (s' & n' & v' & E1 & N' & G & St & Fd & Pd & Ud & Fr).
  destruct (fair_accepted p (Derive p) (bR P) d0 d0p HP ltac:(intros d Hd; apply Derive_correct; eexists; exact (p_derive r (bR T) d Hd)) (proj2 NI) (proj1 NI) n' v' _ N' G St Ud) as (A1 & _ & e & A3 & A4 & A5).
  rewrite Ropp_involutive, exp_ln in A1, A5 by exact Pd.
  exists s', e. split.
  { cbn [dstep]. unfold density. rewrite (@density_start_eq B).
    assert (Q : @flt B (@fabs B (DetailModel.d_p s)) (@EPSILON B) = false).
    { change (Bltb (Babs P) (blit (L 1 (-15))) = false). rewrite (abs_lt P (L 1 (-15)) FP eq_refl). apply Rlt_bool_false. rewrite Rabs_pos_eq by lra. pose proof eps_top. lra. }
    rewrite Q. cbv zeta.
    match goal with |- context [@density_loop ?a ?b ?c ?d ?e] => assert (EL : @density_loop a b c d e = Some (s', ROk)) by exact E1; rewrite EL end.
    reflexivity. }
  split. { eapply dframe_trans; [apply (@dframe_set_d B g s); now left|exact Fr]. }
  cbv zeta. change (dread (A := B) PD s') with (d_d s').
  split; [exact Fd|]. split; [exact A1|]. split; [exact A5|]. split; [exact A3|]. split; [exact A4|].
  intros e' He' Ee'. apply (unique p (Derive p) d0 d0p); [|exact (proj2 NI)|exact He'|exact A3|lra].
  intros d Hd. apply Derive_correct. eexists. exact (p_derive r (bR T) d Hd).
Qed.
End F.
