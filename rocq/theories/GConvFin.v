(* density() in double precision: the theorem from the loop (GERG-2008), and low pressures. *)
From Coq Require Import Reals ZArith List Bool Lra Lia Psatz.
From Coquelicot Require Import Coquelicot.
From Flocq Require Import Core BinarySingleNaN.
From Interval Require Import Tactic.
From Verif Require Import FArith Prelude Tab ArithB64 B64Lemmas ArithR RSum SpecDetail SpecGerg SpecIdeal SpecTables StdGerg SpecStd SpecAcc SpecAccG SpecAll SpecAllF SpecSlopeG SpecConv SpecHistory SpecGeneric DetailModel DetailPure GergTables GergModel GergPure GergRefine GergEval Api ApiSafe BasicProofs DensityProofs HistoryGerg SpecReal Thermo DetailReal DetailThermo GergReal GergIdeal GergThermo
  DetailEos GergEos GenericLemmas Drift StdDetailProof StdGergProof Newton NewtonReal ConvDetail ConvGerg SlopeReal GSlope B64Err AccFold AccMix AccEos AccProof GAccRed GAccTerms GAccEos GAccSize GAccProof AccSlope GAllCoef GAllTerms GAllSize GAllIdeal GAllIdeal2 GAllProps GAllFin GAllMain AccDens AccDensProof GDens Converge ConvergeEps ConvReal ConvDouble ConvFin ConvLowG GDensProof GConvDouble.
Import ListNotations.
Local Open Scope R_scope.
Local Existing Instance gp_new.

Section F.
Variable m : Libm.
Hypothesis A : accurate m.
Local Notation B := (ArithB64 m).
Lemma gdensity_run i (s s' : @Gerg B) : length (g_x s) = 22%nat ->
  @gdensity_loop B 50 i (@gdcx B (xf (g_x s))) (@fln B (GergModel.g_p s)) 1 0 false (@fneg B (@fln B (@gguess B i s))) (@set_g_d B (@gguess B i s) s) = Some (s', ROk) ->
  gstep (A := B) (Density i) s = Some (s', ODens (A := B) ROk).
Proof.
  intros Hx E. cbn [gstep]. unfold gerg_density. rewrite (pcp_ok s Hx). cbn [bind]. cbv zeta. rewrite (gdensity_start_eq i s Hx).
  match goal with |- context [@gdensity_loop ?a ?b ?c ?d ?e ?f ?g ?h ?i ?j] => assert (EL : @gdensity_loop a b c d e f g h i j = Some (s', ROk)) by exact E; rewrite EL end.
  reflexivity.
Qed.
Lemma gdensity_conv l i (s : @Gerg B) o : @gexec B New l = Some (s, o) -> separated (A := B) 1 (gasked (A := B) (l ++ [Density (A := B) i])) -> (i <= 0)%Z ->
  forall xs, g_x s = map xs (seq 0 22) ->
  let r j := bR (xs j) in let T := gread (A := B) PT s in let P := gread (A := B) PP s in
  let g := @gguess B i s in let d0 := bR g in forall p, p = gpres New r (bR T) ->
  (forall j, (1 <= j < 22)%nat -> fin (xs j) /\ (r j = 0 \/ p2 (-49) <= r j)) ->
  99 / 100 <= tot 21 (fun j => r (S j)) <= 101 / 100 -> fin T /\ 32 <= bR T <= 2048 -> fin P -> 0 < bR P ->
  fin g /\ p2 (-18) <= d0 <= 300 -> 3 * d0 * vred r <= 5 / 2 -> nearly_ideal p d0 (bR P) ->
  (forall d, d0 / 3 <= d <= 3 * d0 -> d * Rg * bR T * gerg_slope r (d * vred r) (tred r / bR T) <= 10 * p d) ->
  exists s' e, gstep (A := B) (Density i) s = Some (s', ODens (A := B) ROk) /\ gframe (A := B) [PD; PZ] s s' /\
    let d := gread (A := B) PD s' in
    fin d /\ Rabs (p (bR d) - bR P) <= 1 / 10000000 * bR P /\ Rabs (bR d - e) <= 1 / 10000000 * e /\
    d0 / 3 <= e <= 3 * d0 /\ p e = bR P /\ forall e', d0 / 3 <= e' <= 3 * d0 -> p e' = bR P -> e' = e.
Proof.
  intros E HV Hi xs X22 r T P g d0 p Ep Hx Hs HT FP HP [Fg Hd0] HD NI HS.
  destruct (@g_hinv B New l [Density (A := B) i] s o E HV) as (Hh & Hin & HL).
  specialize (Hin _ (or_introl eq_refl)). pose proof (HL _ _ Hin) as Lx.
  change (g_t s) with T in Hin. rewrite X22 in Hin.
  assert (d0p : 0 < d0) by (pose proof (p2_pos (-18)); lra).
  assert (T0 : 32 <= bR T <= 2048) by apply HT. pose proof (v_pos xs Hx Hs) as VP. change (0 < vred r) in VP. assert (PRg : Rg = 8314472 / 1000000) by reflexivity.
  assert (HP' : p2 (-49) <= bR P).
  { pose proof (HS d0 ltac:(lra)) as S0. pose proof (gge xs Hx (tred r / bR T) (d0 * vred r)) as S1. change (fun j => bR (xs j)) with r in S1.
    assert (0 < d0 * vred r) by (apply Rmult_lt_0_compat; lra). specialize (S1 ltac:(lra)). pose proof (proj1 NI) as N0.
    set (sl := gerg_slope r (d0 * vred r) (tred r / bR T)) in *. clearbody sl.
    assert (1 / 262144 * 8 * 32 <= d0 * Rg * bR T).
    { apply Rmult_le_compat; [lra|lra| |lra]. apply Rmult_le_compat; [lra|lra| |lra]. change (p2 (-18)) with (/ 262144) in Hd0. lra. }
    assert (d0 * Rg * bR T * 1 <= d0 * Rg * bR T * sl) by (apply Rmult_le_compat_l; lra).
    change (p2 (-49)) with (/ 562949953421312). lra. }
  destruct (start_ok m A g d0 Fg eq_refl Hd0) as (Fv & Rv & Uv).
  set (v := Bopp (lm_ln m g)) in *.
  set (q := gprop New PDpDd r (bR T)).
  assert (D1 : forall d, 0 < d -> is_derive p d (q d)) by (intros d Hd; exact (gp_D xs T Hs HT p q Ep eq_refl d Hd)).
  assert (H2 : forall d, d0 / 3 <= d <= 3 * d0 -> 0 < p d /\ 5 / 6 * p d <= d * q d <= 7 / 6 * p d).
  { intros d Hd. rewrite <- (is_derive_unique _ _ _ (D1 d ltac:(lra))). now apply (proj2 NI). }
  assert (G0 : fair p (bR P) d0 0 (uof m v)) by (apply (fair_start p q (bR P) d0 d0p HP D1 H2 (proj1 NI)); exact Uv).
  destruct (gb_loop m A xs T P d0 Hx Hs HT FP HP' Hd0 HD p q Ep eq_refl NI HS _ HV HL Hin i (@gdcx B (xf (g_x s))) Hi 31 18 0 v (@set_g_d B g s) eq_refl Fv Rv G0
    (@hinv_set_gd B gp_new _ g s Hh) X22 eq_refl) as (s' & n' & v' & E1 & N' & G & St & Fd & Pd & Ud & Fr).
  destruct (fair_accepted p q (bR P) d0 d0p HP D1 H2 (proj1 NI) n' v' _ N' G St Ud) as (A1 & _ & e & A3 & A4 & A5).
  rewrite Ropp_involutive, exp_ln in A1, A5 by exact Pd.
  exists s', e. split; [exact (gdensity_run i s s' Lx E1)|].
  split. { eapply gframe_trans; [apply (@gframe_set_d B g s); now left|exact Fr]. }
  cbv zeta. change (gread (A := B) PD s') with (g_d s').
  split; [exact Fd|]. split; [exact A1|]. split; [exact A5|]. split; [exact A3|]. split; [exact A4|].
  intros e' He' Ee'. apply (unique p q d0 d0p D1 H2 _ _ He' A3). lra.
Qed.
End F.
Lemma gdensity_converges : exists gv gt bt : nat -> nat -> R,
  (forall i j, (1 <= i <= j)%nat -> (j < 22)%nat ->
    near (gv i j) (v_red i j) /\ near (gt i j) (t_red i j) /\ near (bt i j) (b_red i j)) /\
  forall m, accurate m -> forall l i (s : @Gerg (ArithB64 m)) o, @gexec (ArithB64 m) New l = Some (s, o) ->
  separated (A := ArithB64 m) 1 (gasked (A := ArithB64 m) (l ++ [Density (A := ArithB64 m) i])) -> (i <= 0)%Z ->
  let r j := bR (nth j (g_x s) B0) in let T := gread (A := ArithB64 m) PT s in let P := gread (A := ArithB64 m) PP s in
  let g := @gguess (ArithB64 m) i s in let d0 := bR g in let p := gpres New r (bR T) in
  (forall j, (1 <= j < 22)%nat -> fin (nth j (g_x s) B0) /\ (r j = 0 \/ bpow radix2 (-49) <= r j)) ->
  99 / 100 <= tot 21 (fun j => r (S j)) <= 101 / 100 -> fin T /\ 32 <= bR T <= 2048 -> fin P -> 0 < bR P ->
  fin g /\ bpow radix2 (-18) <= d0 <= 300 -> 3 * d0 * red_volume r gv <= 5 / 2 -> nearly_ideal p d0 (bR P) ->
  (forall d, d0 / 3 <= d <= 3 * d0 -> d * Rg * bR T * gerg_slope r (d * red_volume r gv) (red_temp r gt bt / bR T) <= 10 * p d) ->
  exists s' e, gstep (A := ArithB64 m) (Density i) s = Some (s', ODens (A := ArithB64 m) ROk) /\ gframe (A := ArithB64 m) [PD; PZ] s s' /\
    let d := gread (A := ArithB64 m) PD s' in
    fin d /\ Rabs (p (bR d) - bR P) <= 1 / 10000000 * bR P /\ Rabs (bR d - e) <= 1 / 10000000 * e /\
    d0 / 3 <= e <= 3 * d0 /\ p e = bR P /\ forall e', d0 / 3 <= e' <= 3 * d0 -> p e' = bR P -> e' = e.
Proof.
  exists (tb2 G_GVIJ), (tb2 G_GTIJ), (tb2 G_BTIJ). split.
  { intros i j Hi Hj. split; [now apply v_std|]. split; [now apply t_std|now apply b_std]. }
  intros m A l i s o E HV Hi r T P g d0 p Hx Hs HT FP HP Hg HD NI HS. rewrite vred_std in HD.
  assert (HS' : forall d, d0 / 3 <= d <= 3 * d0 -> d * Rg * bR T * gerg_slope r (d * vred r) (tred r / bR T) <= 10 * p d).
  { intros d Hd. specialize (HS d Hd). rewrite vred_std, tred_std in HS. exact HS. }
  assert (Lx : length (g_x s) = 22%nat).
  { destruct (@g_hinv (ArithB64 m) New l [Density (A := ArithB64 m) i] s o E HV) as (_ & Hin & HL). exact (HL _ _ (Hin _ (or_introl eq_refl))). }
  assert (X22 : g_x s = map (fun j => nth j (g_x s) B0) (seq 0 22)) by (symmetry; apply nth22, Lx).
  exact (gdensity_conv m A l i s o E HV Hi (fun j => nth j (g_x s) B0) X22 p eq_refl Hx Hs HT FP HP Hg HD NI HS').
Qed.
