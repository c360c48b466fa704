(* density() of a new GERG object in double precision at moderate pressure. *)
From Coq Require Import Reals ZArith List Bool Lra Lia Psatz.
From Coquelicot Require Import Coquelicot.
From Flocq Require Import Core BinarySingleNaN.
From Interval Require Import Tactic.
From Verif Require Import FArith Prelude Tab ArithB64 B64Lemmas ArithR RSum SpecDetail SpecGerg SpecIdeal SpecTables StdGerg SpecStd SpecAcc SpecAccG SpecAll SpecAllF SpecSlopeG SpecConv SpecHistory SpecGeneric DetailModel DetailPure GergTables GergModel GergPure GergRefine GergEval Api ApiSafe BasicProofs DensityProofs HistoryGerg SpecReal Thermo DetailReal DetailThermo GergReal GergIdeal GergThermo
  DetailEos GergEos GenericLemmas Drift StdDetailProof StdGergProof Newton NewtonReal ConvDetail ConvGerg SlopeReal GSlope B64Err AccFold AccMix AccEos AccProof GAccRed GAccTerms GAccEos GAccSize GAccProof AccSlope GAllCoef GAllTerms GAllSize GAllIdeal GAllIdeal2 GAllProps GAllFin GAllMain AccDens AccDensProof GDens Converge ConvergeEps ConvReal ConvDouble ConvFin ConvFinLow ConvLowG GDensProof GConvDouble GConvFin GConvLow SpecMed Tight TightDouble GTightDouble GTightFin.
Import ListNotations.
Local Open Scope R_scope.
Local Existing Instance gp_new.

Section L.
Variable m : Libm.
Hypothesis A : accurate m.
Local Notation B := (ArithB64 m).
Variables (x : nat -> b64) (t P : b64) (i : Z).
Local Notation r := (fun j => bR (x j)).
Hypothesis Hi : (i <= 0)%Z.
Hypothesis Hx : forall j, (1 <= j < 22)%nat -> fin (x j) /\ (bR (x j) = 0 \/ p2 (-49) <= bR (x j)).
Hypothesis Hs : 99 / 100 <= tot 21 (fun j => bR (x (S j))) <= 101 / 100.
Hypothesis HT : fin t /\ 32 <= bR t <= 2048.
Hypothesis FP : fin P.
Let T := bR t.
Let d0 := bR P / Rg / T.
Hypothesis Hd0 : p2 (-17) <= d0 <= 290.
Hypothesis HD : 7 / 5 * d0 * vred r <= 1.
(* the first two logarithmic derivatives of the residual *)
Variables f1 f2 : R -> R.
Hypothesis Hf : forall v, 0 < v -> is_derive (fun delta => residual (ac r) delta (tred r / T)) v (f1 v / v) /\ is_derive f1 v (f2 v / v).
Hypothesis HZ : forall d, 0 < d <= 7 / 5 * d0 -> -185 / 1000 <= f1 (d * vred r) <= 60 / 1000 /\ -185 / 1000 <= f2 (d * vred r) <= 60 / 1000.
Hypothesis HZ0 : forall d, 0 < d <= 1001 / 1000 * d0 -> -128 / 1000 <= f1 (d * vred r).
Hypothesis HSt : forall d, 0 < d <= 7 / 5 * d0 -> gerg_slope (ac r) (d * vred r) (tred r / T) <= 8.
Let l : list (@op B) := [SetX (A := B) x; Poke (A := B) PT t; Poke (A := B) PP P].
Let s1 : @Gerg B := set_g_p (P : @F B) (set_g_t (t : @F B) (@set_g_x B (map x (seq 0 22)) gerg_fresh)).
Let g : b64 := bdiv (bdiv P (@RGERG B)) t.
Variable p : R -> R.
Hypothesis Hpe : p = gpres New r T.
Lemma tgp d : 0 < d -> p d = d * Rg * T * (1 + f1 (d * vred r)).
Proof.
  intros Hd. pose proof (v_pos x Hx Hs) as VP. assert (dv : 0 < d * vred r) by (apply Rmult_lt_0_compat; lra).
  assert (K : exists a' : R, is_derive (fun delta => residual (ac r) delta (tred r / T)) (d * vred r) a' /\ p d = d * Rg * T * (1 + d * vred r * a')) by (rewrite Hpe; apply (gpres_res x Hx Hs); unfold T; lra).
  destruct K as (a & Da & E). destruct (Hf _ dv) as [D _]. assert (Ea : a = f1 (d * vred r) / (d * vred r)) by (rewrite <- (is_derive_unique _ _ _ Da); exact (is_derive_unique _ _ _ D)).
  rewrite E, Ea. field. lra.
Qed.
Lemma tgp_D d : 0 < d -> is_derive p d (Rg * T * (1 + f1 (d * vred r) + f2 (d * vred r))).
Proof.
  intros Hd. pose proof (v_pos x Hx Hs) as VP. assert (dv : 0 < d * vred r) by (apply Rmult_lt_0_compat; lra).
  apply (is_derive_ext_loc (fun d => d * Rg * T * (1 + f1 (d * vred r)))).
  - exists (mkposreal d Hd). intros y Hy. symmetry. apply tgp. unfold ball, Hierarchy.ball in Hy. cbn in Hy. unfold AbsRing_ball, abs, minus, plus, opp in Hy. cbn in Hy. apply Rabs_def2 in Hy. lra.
  - destruct (Hf _ dv) as [_ D2]. set (v := vred r) in *. auto_derive; [eexists; exact D2|]. replace (Derive (fun x => f1 x) (d * v)) with (f2 (d * v) / (d * v)) by (symmetry; exact (is_derive_unique _ _ _ D2)). field. lra.
Qed.
Lemma tgdp0 : 0 < d0. Proof. pose proof (p2_pos (-17)). lra. Qed.
Lemma tgEP : bR P = d0 * Rg * T. Proof. unfold d0, T, Rg. field. lra. Qed.
Lemma tgZ d : 0 < d <= 7 / 5 * d0 -> 815 / 1000 * (d * Rg * T) <= p d <= 106 / 100 * (d * Rg * T).
Proof.
  intros H. rewrite tgp by lra. destruct (HZ d H) as [Z _]. assert (PRg : Rg = 8314472 / 1000000) by reflexivity. assert (0 < d * Rg * T) as Q by (rewrite Rmult_assoc; apply Rmult_lt_0_compat; [lra|]; apply Rmult_lt_0_compat; unfold T; lra).
  set (z := f1 _) in *. set (u := d * Rg * T) in *. clearbody z u. nra.
Qed.
Lemma tgNI e0 : (1 - 1 / 10000000000000) * d0 <= e0 <= (1 + 1 / 10000000000000) * d0 -> medium_ideal p e0 (bR P).
Proof.
  intros He. pose proof tgdp0 as D0. pose proof tgEP as E. assert (T0 : 32 <= T) by (unfold T; lra). assert (PRg : Rg = 8314472 / 1000000) by reflexivity. assert (RT : 0 < Rg * T) by (apply Rmult_lt_0_compat; lra). split.
  - pose proof (HZ0 e0 ltac:(lra)) as Z0. destruct (HZ e0 ltac:(lra)) as [Z _]. rewrite E, tgp by lra. set (z := f1 _) in *. clearbody z. set (k := Rg * T) in *.
    replace (e0 * Rg * T * (1 + z)) with (e0 * (1 + z) * k) by (unfold k; ring). replace (d0 * Rg * T) with (d0 * k) by (unfold k; ring). clearbody k.
    assert (87 / 100 * d0 <= e0 * (1 + z) <= 23 / 20 * d0) as [G1 G2] by (split; nra). split; nra.
  - intros d Hd'. destruct (HZ d ltac:(lra)) as [A2 B2]. rewrite (is_derive_unique _ _ _ (tgp_D d ltac:(lra))), tgp by lra. set (z := f1 _) in *. set (w := f2 _) in *.
    assert (0 < d * (Rg * T)) as Q by (apply Rmult_lt_0_compat; lra). replace (d * Rg * T * (1 + z)) with (d * (Rg * T) * (1 + z)) by ring. replace (d * (Rg * T * (1 + z + w))) with (d * (Rg * T) * (1 + z + w)) by ring.
    set (rr := d * (Rg * T)) in *. clearbody z w rr. split; [nra|]. split; nra.
Qed.
Lemma tg_bstep : exists s e, gstep (A := B) (Density i) s1 = Some (s, ODens (A := B) ROk) /\ gframe (A := B) [PD; PZ] s1 s /\
  let d := gread (A := B) PD s in
  fin d /\ Rabs (p (bR d) - bR P) <= 1 / 10000000 * bR P /\ Rabs (bR d - e) <= 1 / 10000000 * e /\
  9 / 10 * d0 <= e <= 5 / 4 * d0 /\ p e = bR P /\ forall e', 0 < e' <= 7 / 5 * d0 -> p e' = bR P -> e' = e.
Proof.
  pose proof tgdp0 as D0. pose proof tgEP as E. destruct (guess_near_g m t P HT FP Hd0) as [Fg Ng]. assert (T0 : 32 <= T) by (unfold T; lra). assert (PRg : Rg = 8314472 / 1000000) by reflexivity.
  fold T in Ng. fold d0 in Ng. change (bdiv (bdiv P (@RGERG B)) t) with g in Fg, Ng.
  assert (Ng' : (1 - 1 / 10000000000000) * d0 <= bR g <= (1 + 1 / 10000000000000) * d0) by (apply Rabs_le_inv in Ng; lra).
  pose proof (v_pos x Hx Hs) as VP. assert (RT : 0 < Rg * T) by (apply Rmult_lt_0_compat; lra).
  pose proof (tgdensity_conv m A l i s1 _ (gbrun1 m x t P) (gbsep1 m x t P i Hx Hs HT) Hi x eq_refl) as C. cbv zeta in C. assert (EG : @gguess B i s1 = g) by exact (guess_g m x t P i Hi). rewrite EG in C.
  change (gread (A := B) PT s1) with t in C. change (gread (A := B) PP s1) with P in C. fold T in C. specialize (C p Hpe Hx Hs HT FP).
  destruct C as (s & e & E1 & Fr & F1 & A1 & A2 & A3 & A4 & A5).
  - rewrite E, Rmult_assoc. apply Rmult_lt_0_compat; lra.
  - split; [exact Fg|]. replace (-17)%Z with (-18 + 1)%Z in Hd0 by lia. rewrite bpow_plus in Hd0. change (bpow radix2 1) with 2 in Hd0. pose proof (p2_pos (-18)). lra.
  - assert (11 / 8 * bR g * vred r <= 7 / 5 * d0 * vred r) by (apply Rmult_le_compat_r; lra). lra.
  - exact (tgNI (bR g) Ng').
  - intros d Hd. pose proof (tgZ d ltac:(lra)) as Z. pose proof (HSt d ltac:(lra)) as S. rewrite <- (slope_ac x Hx). set (sl := gerg_slope (ac r) (d * vred r) (tred r / T)) in *.
    assert (0 < d * Rg * T) by (rewrite Rmult_assoc; apply Rmult_lt_0_compat; lra).
    assert (d * Rg * T * sl <= d * Rg * T * 8) by (apply Rmult_le_compat_l; lra). lra.
  - assert (Loc : forall e', 0 < e' <= 7 / 5 * d0 -> p e' = bR P -> 9 / 10 * d0 <= e' <= 5 / 4 * d0).
    { intros e' He' Q. pose proof (tgZ e' He') as Z. rewrite Q, E in Z.
      replace (e' * Rg * T) with (e' * (Rg * T)) in Z by ring. replace (d0 * Rg * T) with (d0 * (Rg * T)) in Z by ring. set (k := Rg * T) in *. clearbody k. split; nra. }
    exists s, e. split; [exact E1|]. split; [exact Fr|].
    cbv zeta. split; [exact F1|]. split; [exact A1|]. split; [exact A2|]. split; [apply Loc; [lra|exact A4]|]. split; [exact A4|].
    intros e' He' Q. pose proof (Loc e' ltac:(lra) Q). apply A5; [lra|]. exact Q.
Qed.
Lemma tg_double : exists s e, @gexec B New [SetX (A := B) x; Poke (A := B) PT t; Poke (A := B) PP P; Density (A := B) i] = Some (s, [OUnit; OUnit; OUnit; ODens (A := B) ROk]) /\
  let d := gread (A := B) PD s in
  fin d /\ Rabs (p (bR d) - bR P) <= 1 / 10000000 * bR P /\ Rabs (bR d - e) <= 1 / 10000000 * e /\
  9 / 10 * d0 <= e <= 5 / 4 * d0 /\ p e = bR P /\ forall e', 0 < e' <= 7 / 5 * d0 -> p e' = bR P -> e' = e.
Proof.
  destruct tg_bstep as (s & e & E1 & _ & Q). exists s, e. split; [|exact Q].
  change (@gexec B New (l ++ [Density (A := B) i]) = Some (s, [OUnit; OUnit; OUnit] ++ [ODens (A := B) ROk])). eapply (@gexec_app B); [exact (gbrun1 m x t P)|].
  cbn [grun]. match goal with |- context [@gstep ?a ?b ?c] => assert (EL : @gstep a b c = Some (s, ODens (A := B) ROk)) by exact E1; rewrite EL end. reflexivity.
Qed.
End L.
