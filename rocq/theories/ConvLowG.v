(* density of a new GERG object at low pressure. *)
From Coq Require Import Reals ZArith List Bool Lra Lia Psatz.
From Coquelicot Require Import Coquelicot.
From Verif Require Import FArith Prelude GergTables GergModel GergPure GergRefine GergEval Api ApiSafe SpecGeneric SpecHistory
  ArithR SpecReal SpecGerg SpecStd SpecConv GergEos StdGergProof Drift Converge ConvDetail ConvReal ConvGerg ConvLow.
Import ListNotations.
Local Open Scope R_scope.
Local Existing Instance ArithR.

Lemma gpres_same k (x y : nat -> R) t d : map x (seq 0 22) = map y (seq 0 22) -> gpres k x t d = gpres k y t d.
Proof.
  intros E. unfold gpres, gexec. destruct (gstart k) as [s|]; [|reflexivity]. cbn [bind app inputs].
  cbn [grun gstep bind]. rewrite (E : @map nat (@F ArithR) x (seq 0 22) = @map nat (@F ArithR) y (seq 0 22)). reflexivity.
Qed.
Lemma nth_x22 (x : nat -> R) j : (j < 22)%nat -> nth j (map x (seq 0 22)) 0 = x j.
Proof. intros Hj. rewrite (nth_indep _ _ (x 0%nat)) by (now rewrite map_length, seq_length). now rewrite map_nth, seq_nth by exact Hj. Qed.
Section L.
Variables (x : nat -> R) (t P : R) (i : Z) (tau v : R).
Hypothesis Hi : (i <= 0)%Z.
Hypothesis Hx : exists j, (1 <= j < 22)%nat /\ 1 / 1000000 < x j.
Hypothesis Ht : 1 / 10000000 < t.
Let d0 := P / Rg / t.
Hypothesis Hd0 : 1 / 1000000000000000 <= d0 <= 400.
Hypothesis HP : 2 / 1000000000000000 <= P.
Hypothesis Hv : 0 < v.
Hypothesis HE : forall d, exists a' : R, is_derive (fun delta => residual (ac x) delta tau) (d * v) a' /\
    gpres New x t d = d * Rg * t * (1 + d * v * a').
Hypothesis HD : 3 * d0 * v <= 1.
Hypothesis HS : gerg_spread (ac x) (3 * d0 * v) tau <= 1 / 7.
Let l : list op := [SetX x; Poke PT t; Poke PP P].
Let s1 : Gerg := set_g_p (P : F) (set_g_t (t : F) (set_g_x (map x (seq 0 22)) gerg_fresh)).
Lemma grun1 : gexec New l = Some (s1, [OUnit; OUnit; OUnit]).
Proof. apply gexec_new. reflexivity. Qed.
Lemma gsep1 : separated 1 (gasked (l ++ [Density i])).
Proof.
  cbn [l app gasked asked]. split.
  - intros a b c e [[= <- <-]|[]] [[= <- <-]|[]]. split; now left.
  - intros a b [[= <- <-]|[]]. split; [|now apply apart_0]. destruct Hx as (j & Hj & Hw). exists j.
    split; [cbn [length map seq]; lia|].
    rewrite nth_repeat. apply apart_0. apply Rlt_le_trans with (x j); [lra|]. right. symmetry. apply (nth_x22 x j). lia.
Qed.
Let y j := nth j (map x (seq 0 22)) 0.
Lemma gp_y d : gpres New y t d = gpres New x t d.
Proof. apply gpres_same. apply map_ext_in. intros j Hj. apply in_seq in Hj. apply nth_x22. lia. Qed.
Lemma ygood : exists j, (1 <= j < 22)%nat /\ 1 / 10000000 < y j.
Proof. destruct Hx as (j & Hj & Hw). exists j. split; [exact Hj|]. unfold y. rewrite nth_x22 by lia. lra. Qed.
Lemma Rg_pos : 0 < Rg. Proof. unfold Rg. lra. Qed.
Lemma gEP : P = d0 * Rg * t. Proof. unfold d0, Rg. field. lra. Qed.
Lemma gP2 : d0 * (8314472 / 10000000000000) <= P.
Proof. rewrite gEP. unfold Rg. nra. Qed.
Lemma gguess1 : first_guess Rg (g_d s1) P (g_t s1) = d0.
Proof.
  unfold first_guess. change (g_d s1) with (@f0 ArithR). unfold f0. rar. cbn [Rlit]. destruct (Rlt_dec _ _) as [L|L]; [reflexivity|].
  exfalso. apply L. change (IZR (10 ^ 0)) with 1. lra.
Qed.
Lemma gideal1 : nearly_ideal (gpres New y t) d0 P.
Proof.
  apply (ni_ext (gpres New x t)); [intros d; symmetry; apply gp_y|]. rewrite gEP.
  apply (gerg_ideal (ac x) tau v t _ d0); trivial; try lra. apply ac_ge0.
Qed.
Lemma glow_step : exists s e, gstep (Density i) s1 = Some (s, ODens ROk) /\
  d0 / 3 <= e <= 3 * d0 /\ gpres New x t e = P /\ Rabs (gread PD s - e) <= 1 / 10000000 * e /\
  Rabs (gpres New x t (gread PD s) - P) <= 1 / 10000000 * P /\
  forall e', d0 / 3 <= e' <= 3 * d0 -> gpres New x t e' = P -> e' = e.
Proof.
  pose proof gguess1 as G. pose proof gideal1 as NI. pose proof gP2 as P2.
  pose proof (g_converges l i New s1 [OUnit; OUnit; OUnit] grun1 gsep1 Hi) as C.
  change (g_t s1) with t in C. change (GergModel.g_p s1) with P in C. change (g_x s1) with (map x (seq 0 22)) in C. cbv zeta in C.
  change (g_t s1) with t in G. rewrite G in C. specialize (C ygood ltac:(lra) Hd0 HP ltac:(lra) NI). destruct C as (s & e & E & _ & A1 & A2 & A3 & A4 & A5).
  change (fun j : nat => nth j (map x (seq 0 22)) 0) with y in A1, A4, A5. rewrite (gp_y (g_d s)) in A1. rewrite (gp_y e) in A4.
  exists s, e. split; [exact E|split; [exact A3|split; [exact A4|split; [exact A2|split; [exact A1|]]]]].
  intros e' H1 H2. apply A5; [exact H1|]. rewrite (gp_y e'). exact H2.
Qed.
Lemma glow_density : exists s e, gexec New [SetX x; Poke PT t; Poke PP P; Density i] = Some (s, [OUnit; OUnit; OUnit; ODens ROk]) /\
  d0 / 3 <= e <= 3 * d0 /\ gpres New x t e = P /\ Rabs (gread PD s - e) <= 1 / 10000000 * e /\
  Rabs (gpres New x t (gread PD s) - P) <= 1 / 10000000 * P /\
  forall e', d0 / 3 <= e' <= 3 * d0 -> gpres New x t e' = P -> e' = e.
Proof.
  destruct glow_step as (s & e & E & A). exists s, e. split; [|exact A].
  change (gexec New (l ++ [Density i]) = Some (s, [OUnit; OUnit; OUnit] ++ [ODens ROk])). eapply gexec_app; [exact grun1|]. cbn [grun]. rewrite E. reflexivity.
Qed.
(* the round trip starting at -d0 *)
Let q := gpres New y t d0.
Let l2 : list op := [SetX x; Poke PT t; Poke PD (- d0); Poke PP q].
Let s2 : Gerg := set_g_p (q : F) (set_g_d (- d0 : F) (set_g_t (t : F) (set_g_x (map x (seq 0 22)) gerg_fresh))).
Lemma grun2 : gexec New l2 = Some (s2, [OUnit; OUnit; OUnit; OUnit]).
Proof. apply gexec_new. reflexivity. Qed.
Lemma gtrip : separated 1 (gasked (l2 ++ [Density i])) /\ (exists j, (1 <= j < 22)%nat /\ 1 / 10000000 < nth j (g_x s2) 0) /\ 0 < g_t s2 /\ g_d s2 = - d0 /\ GergModel.g_p s2 = gpres New (fun j => nth j (g_x s2) 0) (g_t s2) d0 /\
  1 / 1000000000000000 <= gpres New (fun j => nth j (g_x s2) 0) (g_t s2) d0 /\ 1 / 1000000000000000 <= Derive (gpres New (fun j => nth j (g_x s2) 0) (g_t s2)) d0.
Proof.
  change (fun j => nth j (g_x s2) 0) with y. change (g_t s2) with t. change (GergModel.g_p s2) with q.
  pose proof gideal1 as [[A1 A2] B]. destruct (B d0 ltac:(split; lra)) as (B1 & B2 & _). pose proof gP2 as P2.
  split; [exact gsep1|]. split; [exact ygood|]. split; [lra|]. split; [reflexivity|]. split; [reflexivity|]. split; [lra|].
  set (p := gpres New y t d0) in *. set (p' := Derive _ _) in *. clearbody p p' d0.
  apply Rmult_le_reg_l with d0; [lra|]. lra.
Qed.
End L.
Lemma gerg_low : exists gv gt bt : nat -> nat -> R,
  (forall i j, (1 <= i <= j)%nat -> (j < 22)%nat ->
    near (gv i j) (v_red i j) /\ near (gt i j) (t_red i j) /\ near (bt i j) (b_red i j)) /\
  forall x t P i, (i <= 0)%Z -> (exists j, (1 <= j < 22)%nat /\ 1 / 1000000 < x j) -> 1 / 10000000 < t ->
  let d0 := P / Rg / t in let v := red_volume (ac x) gv in let tau := red_temp (ac x) gt bt / t in
  1 / 1000000000000000 <= d0 <= 400 -> 2 / 1000000000000000 <= P ->
  3 * d0 * v <= 1 -> gerg_spread (ac x) (3 * d0 * v) tau <= 1 / 7 ->
  0 < v /\ (forall d, exists a' : R, is_derive (fun delta => residual (ac x) delta tau) (d * v) a' /\ gpres New x t d = d * Rg * t * (1 + d * v * a')).
Proof.
  exists (tb2 G_GVIJ), (tb2 G_GTIJ), (tb2 G_BTIJ). split.
  - intros i j Hi Hj. split; [now apply v_std|]. split; [now apply t_std|now apply b_std].
  - intros x t P i Hi H Ht d0 v tau _ _ _ _. unfold v, tau. rewrite vred_std, tred_std. split; [pose proof (vred_big x H); lra|].
    intros d. destruct (gpres_alphar x H t Ht d) as (a' & Ha & Hp & _).
    exists a'. split; [|exact Hp]. eapply is_derive_ext; [|exact Ha]. intros e. symmetry. apply residual_std.
Qed.
Lemma gerg_low_density : exists gv gt bt : nat -> nat -> R,
  (forall i j, (1 <= i <= j)%nat -> (j < 22)%nat ->
    near (gv i j) (v_red i j) /\ near (gt i j) (t_red i j) /\ near (bt i j) (b_red i j)) /\
  forall x t P i, (i <= 0)%Z -> (exists j, (1 <= j < 22)%nat /\ 1 / 1000000 < x j) -> 1 / 10000000 < t ->
  let d0 := P / Rg / t in let v := red_volume (ac x) gv in let tau := red_temp (ac x) gt bt / t in
  1 / 1000000000000000 <= d0 <= 400 -> 2 / 1000000000000000 <= P ->
  3 * d0 * v <= 1 -> gerg_spread (ac x) (3 * d0 * v) tau <= 1 / 7 ->
  exists s e, gexec New [SetX x; Poke PT t; Poke PP P; Density i] = Some (s, [OUnit; OUnit; OUnit; ODens ROk]) /\
  d0 / 3 <= e <= 3 * d0 /\ gpres New x t e = P /\ Rabs (gread PD s - e) <= 1 / 10000000 * e /\
  Rabs (gpres New x t (gread PD s) - P) <= 1 / 10000000 * P /\
  forall e', d0 / 3 <= e' <= 3 * d0 -> gpres New x t e' = P -> e' = e.
Proof.
  destruct gerg_low as (gv & gt & bt & N & H). exists gv, gt, bt. split; [exact N|].
  intros x t P i Hi Hx Ht d0 v tau H1 H2 H3 H4. destruct (H x t P i Hi Hx Ht H1 H2 H3 H4) as [Hv HE].
  exact (glow_density x t P i tau v Hi Hx Ht H1 H2 Hv HE H3 H4).
Qed.
