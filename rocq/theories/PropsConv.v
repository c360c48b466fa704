(* density() succeeds where the gas is nearly ideal; over the reals.  Specifications: SpecConv. *)
From Coq Require Import Reals ZArith List Bool Lra Lia.
From Coquelicot Require Import Coquelicot.
From Interval Require Import Tactic.
From Verif Require Import FArith Prelude DetailModel GergModel Api SpecGeneric SpecHistory
  ArithR SpecReal SpecDetail SpecGerg SpecIdeal StdDetail SpecStd SpecAcc SpecConv ConvDetail ConvReal ConvLow ConvCase ConvGerg ConvLowG ConvCaseG.
Import ListNotations.
Local Open Scope R_scope.
Local Existing Instance ArithR.

(* C50: p is the pressure of a new object, P the pressure asked for, d0 the density density() starts from.
   If p is nearly ideal around d0, density() succeeds, and the result is within 1e-7 of the only
   solution between d0/3 and 3 d0. *)
Theorem C50_detail : forall l i k (s : @Detail ArithR) r, dexec k l = Some (s, r) -> separated 0 (dasked (l ++ [Density i])) -> 0 < d_t s ->
  let p := dpres k (fun j => nth j (d_x s) 0) (d_t s) in let P := DetailModel.d_p s in
  let d0 := first_guess RD (d_d s) P (d_t s) in
  1 / 1000000000000000 <= d0 <= 400 -> 2 / 1000000000000000 <= P -> d0 / 100000000000000 <= P -> nearly_ideal p d0 P ->
  exists s' e, dstep (Density i) s = Some (s', ODens ROk) /\ dframe [PD; PZ] s s' /\
    Rabs (p (d_d s') - P) <= 1 / 10000000 * P /\ Rabs (d_d s' - e) <= 1 / 10000000 * e /\
    d0 / 3 <= e <= 3 * d0 /\ p e = P /\ forall e', d0 / 3 <= e' <= 3 * d0 -> p e' = P -> e' = e.
Proof. exact d_converges. Qed.
Theorem C50_gerg : forall l i k (s : @Gerg ArithR) r, gexec k l = Some (s, r) -> separated 1 (gasked (l ++ [Density i])) -> (i <= 0)%Z ->
  (exists j, (1 <= j < 22)%nat /\ 1 / 10000000 < nth j (g_x s) 0) -> 0 < g_t s ->
  let p := gpres k (fun j => nth j (g_x s) 0) (g_t s) in let P := GergModel.g_p s in
  let d0 := first_guess Rg (g_d s) P (g_t s) in
  1 / 1000000000000000 <= d0 <= 400 -> 2 / 1000000000000000 <= P -> d0 / 100000000000000 <= P -> nearly_ideal p d0 P ->
  exists s' e, gstep (Density i) s = Some (s', ODens ROk) /\ gframe [PD; PZ] s s' /\
    Rabs (p (g_d s') - P) <= 1 / 10000000 * P /\ Rabs (g_d s' - e) <= 1 / 10000000 * e /\
    d0 / 3 <= e <= 3 * d0 /\ p e = P /\ forall e', d0 / 3 <= e' <= 3 * d0 -> p e' = P -> e' = e.
Proof. exact g_converges. Qed.
(* the condition in terms of the printed table, for a new object started at the ideal gas *)
Theorem C50_detail_low : forall x t P i, (exists j, (j < 21)%nat /\ 1 / 10000000 < x j) -> 1 / 10000000 < t ->
  let d0 := P / RD / t in
  1 / 1000000000000000 <= d0 <= 400 -> 2 / 1000000000000000 <= P ->
  detail_D (nn x) (3 * d0) <= 1 -> spread (nn x) t (3 * d0) <= 1 / 7 ->
  exists s e, dexec New [SetX x; Poke PT t; Poke PP P; Density i] = Some (s, [OUnit; OUnit; OUnit; ODens ROk]) /\
    d0 / 3 <= e <= 3 * d0 /\ detail_p (nn x) t e = P /\ Rabs (dread PD s - e) <= 1 / 10000000 * e /\
    Rabs (detail_p (nn x) t (dread PD s) - P) <= 1 / 10000000 * P /\
    forall e', d0 / 3 <= e' <= 3 * d0 -> detail_p (nn x) t e' = P -> e' = e.
Proof. exact low_density. Qed.

(* the same for GERG; gv, gt, bt as in C25_standard *)
Theorem C50_gerg_low : exists gv gt bt : nat -> nat -> R,
  (forall i j, (1 <= i <= j)%nat -> (j < 22)%nat ->
    near (gv i j) (v_red i j) /\ near (gt i j) (t_red i j) /\ near (bt i j) (b_red i j)) /\
  forall x t P i, (i <= 0)%Z -> (exists j, (1 <= j < 22)%nat /\ 1 / 1000000 < x j) -> 1 / 10000000 < t ->
  let d0 := P / Rg / t in let v := red_volume (ac x) gv in let tau := red_temp (ac x) gt bt / t in
  1 / 1000000000000000 <= d0 <= 400 -> 2 / 1000000000000000 <= P ->
  3 * d0 * v <= 1 -> gerg_spread (ac x) (3 * d0 * v) tau <= 1 / 7 ->
  exists s e, gexec New [SetX x; Poke PT t; Poke PP P; Density i] = Some (s, [OUnit; OUnit; OUnit; ODens ROk]) /\
    d0 / 3 <= e <= 3 * d0 /\ gpres New x t e = P /\ Rabs (gread PD s - e) <= 1 / 10000000 * e /\
    Rabs (gpres New x t (gread PD s) - P) <= 1 / 10000000 * P /\
    forall e', d0 / 3 <= e' <= 3 * d0 -> gpres New x t e' = P -> e' = e.
Proof. exact gerg_low_density. Qed.
(* methane at 300 K and 500 kPa meets the condition *)
Example C50_case : (exists j, (j < 21)%nat /\ 1 / 10000000 < ch4 j) /\ (let d0 := 500 / RD / 300 in
  1 / 1000000000000000 <= d0 <= 400 /\ detail_D (nn ch4) (3 * d0) <= 1 /\ spread (nn ch4) 300 (3 * d0) <= 1 / 7).
Proof.
  split; [exists 0%nat; split; [lia|]; cbn; lra|]. cbv zeta. change (500 / RD / 300) with d0.
  pose proof case_D. split; [unfold d0; split; interval|]. split; [lra|exact case_S].
Qed.
(* hence the theorem applies *)
Example C50_case_run : exists s e, dexec New [SetX ch4; Poke PT 300; Poke PP 500; Density 0] = Some (s, [OUnit; OUnit; OUnit; ODens ROk]) /\
  detail_p (nn ch4) 300 e = 500 /\ Rabs (dread PD s - e) <= 1 / 10000000 * e.
Proof.
  destruct C50_case as (A & B & C & D).
  destruct (C50_detail_low ch4 300 500 0 A ltac:(lra) B ltac:(lra) C D) as (s & e & H1 & _ & H2 & H3 & _). exists s, e. exact (conj H1 (conj H2 H3)).
Qed.
(* C13 and C14 apply to such a search, C15 to the density at which it starts *)
Example C14_case : exists l (s : @Detail ArithR) r s', dexec New l = Some (s, r) /\ separated 0 (dasked (l ++ [Density 0])) /\ 0 < d_t s /\
  dstep (Density 0) s = Some (s', ODens ROk).
Proof.
  destruct C50_case as (A & B & C & D).
  destruct (low_step ch4 300 500 0 A ltac:(lra) B ltac:(lra) C D) as (s & e & H1 & _).
  eexists _, _, _, s. split; [exact (run1 ch4 300 500)|]. split; [exact (sep1 ch4 300 500 0 A ltac:(lra))|]. split; [|exact H1].
  change (0 < 300). lra.
Qed.
Example C15_case : exists l (s : @Detail ArithR) r d0, dexec New l = Some (s, r) /\ separated 0 (dasked (l ++ [Density 0])) /\ 0 < d_t s /\
  let p := dpres New (fun j => nth j (d_x s) 0) (d_t s) in
  1 / 1000000000000000 <= d0 <= exp 7 /\ d_d s = - d0 /\ DetailModel.d_p s = p d0 /\ 1 / 1000000000000000 <= p d0 /\ 1 / 1000000000000000 <= Derive p d0.
Proof.
  destruct C50_case as (A & B & C & D).
  destruct (trip ch4 300 500 0 A ltac:(lra) B ltac:(lra) C D) as (H1 & H2 & H3 & H4 & H5 & H6).
  eexists _, _, _, (500 / RD / 300). split; [exact (run2 ch4 300 500)|]. split; [exact H1|]. split; [exact H2|]. cbv zeta.
  split; [|split; [exact H3|split; [exact H4|split; [exact H5|exact H6]]]]. change (500 / RD / 300) with d0. unfold d0. split; interval.
Qed.
(* GERG: methane at 300 K and 200 kPa *)
Lemma ch4g_some : exists j, (1 <= j < 22)%nat /\ 1 / 1000000 < ch4g j.
Proof. exists 1%nat. split; [lia|]. cbn. lra. Qed.
Lemma dg_range : 1 / 1000000000000000 <= dg <= 400.
Proof. unfold dg, Rg. split; interval. Qed.
Example C50_gerg_case_run : exists s e, gexec New [SetX ch4g; Poke PT 300; Poke PP 200; Density 0] = Some (s, [OUnit; OUnit; OUnit; ODens ROk]) /\
  gpres New ch4g 300 e = 200 /\ Rabs (gread PD s - e) <= 1 / 10000000 * e.
Proof.
  destruct C50_gerg_low as (gv & gt & bt & N & H). destruct (N 1%nat 1%nat ltac:(lia) ltac:(lia)) as (N1 & N2 & _).
  destruct (case_g _ _ N1 N2) as [C1 C2]. rewrite <- (vol1 gv) in C1, C2. rewrite <- (temp1 gt bt) in C2.
  destruct (H ch4g 300 200 0%Z ltac:(lia) ch4g_some ltac:(lra) dg_range ltac:(lra) C1 C2) as (s & e & H1 & _ & H2 & H3 & _).
  exists s, e. exact (conj H1 (conj H2 H3)).
Qed.
Example C14_gerg_case : exists l (s : @Gerg ArithR) r s', gexec New l = Some (s, r) /\ separated 1 (gasked (l ++ [Density 0])) /\
  (exists j, (1 <= j < 22)%nat /\ 1 / 10000000 < nth j (g_x s) 0) /\ 0 < g_t s /\ gstep (Density 0) s = Some (s', ODens ROk).
Proof.
  destruct gerg_low as (gv & gt & bt & N & H). destruct (N 1%nat 1%nat ltac:(lia) ltac:(lia)) as (N1 & N2 & _).
  destruct (case_g _ _ N1 N2) as [C1 C2]. rewrite <- (vol1 gv) in C1, C2. rewrite <- (temp1 gt bt) in C2.
  destruct (H ch4g 300 200 0%Z ltac:(lia) ch4g_some ltac:(lra) dg_range ltac:(lra) C1 C2) as [Hv HE].
  destruct (glow_step ch4g 300 200 0 _ _ ltac:(lia) ch4g_some ltac:(lra) dg_range ltac:(lra) Hv HE C1 C2) as (s & e & H1 & _).
  eexists _, _, _, s. split; [exact (grun1 ch4g 300 200)|]. split; [exact (gsep1 ch4g 300 200 0 ch4g_some ltac:(lra))|].
  split; [exact (ygood ch4g ch4g_some)|]. split; [change (0 < 300); lra|exact H1].
Qed.
Example C15_gerg_case : exists l (s : @Gerg ArithR) r d0, gexec New l = Some (s, r) /\ separated 1 (gasked (l ++ [Density 0])) /\
  (exists j, (1 <= j < 22)%nat /\ 1 / 10000000 < nth j (g_x s) 0) /\ 0 < g_t s /\
  let p := gpres New (fun j => nth j (g_x s) 0) (g_t s) in
  1 / 1000000000000000 <= d0 <= exp 7 /\ g_d s = - d0 /\ GergModel.g_p s = p d0 /\ 1 / 1000000000000000 <= p d0 /\ 1 / 1000000000000000 <= Derive p d0.
Proof.
  destruct gerg_low as (gv & gt & bt & N & H). destruct (N 1%nat 1%nat ltac:(lia) ltac:(lia)) as (N1 & N2 & _).
  destruct (case_g _ _ N1 N2) as [C1 C2]. rewrite <- (vol1 gv) in C1, C2. rewrite <- (temp1 gt bt) in C2.
  destruct (H ch4g 300 200 0%Z ltac:(lia) ch4g_some ltac:(lra) dg_range ltac:(lra) C1 C2) as [Hv HE].
  destruct (gtrip ch4g 300 200 0 _ _ ch4g_some ltac:(lra) dg_range ltac:(lra) Hv HE C1 C2) as (H1 & H2 & H3 & H4 & H5 & H6 & H7).
  eexists _, _, _, dg. split; [exact (grun2 ch4g 300 200)|]. split; [exact H1|]. split; [exact H2|]. split; [exact H3|]. cbv zeta.
  split; [|split; [exact H4|split; [exact H5|split; [exact H6|exact H7]]]]. unfold dg, Rg. split; interval.
Qed.
Print Assumptions C50_detail.
Print Assumptions C50_gerg.
Print Assumptions C50_detail_low.
Print Assumptions C50_gerg_low.
