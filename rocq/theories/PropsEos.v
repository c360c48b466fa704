(* Properties of the equations of state over the reals (exact arithmetic).  dpres, gpres are the values
   pressure() returns and dprop, gprop the fields after properties(), for a new object given x, t, d. *)
From Coq Require Import Reals ZArith List Bool Lra Lia.
From Coquelicot Require Import Coquelicot.
From Verif Require Import FArith Prelude Composition DetailTables GergTables DetailModel GergModel Api
  SpecGeneric ArithR SpecReal SpecDetail SpecGerg SpecTables GenericLemmas DetailThermo DetailEos DetailLimit GergThermo MassReal
  GergPure GergEos GergLimit TablesReal.
Import ListNotations.
Local Open Scope R_scope.
Local Existing Instance ArithR.

(* C22: eos and Zfactor are the printed equation (SpecDetail); negative fractions count as 0 *)
Theorem C22_detail : forall x t d, (exists i, (i < 21)%nat /\ 1 / 10000000 < x i) -> 1 / 10000000 < t ->
  dpres New x t d = eos (nn x) t d /\ dprop New PZ x t d = Zfactor (nn x) t d.
Proof. intros x t d H Ht. split; [now apply dpres_eos|now apply dprop_z_eos]. Qed.
Theorem C22_nonneg : forall x t d, (forall i, (i < 21)%nat -> 0 <= x i) ->
  (exists i, (i < 21)%nat /\ 1 / 10000000 < x i) -> 1 / 10000000 < t -> dpres New x t d = eos x t d.
Proof. exact dpres_eos_nonneg. Qed.

(* C25: alphar, vred, tred are the published equation (SpecGerg), delta = d vred and tau = tred / t;
   fractions not above 1e-15 count as 0 *)
Theorem C25_gerg : forall x t d, (exists i, (1 <= i < 22)%nat /\ 1 / 1000000 < x i) -> 1 / 10000000 < t ->
  let delta := d * vred (ac x) in let tau := tred (ac x) / t in
  exists a' : R, is_derive (fun delta => alphar (ac x) delta tau) delta a' /\
    gpres New x t d = d * Rg * t * (1 + delta * a') /\ gprop New PZ x t d = 1 + delta * a'.
Proof. intros x t d H Ht. exact (gpres_alphar x H t Ht d). Qed.

(* C28 *)
Theorem C28_detail : forall x, (forall i, (i < 21)%nat -> 0 <= x i) ->
  (exists i, (i < 21)%nat /\ 0 < x i) -> 0 < K5 x /\ 0 < U5 x.
Proof. intros x H E. split; [exact (K5_pos x H E)|exact (U5_pos x H E)]. Qed.

Theorem C28_gerg : forall x, (forall i, (1 <= i < 22)%nat -> 0 <= x i) ->
  (exists i, (1 <= i < 22)%nat /\ 0 < x i) -> 0 < vred x /\ 0 < tred x.
Proof. intros x H E. split; [exact (vred_pos x H E)|exact (tred_pos x H E)]. Qed.
(* pure i: only component i present, with fraction 1 *)
Theorem C28_gerg_pure : forall i, (1 <= i < 22)%nat ->
  close (vred (pure i)) (1 / rhoc i) /\ close (tred (pure i)) (Tc i).
Proof.
  intros i Hi. rewrite vred_pure, tred_pure by assumption.
  pose proof (v_close i i ltac:(lia) ltac:(lia)) as H1. pose proof (t_close i i ltac:(lia) ltac:(lia)) as H2.
  unfold vpub, tpub in *. rewrite Nat.eqb_refl in *. split; assumption.
Qed.

(* C29 *)
Theorem C29_detail : forall x t, (exists i, (i < 21)%nat /\ 1 / 10000000 < x i) -> 1 / 10000000 < t ->
  dpres New x t 0 = 0 /\ dprop New PZ x t 0 = 1 /\ dprop New PDpDd x t 0 = 831451 / 100000 * t /\
  is_lim (fun d => (dprop New PZ x t d - 1) / d) 0 (virialB (nn x) t).
Proof.
  intros x t H Ht. split; [exact (p_zero x H t Ht)|]. split; [exact (z_zero x H t Ht)|].
  split; [exact (dpdd_zero New x t Ht)|exact (virial_prop x H t Ht)].
Qed.
Theorem C29_detail_ideal : forall k x t d, 1 / 10000000 < t -> d <= 1 / 1000000000000000 ->
  dprop k PH x t d = dprop k PU x t d + 831451 / 100000 * t /\
  dprop k PCp x t d = dprop k PCv x t d + 831451 / 100000.
Proof. intros k x t d Ht Hd. split; [now apply low_h|now apply low_cp]. Qed.

Theorem C29_gerg : forall x t, (exists i, (1 <= i < 22)%nat /\ 1 / 1000000 < x i) -> 1 / 10000000 < t ->
  gpres New x t 0 = 0 /\ gprop New PZ x t 0 = 1 /\ gprop New PDpDd x t 0 = Rg * t /\
  exists b : R, is_derive (fun delta => alphar (ac x) delta (tred (ac x) / t)) 0 b /\
    is_lim (fun d => (gprop New PZ x t d - 1) / d) 0 (b * vred (ac x)).
Proof.
  intros x t H Ht. split; [exact (g_p_zero x H t Ht)|]. split; [exact (g_z_zero x H t Ht)|].
  split; [exact (g_dpdd_zero x H t Ht)|exact (g_virial x H t Ht)].
Qed.
Theorem C29_gerg_ideal : forall k x t d, (exists i, (1 <= i < 22)%nat /\ 1 / 10000000 < x i) ->
  1 / 10000000 < t -> d <= 1 / 1000000000000000 ->
  gprop k PH x t d = gprop k PU x t d + Rg * t * gprop k PZ x t d /\
  gprop k PCp x t d = gprop k PCv x t d + Rg.
Proof. intros k x t d H Ht Hd. split; [now apply g_low_h|now apply g_low_cp]. Qed.

(* C37 *)
Theorem C37_reducing : forall i j, (1 <= i <= j)%nat -> (j < 22)%nat ->
  close (tb2 G_GVIJ i j) (vpub i j) /\ close (tb2 G_GTIJ i j) (tpub i j) /\ close (tb2 G_BTIJ i j) (bpub i j).
Proof. intros i j Hi Hj. split; [now apply v_close|]. split; [now apply t_close|now apply b_close]. Qed.
Theorem C37_exponents : forall i k, (1 <= i < 22)%nat ->
  (1 <= k <= nth i G_KPOL 0 + nth i G_KEXP 0)%nat ->
  (1 <= dexp i k < 8)%nat /\ (cexp i k < 8)%nat /\ ((nth i G_KPOL 0 < k)%nat -> (1 <= cexp i k)%nat) /\
  (short_form i = true -> texp i k = texp 5 k).
Proof. exact table_exps. Qed.

(* C30: the molar mass, and with it w and kappa, still counts a fraction the equation ignores *)
Theorem C30_detail_mass : forall k x j t d, (j < 21)%nat -> x j <= 0 -> 1 / 10000000 < t ->
  (exists i, (i < 21)%nat /\ 1 / 10000000 < x i) ->
  dpres k x t d = dpres k (upd x j 0) t d /\
  dprop k PMM x t d = dprop k PMM (upd x j 0) t d + x j * tb D_MMI j.
Proof. exact d_absent. Qed.
Theorem C30_gerg_mass : forall k x j t d, (1 <= j < 22)%nat -> x j <= 1 / 1000000000000000 ->
  1 / 10000000 < t -> (exists i, (1 <= i < 22)%nat /\ 1 / 10000000 < x i) ->
  gpres k x t d = gpres k (upd x j 0) t d /\
  gprop k PMM x t d = gprop k PMM (upd x j 0) t d + x j * tb G_MMI_GERG j.
Proof. exact g_absent. Qed.

Example C25_C29_apply : let x i := match i with 1%nat => 3/4 | 2%nat => 1/4 | _ => 0 end in
  (forall i, (1 <= i < 22)%nat -> 0 <= x i) /\ (exists i, (1 <= i < 22)%nat /\ 1 / 1000000 < x i).
Proof.
  cbv zeta. split; [intros [|[|[|i]]] _; lra|]. exists 1%nat. split; [lia|lra].
Qed.
(* Ordinary inputs meet the hypotheses: methane with some nitrogen at 300 K; and a nitrogen fraction
   of -0.1 (slot 1) next to methane lowers the DETAIL molar mass by 2.80135. *)
Example C22_C29_apply : let x i := match i with 0%nat => 3/4 | 1%nat => 1/4 | _ => 0 end in
  (forall i, (i < 21)%nat -> 0 <= x i) /\ (exists i, (i < 21)%nat /\ 1 / 10000000 < x i) /\
  1 / 10000000 < 300.
Proof.
  cbv zeta. split; [intros [|[|i]] _; lra|]. split; [|lra]. exists 0%nat. split; [lia|lra].
Qed.
Example C30_apply : let x i := match i with 0%nat => 11/10 | 1%nat => -1/10 | _ => 0 end in
  dprop New PMM x 300 5 = dprop New PMM (upd x 1 0) 300 5 - 280135 / 100000.
Proof.
  cbv zeta. rewrite (proj2 (C30_detail_mass New (fun i => match i with 0%nat => 11/10 | 1%nat => -1/10 | _ => 0 end)
    1 300 5 ltac:(lia) ltac:(lra) ltac:(lra) ltac:(exists 0%nat; split; [lia|lra]))).
  replace (tb D_MMI 1) with (280135 / 10000); [lra|].
  unfold tb. cbn [nth D_MMI Rlit]. change (10 ^ 4)%Z with 10000%Z. reflexivity.
Qed.

Print Assumptions C22_detail.
Print Assumptions C22_nonneg.
Print Assumptions C25_gerg.
Print Assumptions C28_detail.
Print Assumptions C28_gerg.
Print Assumptions C28_gerg_pure.
Print Assumptions C29_detail.
Print Assumptions C29_detail_ideal.
Print Assumptions C29_gerg.
Print Assumptions C29_gerg_ideal.
Print Assumptions C37_reducing.
Print Assumptions C37_exponents.
Print Assumptions C30_detail_mass.
Print Assumptions C30_gerg_mass.
