(* How stale the caches of a DETAIL object can be after any of its methods, over the reals. *)
From Coq Require Import Reals ZArith List Bool Lra Lia.
From Verif Require Import FArith Prelude Tab Composition DetailTables DetailModel DetailPure
  DetailRefine DetailEval GergModel Api ApiSafe SpecGeneric SpecHistory DensityProofs BasicProofs GenericLemmas
  HistoryDetail ArithR RSum SpecReal CompReal DetailReal DetailThermo SpecDetail DetailEos DetailLimit NewtonReal
  Drift DriftReal Stale.
Import ListNotations.
Local Open Scope R_scope.
Local Existing Instance ArithR.
Local Existing Instance dp_new.
Local Opaque ar_of ar00 ar01 ar02 ar03 ar10 ar11 ar20 cTun cBs cCsn cK3 x_diff pa0 pmm tab
  pressure properties differs.

Section V.
Variable V : list (list R * R).
Hypothesis HV : forall x t, In (x, t) V -> length x = 21%nat /\ (exists i, (i < 21)%nat /\ 1 / 10000000 < nth i x 0) /\ 1 / 10000000 < t.
Lemma loop_ok_seen N plog n : forall v s s', stale V N s -> In (d_x s, d_t s) V -> density_loop n plog v s = Some (s', ROk) ->
  seen V N s' /\ d_x s' = d_x s /\ d_t s' = d_t s.
Proof.
  destruct n as [|n]; intros v s s' H Hin E; cbn [density_loop] in E; [discriminate E|].
  destruct (negb _); [discriminate E|].
  destruct (press_stale V HV N (set_d_d (fexp (- v)%F) s) (stale_set_d V _ _ _ H) Hin) as (s1 & y & u & E1 & _ & H1 & X1 & T1).
  rewrite E1 in E. cbn [bind] in E.
  assert (A1 : d_x s1 = d_x s) by exact X1. assert (A2 : d_t s1 = d_t s) by exact T1.
  assert (Hin1 : In (d_x s1, d_t s1) V) by (rewrite A1, A2; exact Hin).
  destruct (_ || _).
  - destruct (loop_seen V _ _ _ _ _ _ _ H1 Hin1 E) as (A & B & C). split; [exact A|]. split; congruence.
  - destruct (_ <? _)%F.
    + injection E as <-. split; [now apply seen_set_d|]. split; [exact A1|exact A2].
    + destruct (loop_seen V _ _ _ _ _ _ _ H1 Hin1 E) as (A & B & C). split; [exact A|]. split; congruence.
Qed.
Lemma density_ok_seen N s s' : stale V N s -> In (d_x s, d_t s) V -> density s = Some (s', ROk) ->
  seen V N s' /\ d_x s' = d_x s /\ d_t s' = d_t s.
Proof.
  intros H Hin E. unfold density in E. destruct (_ <? _)%F; [discriminate E|].
  assert (S0 : stale V N (density_start s) /\ d_x (density_start s) = d_x s /\ d_t (density_start s) = d_t s).
  { unfold density_start. destruct (_ <? _)%F; (split; [now apply stale_set_d|]; split; reflexivity). }
  destruct S0 as (A & B & C).
  assert (Hin' : In (d_x (density_start s), d_t (density_start s)) V) by (rewrite B, C; exact Hin).
  destruct (loop_ok_seen N _ _ _ _ _ A Hin' E) as (D & F & G). split; [exact D|]. split; congruence.
Qed.
Lemma method_seen N m s s' o : (m = Pressure \/ m = Properties \/ (exists i, m = Density i) /\ o = ODens (A := ArithR) ROk) ->
  stale V N s -> In (d_x s, d_t s) V -> dstep m s = Some (s', o) -> seen V N s' /\ d_x s' = d_x s /\ d_t s' = d_t s.
Proof.
  intros Hm H Hin E. destruct Hm as [->|[->|[[i ->] ->]]]; cbn [dstep] in E.
  - destruct (press_stale V HV N s H Hin) as (s1 & y & u & E1 & _ & K). rewrite E1 in E. cbn [bind] in E. injection E as <- _. exact K.
  - destruct (props_stale V HV N s H Hin) as (s1 & E1 & K). rewrite E1 in E. cbn [bind] in E. injection E as <- _. exact K.
  - destruct (density s) as [[s1 r1]|] eqn:E1; [|discriminate E]. cbn [bind] in E. injection E as <- ->.
    exact (density_ok_seen N s s1 H Hin E1).
Qed.
Lemma asked_one m s o : (m = Pressure \/ m = Properties \/ (exists i, m = Density i) /\ o = ODens (A := ArithR) ROk) ->
  In (d_x s, d_t s) (asked 21 fractions (d_x s) (d_t s) [m]).
Proof. intros [->|[->|[[i ->] _]]]; now left. Qed.
End V.

(* a new object asked once, for (y, u) *)
Lemma fresh_caches (y : list R) (u : R) : length y = 21%nat -> (exists i, (i < 21)%nat /\ 1 / 10000000 < nth i y 0) -> 1 / 10000000 < u ->
  exists s1 r1, dexec New [SetX (A := ArithR) (fun i => nth i y 0); Poke (A := ArithR) PT u; Pressure] = Some (s1, r1) /\
    @wf ArithR dp_new (Some y) (Some u) s1.
Proof.
  intros L (i & Hi & Hx) Hu.
  assert (Y : @map nat (@F ArithR) (fun i => nth i y 0) (seq 0 21) = y).
  { do 21 (destruct y as [|? y]; [discriminate L|]). destruct y; [reflexivity|discriminate L]. }
  enough (G : exists s1 r1, drun [SetX (A := ArithR) (fun i => nth i y 0); Poke (A := ArithR) PT u; Pressure] detail_fresh = Some (s1, r1) /\
    @wf ArithR dp_new (Some y) (Some u) s1).
  { destruct G as (s & r & G & Hh). exists s, r. split; [now apply dexec_new|exact Hh]. }
  cbn [drun dstep dpoke]. rewrite Y. cbn [bind].
  assert (W : @wf ArithR dp_new None None (set_d_t (A := ArithR) u (set_d_x (A := ArithR) y detail_fresh))).
  { apply (@wf_poke ArithR dp_new PT), wf_set_x; [exact L|exact wf_fresh]. }
  assert (X : d_x (set_d_t (A := ArithR) u (set_d_x (A := ArithR) y detail_fresh)) = y) by reflexivity.
  assert (T : d_t (set_d_t (A := ArithR) u (set_d_x (A := ArithR) y detail_fresh)) = u) by reflexivity.
  assert (O : d_xold (set_d_t (A := ArithR) u (set_d_x (A := ArithR) y detail_fresh)) = repeat (@f0 ArithR) 21) by reflexivity.
  assert (TO : d_told (set_d_t (A := ArithR) u (set_d_x (A := ArithR) y detail_fresh)) = @f0 ArithR) by reflexivity.
  revert W X T O TO. generalize (set_d_t (A := ArithR) u (set_d_x (A := ArithR) y detail_fresh)). intros s W X T O TO.
  rewrite (pressure_ok None None s W). cbn [bind]. do 2 eexists. split; [reflexivity|].
  pose proof (wf_press None None s W) as W1.
  assert (C1 : ncx None s = Some y).
  { unfold ncx, new_cx. rewrite O, X, (x_diff_0 y i Hi Hx). reflexivity. }
  assert (C2 : nct None s = Some u).
  { unfold nct, new_ct. rewrite TO, T. replace (@differs ArithR u f0) with true by (symmetry; exact (differs_0 u Hu)). reflexivity. }
  rewrite C1, C2 in W1. exact W1.
Qed.
Lemma d_stale_methods : forall l m (s s' : @Detail ArithR) r o, dexec New l = Some (s, r) ->
  (m = Pressure \/ m = Properties \/ (exists i, m = Density i) /\ o = ODens (A := ArithR) ROk) ->
  (forall x t, In (x, t) (dasked (l ++ [m])) -> (exists i, (i < 21)%nat /\ 1 / 10000000 < nth i x 0) /\ 1 / 10000000 < t) ->
  dstep m s = Some (s', o) ->
  exists y u s1 r1, (exists u', In (y, u') (dasked (l ++ [m]))) /\ (exists y', In (y', u) (dasked (l ++ [m]))) /\
    (forall i, (i < 21)%nat -> Rabs (nth i y 0 - nth i (d_x s') 0) <= INR (length (dasked l)) / 10000000) /\
    Rabs (u - d_t s') <= INR (length (dasked l)) / 10000000 /\
    dexec New [SetX (A := ArithR) (fun i => nth i y 0); Poke (A := ArithR) PT u; Pressure] = Some (s1, r1) /\
    d_k3 s' = d_k3 s1 /\ d_bs s' = d_bs s1 /\ d_csn s' = d_csn s1 /\ d_tun s' = d_tun s1.
Proof.
  intros l m s s' r o E Hm HV Eo. set (V := dasked (l ++ [m])) in *.
  assert (HV' : forall x t, In (x, t) V -> length x = 21%nat /\ (exists i, (i < 21)%nat /\ 1 / 10000000 < nth i x 0) /\ 1 / 10000000 < t).
  { intros x t H. split; [|now apply (HV x t)]. revert H. apply asked_lengths. reflexivity. }
  pose proof (dexec_new_inv _ _ E) as E0.
  generalize (run_stale V HV' l [m] 0 detail_fresh s r (stale_fresh V)).
  rewrite fresh_x, fresh_t, Nat.add_0_r. intros G. destruct (G (incl_refl _) E0) as (H1 & Hin1). clear G.
  assert (I : In (d_x s, d_t s) V) by (apply Hin1; exact (asked_one m s o Hm)).
  destruct (method_seen V HV' _ m s s' o Hm H1 I Eo) as ((cx & ct & W & (y & u & -> & -> & I1 & I2 & B1 & B2) & _) & _ & _).
  pose proof I1 as (u' & J1). pose proof I2 as (y' & J2). destruct (HV' _ _ J1) as (L & Hy & _). destruct (HV' _ _ J2) as (_ & _ & Hu).
  destruct (fresh_caches y u L Hy Hu) as (s1 & r1 & E1 & W1).
  exists y, u, s1, r1. split; [exact I1|]. split; [exact I2|]. split; [intros i Hi; exact (div7 _ _ (B1 i Hi))|].
  split; [exact (div7 _ _ B2)|]. split; [exact E1|]. destruct W as [_ _ _ _ _ K1 K2 K3 K4]. destruct W1 as [_ _ _ _ _ J3 J4 J5 J6].
  split; [congruence|]. split; [congruence|]. split; congruence.
Qed.
