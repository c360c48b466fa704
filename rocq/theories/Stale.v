(* How stale the cached terms of a DETAIL object can be, over the reals. *)
From Coq Require Import Reals ZArith List Bool Lra Lia.
From Coquelicot Require Import Coquelicot.
From Verif Require Import FArith Prelude Tab Composition DetailTables DetailModel DetailPure
  DetailRefine DetailEval GergModel Api ApiSafe SpecGeneric SpecHistory DensityProofs BasicProofs GenericLemmas
  HistoryDetail ArithR RSum SpecReal CompReal DetailReal DetailThermo SpecDetail DetailEos DetailLimit NewtonReal
  Drift DriftReal.
Import ListNotations.
Local Open Scope R_scope.
Local Existing Instance ArithR.
Local Existing Instance dp_new.
Local Opaque ar_of ar00 ar01 ar02 ar03 ar10 ar11 ar20 cTun cBs cCsn cK3 x_diff pa0 pmm tab
  pressure properties differs.

Lemma x_diff_false x y : @x_diff ArithR x y = false <-> forall i, (i < 21)%nat -> Rabs (nth i x 0 - nth i y 0) <= 1 / 10000000.
Proof.
  Local Transparent x_diff. unfold x_diff. Local Opaque x_diff. rewrite <- not_true_iff_false, existsb_exists. split.
  - intros H i Hi. apply differs_R. apply not_true_iff_false. intros K. apply H. exists i. split; [apply in_seq; lia|exact K].
  - intros H (i & Hi & K). apply in_seq in Hi. specialize (H i ltac:(lia)). apply differs_R in H.
    change (differs (nth i x 0) (nth i y 0) = true) in K. rewrite H in K. discriminate K.
Qed.

Lemma tri a b c n : Rabs (a - b) <= INR n * (1 / 10000000) -> Rabs (c - b) <= 1 / 10000000 ->
  Rabs (a - c) <= INR (S n) * (1 / 10000000).
Proof.
  intros H K. rewrite S_INR. replace (a - c) with ((a - b) + - (c - b)) by ring.
  eapply Rle_trans; [apply Rabs_triang|]. rewrite Rabs_Ropp. lra.
Qed.
Lemma div7 a n : a <= INR n * (1 / 10000000) -> a <= INR n / 10000000.
Proof. intros H. lra. Qed.
Lemma pos7 r : 1 / 10000000 < r -> 0 < r.
Proof. intros H. lra. Qed.
Lemma zero_le a n : Rabs (a - a) <= INR n * (1 / 10000000).
Proof. rewrite Rminus_eq_0, Rabs_R0. pose proof (pos_INR n). lra. Qed.

Section V.
Variable V : list (list R * R).
Hypothesis HV : forall x t, In (x, t) V -> length x = 21%nat /\ (exists i, (i < 21)%nat /\ 1 / 10000000 < nth i x 0) /\ 1 / 10000000 < t.
Local Notation e := (1 / 10000000).
(* n evaluations so far; the last one saw d_xold, d_told *)
Definition fits (n : nat) (cx : option (list R)) (ct : option R) (s : @Detail ArithR) : Prop :=
  (cx = None /\ ct = None /\ d_xold s = repeat 0 21 /\ d_told s = 0) \/
  (exists y u, cx = Some y /\ ct = Some u /\ (exists u', In (y, u') V) /\ (exists y', In (y', u) V) /\
    (forall i, (i < 21)%nat -> Rabs (nth i y 0 - nth i (d_xold s) 0) <= INR n * e) /\
    Rabs (u - d_told s) <= INR n * e).

Lemma fits_le n m cx ct s : (n <= m)%nat -> fits n cx ct s -> fits m cx ct s.
Proof.
  intros H [K|(y & u & E1 & E2 & I1 & I2 & B1 & B2)]; [left; exact K|right]. apply le_INR in H.
  exists y, u. split; [exact E1|]. split; [exact E2|]. split; [exact I1|]. split; [exact I2|]. split.
  - intros i Hi. specialize (B1 i Hi). lra.
  - lra.
Qed.
(* after one evaluation: the caches, and the bound *)
Definition now (n : nat) (cx : option (list R)) (ct : option R) (x : list R) (t : R) : Prop :=
  exists y u, cx = Some y /\ ct = Some u /\ (exists u', In (y, u') V) /\ (exists y', In (y', u) V) /\
    (forall i, (i < 21)%nat -> Rabs (nth i y 0 - nth i x 0) <= INR n * e) /\ Rabs (u - t) <= INR n * e.
Lemma new_fits n cx ct s : In (d_x s, d_t s) V -> fits n cx ct s ->
  now (S n) (new_cx (d_x s) (d_xold s) cx) (new_ct (d_t s) (d_told s) ct) (d_x s) (d_t s) /\
  (cx = None -> now 0 (new_cx (d_x s) (d_xold s) cx) (new_ct (d_t s) (d_told s) ct) (d_x s) (d_t s)).
Proof.
  intros Hin. destruct (HV _ _ Hin) as (L & (j & Hj & Hx) & Ht). intros [(-> & -> & Ex & Et)|(y & u & -> & -> & I1 & I2 & B1 & B2)].
  - assert (X : x_diff (d_x s) (d_xold s) = true).
    { rewrite Ex. exact (x_diff_0 (d_x s) j Hj Hx). }
    assert (T : differs (d_t s) (d_told s) = true).
    { rewrite Et. exact (differs_0 _ Ht). }
    unfold new_cx, new_ct. rewrite X, T.
    assert (Z : forall m, now m (Some (d_x s)) (Some (d_t s)) (d_x s) (d_t s)).
    { intros m. exists (d_x s), (d_t s). split; [reflexivity|]. split; [reflexivity|]. split; [eauto|]. split; [eauto|].
      pose proof (pos_INR m). split; [intros i Hi|]; rewrite Rminus_eq_0, Rabs_R0; lra. }
    split; [apply Z|intros _; apply Z].
  - split; [|discriminate].
    assert (X : forall i, x_diff (d_x s) (d_xold s) = false -> (i < 21)%nat -> Rabs (nth i y 0 - nth i (d_x s) 0) <= INR (S n) * e).
    { intros i X Hi. rewrite x_diff_false in X. exact (tri _ _ _ _ (B1 i Hi) (X i Hi)). }
    assert (T : differs (d_t s) (d_told s) = false -> Rabs (u - d_t s) <= INR (S n) * e).
    { intros T. apply differs_R in T. exact (tri _ _ _ _ B2 T). }
    unfold new_cx, new_ct.
    destruct (x_diff (d_x s) (d_xold s)), (differs (d_t s) (d_told s)); do 2 eexists; (split; [reflexivity|]); (split; [reflexivity|]);
      (split; [eauto|]); (split; [eauto|]); split; try (intros i Hi); try apply zero_le; auto.
Qed.
Lemma now_fits n cx ct s x t : now n cx ct x t -> d_xold s = x -> d_told s = t -> fits n cx ct s.
Proof. intros (y & u & H) <- <-. right. exists y, u. exact H. Qed.
Lemma now_le n m cx ct x t : (n <= m)%nat -> now n cx ct x t -> now m cx ct x t.
Proof.
  intros H (y & u & E1 & E2 & I1 & I2 & B1 & B2). apply le_INR in H.
  exists y, u. split; [exact E1|]. split; [exact E2|]. split; [exact I1|]. split; [exact I2|]. split.
  - intros i Hi. specialize (B1 i Hi). lra.
  - lra.
Qed.
(* after N evaluations *)
Definition stale (N : nat) (s : @Detail ArithR) : Prop :=
  exists cx ct, @wf ArithR dp_new cx ct s /\ fits (pred N) cx ct s /\ (cx <> None -> (1 <= N)%nat).
(* just evaluated: the caches are those of (y, u) *)
Definition seen (N : nat) (s : @Detail ArithR) : Prop :=
  exists cx ct, @wf ArithR dp_new cx ct s /\ now N cx ct (d_x s) (d_t s) /\ d_xold s = d_x s /\ d_told s = d_t s.
Lemma seen_stale N s : seen N s -> stale (S N) s.
Proof.
  intros (cx & ct & W & K & X & T). exists cx, ct. split; [exact W|]. split; [|intros _; lia].
  exact (now_fits N cx ct s _ _ K X T).
Qed.
Lemma stale_S N s : stale N s -> stale (S N) s.
Proof.
  intros (cx & ct & W & K & H). exists cx, ct. split; [exact W|]. split; [apply (fits_le (pred N)); [cbn; lia|exact K]|].
  intros _; lia.
Qed.
Lemma new_now N cx ct s : In (d_x s, d_t s) V -> fits (pred N) cx ct s -> (cx <> None -> (1 <= N)%nat) ->
  now N (ncx cx s) (nct ct s) (d_x s) (d_t s).
Proof.
  intros Hin K H. destruct (new_fits _ _ _ _ Hin K) as [A B]. destruct cx as [y|].
  - specialize (H ltac:(discriminate)). replace N with (S (pred N)) by lia. exact A.
  - apply (now_le 0); [lia|]. now apply B.
Qed.
Lemma press_stale N s : stale N s -> In (d_x s, d_t s) V ->
  exists s' y u, pressure s = Some (s', pp (cache_of (Some y) (Some u)) (d_t s) (d_d s)) /\
    now N (Some y) (Some u) (d_x s) (d_t s) /\ seen N s' /\ d_x s' = d_x s /\ d_t s' = d_t s.
Proof.
  intros (cx & ct & W & K & H) Hin. pose proof (new_now N cx ct s Hin K H) as G.
  pose proof (pressure_ok _ _ _ W) as E. pose proof (wf_press _ _ _ W) as W1.
  rewrite press_flat in E, W1. unfold ncache in E, W1. pose proof G as (y & u & E1 & E2 & _). rewrite E1, E2 in E, W1, G.
  do 3 eexists. split; [exact E|]. split; [exact G|]. split; [|split; reflexivity].
  exists (Some y), (Some u). split; [exact W1|]. split; [exact G|]. split; reflexivity.
Qed.
Lemma props_stale N s : stale N s -> In (d_x s, d_t s) V ->
  exists s', properties s = Some s' /\ seen N s' /\ d_x s' = d_x s /\ d_t s' = d_t s.
Proof.
  intros (cx & ct & W & K & H) Hin. pose proof (new_now N cx ct s Hin K H) as G.
  pose proof (properties_ok _ _ _ W) as E. pose proof (wf_props _ _ _ W) as W1.
  rewrite props_flat in E, W1. cbv zeta in E, W1. unfold ncache in E, W1. pose proof G as (y & u & E1 & E2 & _). rewrite E1, E2 in E, W1, G.
  eexists. split; [exact E|]. split; [|split; reflexivity].
  exists (Some y), (Some u). split; [exact W1|]. split; [exact G|]. split; reflexivity.
Qed.
Lemma seen_again N s v : seen N s -> In (d_x s, d_t s) V ->
  exists s' y u, pressure (set_d_d v s) = Some (s', pp (cache_of (Some y) (Some u)) (d_t s) v) /\
    seen N s' /\ d_x s' = d_x s /\ d_t s' = d_t s.
Proof.
  intros (cx & ct & W & G & X & T) Hin. pose proof G as (y & u & -> & -> & _).
  destruct (@press_held ArithR dp_new (Some y) (Some u) (set_d_d v s) (d_x s) (d_t s)) as (s' & E & [W' X' T' D' XO TO]).
  - now apply wf_set_d.
  - exact X.
  - exact T.
  - apply x_diff_same_R.
  - apply differs_same.
  - exists s', y, u. split; [exact E|].
    assert (A1 : d_x s' = d_x s) by exact X'. assert (A2 : d_t s' = d_t s) by exact T'.
    split; [|split; assumption]. exists (Some y), (Some u). split; [exact W'|]. rewrite A1, A2. split; [exact G|].
    split; assumption.
Qed.
Lemma seen_set_d N s v : seen N s -> seen N (set_d_d v s).
Proof. intros (cx & ct & W & H). exists cx, ct. split; [now apply wf_set_d|exact H]. Qed.
Lemma stale_set_d N s v : stale N s -> stale N (set_d_d v s).
Proof. intros (cx & ct & W & H). exists cx, ct. split; [now apply wf_set_d|exact H]. Qed.
Lemma loop_seen N plog n : forall v s s' r, seen N s -> In (d_x s, d_t s) V -> density_loop n plog v s = Some (s', r) ->
  seen N s' /\ d_x s' = d_x s /\ d_t s' = d_t s.
Proof.
  induction n as [|n IH]; intros v s s' r H Hin E; cbn [density_loop] in E.
  - injection E as <- _. split; [now apply seen_set_d|]. split; reflexivity.
  - destruct (negb _).
    + injection E as <- _. split; [now apply seen_set_d|]. split; reflexivity.
    + destruct (seen_again N s (fexp (- v)%F) H Hin) as (s1 & y & u & E1 & H1 & X1 & T1). rewrite E1 in E. cbn [bind] in E.
      assert (Hin1 : In (d_x s1, d_t s1) V) by (rewrite X1, T1; exact Hin).
      destruct (_ || _).
      * destruct (IH _ _ _ _ H1 Hin1 E) as (A & B & C). split; [exact A|]. split; congruence.
      * destruct (_ <? _)%F.
        -- injection E as <- _. split; [now apply seen_set_d|]. split; [exact X1|exact T1].
        -- destruct (IH _ _ _ _ H1 Hin1 E) as (A & B & C). split; [exact A|]. split; congruence.
Qed.
Lemma loop_stale N plog n : forall v s s' r, stale N s -> In (d_x s, d_t s) V -> density_loop n plog v s = Some (s', r) ->
  stale (S N) s' /\ d_x s' = d_x s /\ d_t s' = d_t s.
Proof.
  destruct n as [|n]; intros v s s' r H Hin E; cbn [density_loop] in E.
  - injection E as <- _. split; [now apply stale_S, stale_set_d|]. split; reflexivity.
  - destruct (negb _).
    + injection E as <- _. split; [now apply stale_S, stale_set_d|]. split; reflexivity.
    + destruct (press_stale N (set_d_d (fexp (- v)%F) s) (stale_set_d _ _ _ H) Hin) as (s1 & y & u & E1 & _ & H1 & X1 & T1).
      rewrite E1 in E. cbn [bind] in E.
      assert (A1 : d_x s1 = d_x s) by exact X1. assert (A2 : d_t s1 = d_t s) by exact T1.
      assert (Hin1 : In (d_x s1, d_t s1) V) by (rewrite A1, A2; exact Hin).
      destruct (_ || _).
      * destruct (loop_seen _ _ _ _ _ _ _ H1 Hin1 E) as (A & B & C). split; [now apply seen_stale|]. split; congruence.
      * destruct (_ <? _)%F.
        -- injection E as <- _. split; [now apply seen_stale, seen_set_d|]. split; [exact A1|exact A2].
        -- destruct (loop_seen _ _ _ _ _ _ _ H1 Hin1 E) as (A & B & C). split; [now apply seen_stale|]. split; congruence.
Qed.
Lemma density_stale N s s' r : stale N s -> In (d_x s, d_t s) V -> density s = Some (s', r) ->
  stale (S N) s' /\ d_x s' = d_x s /\ d_t s' = d_t s.
Proof.
  intros H Hin E. unfold density in E. destruct (_ <? _)%F.
  - injection E as <- _. split; [now apply stale_S, stale_set_d|]. split; reflexivity.
  - assert (S0 : stale N (density_start s) /\ d_x (density_start s) = d_x s /\ d_t (density_start s) = d_t s).
    { unfold density_start. destruct (_ <? _)%F; (split; [now apply stale_set_d|]; split; reflexivity). }
    destruct S0 as (A & B & C).
    assert (Hin' : In (d_x (density_start s), d_t (density_start s)) V) by (rewrite B, C; exact Hin).
    destruct (loop_stale N _ _ _ _ _ _ A Hin' E) as (D & F & G). split; [exact D|]. split; congruence.
Qed.
Lemma step_stale N o s s' r : stale N s ->
  incl (match o with Pressure | Density _ | Properties => [(d_x s, d_t s)] | _ => [] end) V -> dstep o s = Some (s', r) ->
  stale (length (match o with Pressure | Density _ | Properties => [(d_x s, d_t s)] | _ => [] end) + N) s' /\
  d_x s' = nextx o (d_x s) /\ d_t s' = nextt o (d_t s).
Proof.
  intros H Hin E. pose proof H as (cx & ct & W & _). pose proof (wf_x _ _ _ W) as L.
  destruct o as [f v|v|c| | |i|]; cbn [dstep nextx nextt length plus] in *.
  - injection E as <- _. split; [|destruct f; split; reflexivity].
    destruct H as (cx1 & ct1 & W1 & K1 & K2). exists cx1, ct1. split; [now apply wf_poke|]. split; [destruct f; exact K1|exact K2].
  - injection E as <- _. split; [|split; reflexivity].
    destruct H as (cx1 & ct1 & W1 & K1 & K2). exists cx1, ct1. split; [apply wf_set_x; [reflexivity|exact W1]|]. now split.
  - rewrite dset_comp in E by exact L. cbn [bind] in E. injection E as <- _.
    destruct (comp_check c); (split; [|split; reflexivity]); [|exact H].
    destruct H as (cx1 & ct1 & W1 & K1 & K2). exists cx1, ct1. split; [now apply wf_set_x|]. now split.
  - rewrite molar_mass_ok in E by exact L. cbn [bind] in E. injection E as <- _. split; [|split; reflexivity].
    destruct H as (cx1 & ct1 & W1 & K1 & K2). exists cx1, ct1. split; [now apply (wf_poke PMM)|]. now split.
  - destruct (press_stale N s H (Hin _ (or_introl eq_refl))) as (s1 & y & u & E1 & _ & H1 & X1 & T1).
    rewrite E1 in E. cbn [bind] in E. injection E as <- _. split; [now apply seen_stale|]. now split.
  - destruct (density s) as [[s1 r1]|] eqn:E1; [|discriminate E]. cbn [bind] in E. injection E as <- _.
    exact (density_stale N s s1 r1 H (Hin _ (or_introl eq_refl)) E1).
  - destruct (props_stale N s H (Hin _ (or_introl eq_refl))) as (s1 & E1 & H1 & X1 & T1).
    rewrite E1 in E. cbn [bind] in E. injection E as <- _. split; [now apply seen_stale|]. now split.
Qed.
Lemma run_stale l l2 : forall N s s' r, stale N s -> incl (asked 21 fractions (d_x s) (d_t s) (l ++ l2)) V ->
  drun l s = Some (s', r) ->
  stale (length (asked 21 fractions (d_x s) (d_t s) l) + N) s' /\ incl (asked 21 fractions (d_x s') (d_t s') l2) V.
Proof.
  induction l as [|o l IH]; intros N s s' r H Hin E; cbn [drun] in E.
  - injection E as <- _. auto.
  - cbn [app] in Hin. rewrite asked_cons in Hin. apply incl_app_inv in Hin. destruct Hin as [Hin1 Hin2].
    destruct (dstep o s) as [[s1 r1]|] eqn:E1; [|discriminate E]. cbn [bind] in E.
    destruct (drun l s1) as [[s2 r2]|] eqn:E2; [|discriminate E]. cbn [bind] in E. injection E as <- _.
    destruct (step_stale N o s s1 r1 H Hin1 E1) as (H1 & Ex & Et). rewrite asked_cons, app_length. rewrite <- Ex, <- Et in Hin2 |- *.
    destruct (IH _ _ _ _ H1 Hin2 E2) as (A & B). split; [|exact B].
    replace (length (match o with Pressure | Density _ | Properties => [(d_x s, d_t s)] | _ => [] end)
      + length (asked 21 fractions (d_x s1) (d_t s1) l) + N)%nat
      with (length (asked 21 fractions (d_x s1) (d_t s1) l) + (length (match o with Pressure | Density _ | Properties => [(d_x s, d_t s)] | _ => [] end) + N))%nat by lia.
    exact A.
Qed.
End V.

(* every pressure returned by any history is that of nearby cached inputs *)
Local Transparent cK3 cBs cCsn.
Lemma dk_list (y : list R) t : length y = 21%nat -> (exists i, (i < 21)%nat /\ 1 / 10000000 < nth i y 0) ->
  dk New (fun i => nth i y 0) t = @cache_of ArithR dp_new (Some y) (Some t).
Proof.
  intros L H. rewrite dk_eq by exact H. unfold dX.
  assert (E : xl (fun i => nth i y 0) = y).
  { do 21 (destruct y as [|? y]; [discriminate L|]). destruct y; [reflexivity|discriminate L]. }
  rewrite E. unfold cache_of, cK3, cBs, cCsn. reflexivity.
Qed.
Local Opaque cK3 cBs cCsn.
Lemma pz_list (y : list R) t u d : length y = 21%nat -> (exists i, (i < 21)%nat /\ 1 / 10000000 < nth i y 0) -> 1 / 10000000 < u -> 0 < t ->
  @pz ArithR (@cache_of ArithR dp_new (Some y) (Some u)) t d = Zfactor (nn (fun i => nth i y 0)) u d.
Proof.
  intros L Hy Hu Ht. rewrite (pz_t _ t u) by lra. rewrite <- (dk_list y u L Hy), <- dprop_z_eos by assumption.
  rewrite dprop_ok by assumption. cbn [dvals]. unfold qz, pz, qrt. rar. pose proof RD_pos. rar.
  f_equal. field. lra.
Qed.
Lemma stale_fresh V : stale V 0 detail_fresh.
Proof.
  exists None, None. split; [exact wf_fresh|]. split; [left; split; [reflexivity|split; [reflexivity|split; reflexivity]]|].
  intros []. reflexivity.
Qed.
Lemma fresh_x : @d_x ArithR detail_fresh = repeat (@f0 ArithR) 21. Proof. reflexivity. Qed.
Lemma fresh_t : @d_t ArithR detail_fresh = @f0 ArithR. Proof. reflexivity. Qed.
Lemma run_fresh V (HV : forall x t, In (x, t) V -> length x = 21%nat /\ (exists i, (i < 21)%nat /\ 1 / 10000000 < nth i x 0) /\ 1 / 10000000 < t)
  l s r : incl (dasked (l ++ [Pressure])) V -> drun l detail_fresh = Some (s, r) ->
  stale V (length (dasked l)) s /\ incl (asked 21 fractions (d_x s) (d_t s) [Pressure]) V.
Proof.
  intros Hin E. generalize (run_stale V HV l [Pressure] 0 detail_fresh s r (stale_fresh V)).
  rewrite fresh_x, fresh_t, Nat.add_0_r. intros G. exact (G Hin E).
Qed.
Lemma d_stale_bound : forall l (s s' : @Detail ArithR) r o, dexec New l = Some (s, r) ->
  (forall x t, In (x, t) (dasked (l ++ [Pressure])) -> (exists i, (i < 21)%nat /\ 1 / 10000000 < nth i x 0) /\ 1 / 10000000 < t) ->
  dstep Pressure s = Some (s', o) ->
  exists y u, (exists u', In (y, u') (dasked (l ++ [Pressure]))) /\ (exists y', In (y', u) (dasked (l ++ [Pressure]))) /\
    (forall i, (i < 21)%nat -> Rabs (nth i y 0 - nth i (d_x s) 0) <= INR (length (dasked l)) / 10000000) /\
    Rabs (u - d_t s) <= INR (length (dasked l)) / 10000000 /\
    o = OVal (A := ArithR) (d_d s * (831451 / 100000) * d_t s * Zfactor (nn (fun i => nth i y 0)) u (d_d s)).
Proof.
  intros l s s' r o E HV Eo. set (V := dasked (l ++ [Pressure])) in *.
  assert (HV' : forall x t, In (x, t) V -> length x = 21%nat /\ (exists i, (i < 21)%nat /\ 1 / 10000000 < nth i x 0) /\ 1 / 10000000 < t).
  { intros x t H. split; [|now apply (HV x t)]. revert H. apply asked_lengths. reflexivity. }
  pose proof (dexec_new_inv _ _ E) as E0.
  destruct (run_fresh V HV' l s r (incl_refl _) E0) as (H1 & Hin1).
  destruct (press_stale V HV' _ s H1 (Hin1 _ (or_introl eq_refl))) as (s1 & y & u & E1 & (y1 & u1 & Ey & Eu & I1 & I2 & B1 & B2) & _).
  injection Ey as <-. injection Eu as <-. exists y, u. split; [exact I1|]. split; [exact I2|]. split.
  { intros i Hi. exact (div7 _ _ (B1 i Hi)). } split; [exact (div7 _ _ B2)|].
  cbn [dstep] in Eo. rewrite E1 in Eo. cbn [bind] in Eo. injection Eo as _ <-. unfold pp.
  destruct I1 as [u' I1]. destruct I2 as [y' I2]. destruct (HV' _ _ I1) as (L & Hy & _). destruct (HV' _ _ I2) as (_ & _ & Hu).
  destruct (HV' _ _ (Hin1 _ (or_introl eq_refl))) as (_ & _ & Ht).
  assert (Ht0 : 0 < d_t s) by exact (pos7 _ Ht).
  exact (f_equal (fun z : R => OVal (A := ArithR) (d_d s * (831451 / 100000) * d_t s * z)) (pz_list y (d_t s) u (d_d s) L Hy Hu Ht0)).
Qed.
