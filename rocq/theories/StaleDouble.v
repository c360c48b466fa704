(* Composition drift in double precision: methane replaced by nitrogen in steps of 2^-24. *)
From Coq Require Import Reals ZArith List Bool Lra Lia Psatz.
From Coquelicot Require Import Coquelicot.
From Flocq Require Import Core BinarySingleNaN.
From Interval Require Import Tactic.
From Verif Require Import FArith Prelude Tab Composition ArithB64 B64Lemmas SpecB64 B64Check ArithR RSum SpecDetail SpecGerg SpecStd SpecAcc SpecAccG SpecGeneric SpecHistory SpecReal
  DetailTables DetailModel DetailPure DetailRefine DetailEval GergTables GergModel GergPure GergRefine GergEval Api ApiSafe BasicProofs GenericLemmas HistoryDetail HistoryGerg
  DetailReal DetailThermo DetailEos GergReal GergEos Drift DriftReal DriftGerg StaleMix StaleGerg B64Err AccFold AccMix AccMix2 AccMix3 AccProof GAccRed GAccProof DriftDouble DriftWit GDriftDouble.
Import ListNotations.
Local Open Scope R_scope.

(* generic: the first evaluation, and what a run of set_composition and pressure asks for *)
Section New.
Context {A : Arith}.
Definition start_ops (c : Composition) (t d : F) : list op := [SetComp c; Poke PT t; Poke PD d; Pressure].
Section D.
Local Opaque ar_of ar00 ar01 ar02 ar03 ar10 ar11 ar20 cTun cBs cCsn cK3 x_diff pa0 pmm tab pressure properties differs.
Lemma first_comp (c : Composition) (t d : F) : comp_check c = ROk -> x_diff (fractions c) (repeat f0 21) = true -> differs t f0 = true ->
  exists s rr, drun (start_ops c t d) detail_fresh = Some (s, rr) /\
    @held A dp_new (Some (fractions c)) (Some t) (fractions c) t d s.
Proof.
  intros Hc Hx Ht. unfold start_ops. cbn [drun dstep dpoke]. rewrite dset_comp by exact (wf_x _ _ _ wf_fresh). rewrite Hc. cbn [bind].
  assert (W : @wf A dp_new None None (set_d_d d (set_d_t t (set_d_x (fractions c) detail_fresh)))).
  { apply (@wf_poke A dp_new PD), (@wf_poke A dp_new PT), wf_set_x; [reflexivity|exact wf_fresh]. }
  destruct (@press_new A dp_new (fractions c) t d _ None None W eq_refl eq_refl eq_refl Hx Ht) as (s & E & Z).
  rewrite E. cbn [bind]. do 2 eexists. split; [reflexivity|exact Z].
Qed.
Lemma first_value (c : Composition) (t d : F) : comp_check c = ROk -> x_diff (fractions c) (repeat f0 21) = true -> differs t f0 = true ->
  exists s r s', dexec New [SetComp c; Poke PT t; Poke PD d] = Some (s, r) /\
    dstep Pressure s = Some (s', OVal (pp (@cache_of A dp_new (Some (fractions c)) (Some t)) t d)).
Proof.
  intros Hc Hx Ht. set (s0 := set_d_d d (set_d_t t (set_d_x (fractions c) detail_fresh))).
  assert (W : @wf A dp_new None None s0).
  { apply (@wf_poke A dp_new PD), (@wf_poke A dp_new PT), wf_set_x; [reflexivity|exact wf_fresh]. }
  destruct (@press_new A dp_new (fractions c) t d s0 None None W eq_refl eq_refl eq_refl Hx Ht) as (s & E & _).
  exists s0. eexists. exists s. split.
  - apply dexec_new. cbn [drun dstep dpoke]. rewrite dset_comp by exact (wf_x _ _ _ wf_fresh). rewrite Hc. cbn [bind]. reflexivity.
  - cbn [dstep]. rewrite E. reflexivity.
Qed.
End D.
Section G.
Local Opaque gterms arT arS tab2 gc_red ga0 gmm gx_diff tab gerg_pressure gerg_properties differs.
Lemma gfirst_comp (c : Composition) (t d : F) : comp_check c = ROk -> gx_diff (f0 :: fractions c) (repeat f0 22) = true -> differs t f0 = true ->
  exists s rr k, grun (start_ops c t d) gerg_fresh = Some (s, rr) /\
    @gcan A gp_new (f0 :: fractions c) t k /\ @gheld A gp_new k (f0 :: fractions c) t d s.
Proof.
  intros Hc Hx Ht. unfold start_ops. cbn [grun gstep gpoke]. rewrite gset_comp by exact (gw_x _ _ gwf_fresh). rewrite Hc. cbn [bind].
  set (s0 := set_g_d d (set_g_t t (set_g_x (f0 :: fractions c) gerg_fresh))).
  assert (W : @gwf A gp_new gc_zero s0).
  { apply (@gwf_poke A gp_new PD), (@gwf_poke A gp_new PT), gwf_set_x; [reflexivity|exact gwf_fresh]. }
  destruct (@gpress_new A gp_new gc_zero s0 W Hx Ht) as (s & k & E & Hk & Hh & _).
  rewrite E. cbn [bind]. do 3 eexists. split; [reflexivity|]. split; [exact Hk|exact Hh].
Qed.
End G.
Lemma asked_all n (fr : Composition -> list F) (c : nat -> Composition) (l : list op) : (forall i, comp_check (c i) = ROk) ->
  List.Forall (fun o : op => (exists i, o = SetComp (c i)) \/ o = Pressure) l -> forall x t y u, (exists i, x = fr (c i)) ->
  In (y, u) (asked n fr x t l) -> (exists i, y = fr (c i)) /\ u = t.
Proof.
  intros Hc. induction l as [|o l IH]; intros Hl x t y u Hx H; [elim H|]. inversion Hl as [|? ? Ho Hl']; subst. specialize (IH Hl').
  destruct Ho as [[i ->]| ->]; cbn [asked] in H.
  - rewrite Hc in H. apply (IH _ _ _ _ (ex_intro _ i eq_refl) H).
  - destruct H as [E|H]; [injection E as <- <-; now split|]. exact (IH _ _ _ _ Hx H).
Qed.
Lemma ramp_all (c : nat -> Composition) n : List.Forall (fun o : op => (exists i, o = SetComp (c i)) \/ o = Pressure) (ramp (fun i => SetComp (c i)) n ++ [Pressure]).
Proof.
  apply Forall_app. split; [|constructor; [now right|constructor]].
  induction n as [|n IH]; cbn [ramp]; [constructor|]. apply Forall_app. split; [exact IH|].
  constructor; [left; now exists (S n)|]. constructor; [now right|constructor].
Qed.
Lemma dasked_blend (c : nat -> Composition) t d n y u : (forall i, comp_check (c i) = ROk) ->
  In (y, u) (dasked ((start_ops (c 0%nat) t d ++ ramp (fun i => SetComp (c i)) n) ++ [Pressure])) -> (exists i, y = fractions (c i)) /\ u = t.
Proof.
  intros Hc H. rewrite <- app_assoc in H. unfold dasked, start_ops in H. cbn [app asked] in H. rewrite Hc in H.
  destruct H as [E|H]; [injection E as <- <-; split; [now exists 0%nat|reflexivity]|].
  exact (asked_all _ _ c _ Hc (ramp_all c n) _ _ _ _ (ex_intro _ 0%nat eq_refl) H).
Qed.
Lemma gasked_blend (c : nat -> Composition) t d n y u : (forall i, comp_check (c i) = ROk) ->
  In (y, u) (gasked ((start_ops (c 0%nat) t d ++ ramp (fun i => SetComp (c i)) n) ++ [Pressure])) -> (exists i, y = f0 :: fractions (c i)) /\ u = t.
Proof.
  intros Hc H. rewrite <- app_assoc in H. unfold gasked, start_ops in H. cbn [app asked] in H. rewrite Hc in H.
  destruct H as [E|H]; [injection E as <- <-; split; [now exists 0%nat|reflexivity]|].
  exact (asked_all _ _ c _ Hc (ramp_all c n) _ _ _ _ (ex_intro _ 0%nat eq_refl) H).
Qed.
End New.

(* the fraction w / 2^24, w at most 2^24 *)
Definition share (i : nat) : Z := Z.min (Z.of_nat i) 16777216.
Definition nshare (i : nat) : b64 := bdy (share i) (-24).
Definition mshare (i : nat) : b64 := bdy (16777216 - share i) (-24).
Definition sR (i : nat) : R := IZR (share i) / 16777216.
Lemma sR_01 i : 0 <= sR i <= 1.
Proof. unfold sR. assert (0 <= share i <= 16777216)%Z by (unfold share; lia). destruct H as [H1 H2]. apply IZR_le in H1, H2. lra. Qed.
Lemma nshare_R i : fin (nshare i) /\ bR (nshare i) = sR i.
Proof.
  destruct (bdy_R (share i) (-24)) as [F E]; [unfold share; lia|lia|]. split; [exact F|]. unfold nshare. rewrite E.
  change (p2 (-24)) with (/ 16777216). reflexivity.
Qed.
Lemma mshare_R i : fin (mshare i) /\ bR (mshare i) = 1 - sR i.
Proof.
  destruct (bdy_R (16777216 - share i) (-24)) as [F E]; [unfold share; lia|lia|]. split; [exact F|]. unfold mshare. rewrite E.
  rewrite minus_IZR. change (p2 (-24)) with (/ 16777216). unfold sR. field.
Qed.
Lemma sR_step i : 0 <= sR (S i) - sR i <= / 16777216.
Proof.
  unfold sR. assert (0 <= share (S i) - share i <= 1)%Z by (unfold share; lia). destruct H as [H1 H2]. apply IZR_le in H1, H2.
  rewrite minus_IZR in H1, H2. lra.
Qed.
Definition xmix (i j : nat) : b64 := match j with O => mshare i | S O => nshare i | _ => B0 end.
Lemma share_low z : 0 <= z <= 1 -> (exists k : Z, (0 <= k)%Z /\ z = IZR k / 16777216) -> z = 0 \/ p2 (-24) <= z.
Proof.
  intros Hz (k & Hk & ->). destruct (Z.eq_dec k 0) as [->|N]; [left; lra|right]. assert (1 <= k)%Z as K by lia. apply IZR_le in K.
  change (p2 (-24)) with (/ 16777216). lra.
Qed.
Lemma xmix_R i j : fin (xmix i j) /\ 0 <= bR (xmix i j) <= 1 /\ (bR (xmix i j) = 0 \/ p2 (-24) <= bR (xmix i j)).
Proof.
  pose proof (sR_01 i) as S1. destruct (nshare_R i) as [F1 E1]. destruct (mshare_R i) as [F2 E2].
  destruct j as [|[|j]]; cbn [xmix].
  - split; [exact F2|]. rewrite E2. split; [lra|]. apply share_low; [lra|]. exists (16777216 - share i)%Z.
    split; [unfold share; lia|]. rewrite minus_IZR. unfold sR. field.
  - split; [exact F1|]. rewrite E1. split; [exact S1|]. apply share_low; [exact S1|]. exists (share i). split; [unfold share; lia|reflexivity].
  - split; [reflexivity|]. change (bR B0) with 0. split; [lra|now left].
Qed.
Lemma p2_lt a b z : (a <= b)%Z -> z = 0 \/ p2 b <= z -> z = 0 \/ p2 a <= z.
Proof. intros H [Z|Z]; [now left|right]. eapply Rle_trans; [apply bpow_le; exact H|exact Z]. Qed.
Lemma xmix_tot i : tot 21 (fun j => bR (xmix i j)) = 1.
Proof. cbn [tot xmix]. rewrite (proj2 (nshare_R i)), (proj2 (mshare_R i)). change (bR B0) with 0. ring. Qed.
Lemma xmix_step i j : Rabs (bR (xmix (S i) j) - bR (xmix i j)) <= 1 / 10000000.
Proof.
  pose proof (sR_step i). apply Rabs_le. destruct j as [|[|j]]; cbn [xmix]; rewrite ?(proj2 (nshare_R _)), ?(proj2 (mshare_R _));
  change (bR B0) with 0; lra.
Qed.
Lemma xmix_un i j : Rabs (sR i - 1) <= 1 / 10000000 -> 0 <= bR (xmix i j) <= un j.
Proof.
  intros H. apply Rabs_le_inv in H. pose proof (sR_01 i). unfold un. destruct j as [|[|j]]; cbn [xmix Nat.eqb];
  rewrite ?(proj2 (nshare_R _)), ?(proj2 (mshare_R _)); change (bR B0) with 0; lra.
Qed.
Lemma xmix_0 j : bR (xmix 0 j) = pm j.
Proof.
  unfold pm. destruct j as [|[|j]]; cbn [xmix Nat.eqb]; rewrite ?(proj2 (nshare_R _)), ?(proj2 (mshare_R _)); unfold sR; cbn; lra.
Qed.

Lemma K5_meth : 21 / 1000 <= K5 pm.
Proof. rewrite K5_methane. unfold Rpower, KM. interval. Qed.
Lemma pow_gap : (1 + 1 / 100000000) * Rpower (2/100) (3/5) < (1 - 1 / 100000000) * Rpower (21/1000) (3/5).
Proof. unfold Rpower. interval. Qed.

Section M.
Variable m : Libm.
Hypothesis A : accurate m.
Local Notation B := (ArithB64 m).
Definition cmix (i : nat) : @Composition B := two m (mshare i) (nshare i).
Lemma cmix_fr i : @fractions B (cmix i) = map (xmix i) (seq 0 21). Proof. reflexivity. Qed.
Lemma cmix_check i : @comp_check B (cmix i) = ROk.
Proof.
  assert (U : usable (bfractions m (cmix i))).
  { unfold usable, bfractions. rewrite cmix_fr. apply Forall_forall. intros v Hv. apply in_map_iff in Hv. destruct Hv as (j & <- & _).
    destruct (xmix_R i j) as (F & P & _). split; [exact F|lra]. }
  assert (E : exact_sum m (cmix i) = 1).
  { unfold exact_sum, bfractions. rewrite cmix_fr. cbn [map seq Rsum fold_right xmix]. rewrite (proj2 (nshare_R i)), (proj2 (mshare_R i)).
    change (bR B0) with 0. ring. }
  refine (proj1 (proj2 (proj2 (check_decides m (cmix i) U _ _ eq_refl))) _); rewrite E.
  - change 1 with (bpow radix2 0). apply bpow_le. lia.
  - assert (0 < / 10 ^ 14 <= / 1000000) by (split; [apply Rinv_0_lt_compat|apply Rinv_le]; lra). lra.
Qed.
Lemma xf_mix i j : (j < 21)%nat -> @xf B (map (xmix i) (seq 0 21)) j = xmix i j.
Proof. intros H. unfold xf. rewrite (nth_indep _ _ (xmix i 0%nat)) by (now rewrite map_length, seq_length). rewrite map_nth, seq_nth by exact H. reflexivity. Qed.
Lemma gxf_mix i j : (1 <= j < 22)%nat -> @xf B (@f0 B :: @fractions B (cmix i)) j = xmix i (j - 1).
Proof. intros H. destruct j as [|j]; [lia|]. rewrite cmix_fr. cbn [Nat.sub]. rewrite Nat.sub_0_r. apply xf_mix. lia. Qed.
Definition t300 : b64 := bdy 300 0.
Definition done : b64 := bdy 1 0.
Lemma t300_R : fin t300 /\ bR t300 = 300.
Proof. destruct (bdy_R 300 0 ltac:(lia) ltac:(lia)) as [F E]. split; [exact F|]. unfold t300. rewrite E. change (p2 0) with 1. ring. Qed.


Lemma Hxm i : forall j, (j < 21)%nat -> fin (xmix i j) /\ (bR (xmix i j) = 0 \/ p2 (-50) <= bR (xmix i j)).
Proof. intros j _. destruct (xmix_R i j) as (F & _ & Q). split; [exact F|]. exact (p2_lt (-50) (-24) _ ltac:(lia) Q). Qed.
Lemma Htot i : 99 / 100 <= tot 21 (fun j => bR (xmix i j)) <= 101 / 100.
Proof. rewrite xmix_tot. lra. Qed.
Lemma t300_ok : fin t300 /\ 32 <= bR t300 <= 2048.
Proof. destruct t300_R as [F E]. split; [exact F|]. lra. Qed.
(* what the cached K^3 is *)
Lemma HXm i : forall j, (j < 21)%nat -> fin (@xf B (map (xmix i) (seq 0 21)) j) /\ rng (-50) 1 (bR (@xf B (map (xmix i) (seq 0 21)) j)).
Proof.
  intros j Hj. rewrite xf_mix by exact Hj. destruct (xmix_R i j) as (F & P & Q). split; [exact F|].
  destruct (p2_lt (-50) (-24) _ ltac:(lia) Q) as [Z|Z]; [now left|right]. split; [exact Z|]. change (p2 1) with 2. lra.
Qed.
Lemma Hsm i : 99 / 100 <= sum 21 (xr (@xf B (map (xmix i) (seq 0 21)))) <= 101 / 100.
Proof.
  rewrite (sum_ext 21 _ (fun j => bR (xmix i j))); [exact (Htot i)|]. intros j Hj. unfold xr. now rewrite xf_mix by exact Hj.
Qed.
Definition k3of (i : nat) : b64 := @cK3 B dp_new (Some (map (xmix i) (seq 0 21))).
Lemma k3_val i : exists K, K = K5 (fun j => bR (xmix i j)) /\ 0 < K /\ Rabs (bR (k3of i) - Rpower K (3/5)) <= 1 / 268435456 * Rpower K (3/5).
Proof.
  exists (K5 (fun j => bR (xmix i j))). split; [reflexivity|].
  assert (E : K5 (xr (@xf B (map (xmix i) (seq 0 21)))) = K5 (fun j => bR (xmix i j))).
  { apply K5_ext. intros j Hj. unfold xr. now rewrite xf_mix by exact Hj. }
  rewrite <- E. pose proof (K5p _ (HXm i) (Hsm i)) as P. split; [exact P|].
  pose proof (aK3 m A _ (HXm i) (Hsm i)) as Q. rewrite <- sizeK3 in Q.
  destruct (rel_of _ _ _ _ _ Q) as (_ & Q1 & _ & Q2 & _); [apply Rpower_gt0|unfold B64Err.KM; lia|].
  change (k3of i) with (@pK3 B dp_new (@xf B (map (xmix i) (seq 0 21)))).
  eapply Rle_trans; [exact Q1|]. apply Rmult_le_compat_r; [left; apply Rpower_gt0|apply Q2].
Qed.
Lemma k3_gap i : Rabs (sR i - 1) <= 1 / 10000000 -> bR (k3of i) < bR (k3of 0).
Proof.
  intros H. destruct (k3_val i) as (K & EK & PK & V). destruct (k3_val 0) as (K' & EK' & PK' & V').
  assert (U : K <= 2 / 100) by (rewrite EK; apply K5_near; intros; now apply xmix_un).
  assert (U' : 21 / 1000 <= K').
  { rewrite EK'. rewrite (K5_ext _ pm) by (intros; apply xmix_0). exact K5_meth. }
  apply Rabs_le_inv in V, V'.
  assert (G : Rpower K (3/5) <= Rpower (2/100) (3/5)) by (apply Rle_Rpower_l; lra).
  assert (G' : Rpower (21/1000) (3/5) <= Rpower K' (3/5)) by (apply Rle_Rpower_l; lra).
  pose proof (Rpower_gt0 (2/100) (3/5)). pose proof pow_gap. lra.
Qed.

Lemma xm_step i : @x_diff B (map (xmix (S i)) (seq 0 21)) (map (xmix i) (seq 0 21)) = false.
Proof.
  unfold x_diff. destruct (existsb _ _) eqn:E; [|reflexivity]. apply existsb_exists in E. destruct E as (j & Hj & E). apply in_seq in Hj.
  rewrite !xf_mix in E by lia. rewrite differs_near in E; [discriminate E|apply xmix_R|apply xmix_R|apply xmix_step].
Qed.
Definition dblend (n : nat) : list (@op B) := @start_ops B (cmix 0) t300 done ++ @ramp B (fun i => SetComp (A := B) (cmix i)) n.
Lemma dblend_end n : exists s r, @dexec B New (dblend n) = Some (s, r) /\
  @held B dp_new (Some (map (xmix 0) (seq 0 21))) (Some t300) (map (xmix n) (seq 0 21)) t300 done s.
Proof.
  destruct (@first_comp B (cmix 0) t300 done (cmix_check 0) (diff_x m (xmix 0) (Hxm 0) (Htot 0)) (diff_t m t300 t300_ok)) as (s & r & E & H).
  destruct (@d_ramp_x B dp_new cmix _ _ _ _ s H (differs_self m t300 (proj1 t300_R)) cmix_check n) as (s' & r' & E' & H').
  - intros i _. exact (xm_step i).
  - do 2 eexists. split; [|exact H']. exact (@dexec_app B New _ _ _ _ _ _ (@dexec_new B _ _ _ E) E').
Qed.
Lemma dblend_stale n : exists s r s' v s1 r1 s2, @dexec B New (dblend n) = Some (s, r) /\
  d_x s = @fractions B (cmix n) /\ d_t s = t300 /\ d_d s = done /\
  @dstep B Pressure s = Some (s', OVal (A := B) v) /\ d_k3 s' = k3of 0 /\ d_x s' = @fractions B (cmix n) /\
  @dexec B New [SetComp (A := B) (cmix 0); Poke (A := B) PT t300; Poke (A := B) PD done] = Some (s1, r1) /\
  @dstep B Pressure s1 = Some (s2, OVal (A := B) v).
Proof.
  destruct (dblend_end n) as (s & r & E & H). destruct H as [W X T D XO TO].
  destruct (press_held (P := dp_new) _ _ s _ _ W XO TO) as (s' & E' & [W' X' T' D' XO' TO']).
  { rewrite X. exact (xs_same m (xmix n) (Hxm n)). }
  { rewrite T. exact (differs_self m t300 (proj1 t300_R)). }
  set (v := pp (@cache_of B dp_new (Some (map (xmix 0) (seq 0 21))) (Some t300)) t300 done).
  assert (N : exists s1 r1 s2, @dexec B New [SetComp (A := B) (cmix 0); Poke (A := B) PT t300; Poke (A := B) PD done] = Some (s1, r1) /\
     @dstep B Pressure s1 = Some (s2, OVal (A := B) v)).
  { exact (@first_value B (cmix 0) t300 done (cmix_check 0) (diff_x m (xmix 0) (Hxm 0) (Htot 0)) (diff_t m t300 t300_ok)). }
  destruct N as (s1 & r1 & s2 & N1 & N2).
  exists s, r, s', v, s1, r1, s2. split; [exact E|]. split; [exact X|]. split; [exact T|]. split; [exact D|].
  split; [cbn [dstep]; rewrite E', T, D; reflexivity|]. split; [exact (wf_k3 _ _ _ W')|]. split; [rewrite X'; exact X|].
  split; [exact N1|exact N2].
Qed.

Definition steps_exist : exists n, Z.of_nat n = 16777216%Z.
Proof. destruct (Z_of_nat_complete 16777216) as [n H]; [lia|]. exists n. now symmetry. Qed.
Lemma sR_n n : Z.of_nat n = 16777216%Z -> sR n = 1.
Proof. intros H. unfold sR, share. rewrite H, Z.min_id. field. Qed.
Lemma near_1 n i : Z.of_nat n = 16777216%Z -> Rabs (bR (xmix i 1) - bR (xmix n 1)) <= 1 / 10000000 -> Rabs (sR i - 1) <= 1 / 10000000.
Proof. intros Hn. cbn [xmix]. rewrite !(proj2 (nshare_R _)), (sR_n n Hn). trivial. Qed.
(* the cache of a new object *)
Lemma fresh_k3 i u d s1 r1 : fin u -> 32 <= bR u <= 2048 ->
  @dexec B New [SetX (A := B) (xmix i); Poke (A := B) PT u; Poke (A := B) PD d; Pressure] = Some (s1, r1) -> d_k3 s1 = k3of i.
Proof.
  intros Fu Hu E. apply dexec_new_inv in E.
  destruct (@first_held B (xmix i) u d (diff_x m (xmix i) (Hxm i) (Htot i)) (diff_t m u (conj Fu Hu))) as (s & rr & E' & H).
  rewrite E' in E. injection E as <- _. exact (wf_k3 _ _ _ (h_wf _ _ _ _ _ _ H)).
Qed.
Lemma mix_nth i j : (j < 21)%nat -> nth j (@fractions B (cmix i)) B0 = xmix i j.
Proof. exact (xf_mix i j). Qed.
Lemma set_same i (l : list (@op B)) : @dexec B New (SetX (A := B) (fun j => nth j (@fractions B (cmix i)) B0) :: l) = @dexec B New (SetX (A := B) (xmix i) :: l).
Proof.
  assert (E : map (fun j => nth j (@fractions B (cmix i)) B0) (seq 0 21) = map (xmix i) (seq 0 21)).
  { apply map_ext_in. intros j Hj. apply in_seq in Hj. apply mix_nth. lia. }
  unfold dexec. destruct (dstart New) as [s|]; [|reflexivity]. cbn [bind drun dstep]. now rewrite E.
Qed.
Lemma d_double_witness : exists n s r s' v s1 r1 s2, @dexec B New (dblend n) = Some (s, r) /\
  (forall i, @comp_check B (cmix i) = ROk) /\
  (forall i j, (j < 21)%nat -> Rabs (bR (nth j (@fractions B (cmix (S i))) B0) - bR (nth j (@fractions B (cmix i)) B0)) <= 1 / 10000000) /\
  (forall j, (j < 21)%nat -> bR (nth j (@fractions B (cmix 0)) B0) = if Nat.eqb j 0 then 1 else 0) /\
  (forall j, (j < 21)%nat -> bR (nth j (d_x s) B0) = if Nat.eqb j 1 then 1 else 0) /\
  @dstep B Pressure s = Some (s', OVal (A := B) v) /\
  @dexec B New [SetComp (A := B) (cmix 0); Poke (A := B) PT (d_t s); Poke (A := B) PD (d_d s)] = Some (s1, r1) /\
  @dstep B Pressure s1 = Some (s2, OVal (A := B) v) /\
  forall y u sy ry, In (y, u) (@dasked B (dblend n ++ [Pressure])) ->
    (forall j, (j < 21)%nat -> Rabs (bR (nth j y B0) - bR (nth j (d_x s') B0)) <= 1 / 10000000) ->
    @dexec B New [SetX (A := B) (fun j => nth j y B0); Poke (A := B) PT u; Poke (A := B) PD (d_d s); Pressure] = Some (sy, ry) -> bR (d_k3 sy) < bR (d_k3 s').
Proof.
  destruct steps_exist as [n Hn].
  destruct (dblend_stale n) as (s & r & s' & v & s1 & r1 & s2 & E & X & T & D & E' & K & X' & N1 & N2).
  exists n, s, r, s', v, s1, r1, s2. split; [exact E|]. split; [exact cmix_check|].
  split. { intros i j Hj. rewrite !mix_nth by exact Hj. apply xmix_step. }
  split. { intros j Hj. rewrite mix_nth by exact Hj. apply xmix_0. }
  split. { intros j Hj. rewrite X, mix_nth by exact Hj. pose proof (sR_n n Hn) as Q.
    destruct j as [|[|j]]; cbn [xmix Nat.eqb]; rewrite ?(proj2 (nshare_R _)), ?(proj2 (mshare_R _)); [lra|lra|reflexivity]. }
  split; [exact E'|]. rewrite T, D. split; [exact N1|]. split; [exact N2|].
  intros y u sy ry Hy Hn' Ey. destruct (dasked_blend cmix t300 done n y u cmix_check Hy) as [[i ->] ->].
  rewrite K. rewrite set_same in Ey. rewrite (fresh_k3 i t300 _ sy ry (proj1 t300_R) (proj2 t300_ok) Ey).
  apply k3_gap. apply (near_1 n i Hn). specialize (Hn' 1%nat ltac:(lia)). rewrite X', !mix_nth in Hn' by lia. exact Hn'.
Qed.
Lemma d_double_false : ~ (forall l (s s' : @Detail B) r o, @dexec B New l = Some (s, r) -> @dstep B Pressure s = Some (s', o) ->
  exists y u s1 r1, In (y, u) (@dasked B (l ++ [Pressure])) /\
    (forall j, (j < 21)%nat -> Rabs (bR (nth j y B0) - bR (nth j (d_x s') B0)) <= 1 / 10000000) /\
    @dexec B New [SetX (A := B) (fun j => nth j y B0); Poke (A := B) PT u; Poke (A := B) PD (d_d s); Pressure] = Some (s1, r1) /\ d_k3 s' = d_k3 s1).
Proof.
  intros H. destruct d_double_witness as (n & s & r & s' & v & s1 & r1 & s2 & E & _ & _ & _ & _ & E' & _ & _ & K).
  destruct (H _ _ _ _ _ E E') as (y & u & sy & ry & I & Hy & Ey & Q). specialize (K y u sy ry I Hy Ey). rewrite Q in K. exact (Rlt_irrefl _ K).
Qed.

(* GERG *)
Definition gmix (i j : nat) : b64 := match j with O => B0 | S j => xmix i j end.
Lemma gmix_fr i : @f0 B :: @fractions B (cmix i) = map (gmix i) (seq 0 22). Proof. reflexivity. Qed.
Lemma Hgm i : forall j, (1 <= j < 22)%nat -> fin (gmix i j) /\ (bR (gmix i j) = 0 \/ p2 (-49) <= bR (gmix i j)).
Proof. intros [|j] H; [lia|]. destruct (xmix_R i j) as (F & _ & Q). split; [exact F|]. exact (p2_lt (-49) (-24) _ ltac:(lia) Q). Qed.
Definition trof (i : nat) : b64 := @gtr B gp_new (@xf B (map (gmix i) (seq 0 22))).
Lemma tr_val i : fin (trof i) /\ Rabs (bR (trof i) - tred (fun j => bR (gmix i j))) <= 1 / 268435456 * tred (fun j => bR (gmix i j)) /\ 0 < tred (fun j => bR (gmix i j)).
Proof.
  pose proof (a_tred m _ (HXg m (gmix i) (Hgm i) (Htot i)) (Hsg m (gmix i) (Htot i))) as Q.
  assert (E : snd (@gred ArithR gp_new (fun j => bR (@xf B (map (gmix i) (seq 0 22)) j))) = tred (fun j => bR (gmix i j))).
  { rewrite gred_eq. cbn [snd]. apply tred_ext. intros j Hj. unfold ac. rewrite (Xg m (gmix i) j) by lia.
    exact (ac_r (gmix i) (Hgm i) j Hj). }
  rewrite E in Q. assert (P : 0 < tred (fun j => bR (gmix i j))).
  { destruct Q as (_ & _ & _ & [Z|[Z _]]); [|eapply Rlt_le_trans; [apply (bpow_gt_0 radix2)|exact Z]].
    exfalso. pose proof (tR_bd m _ (HXg m (gmix i) (Hgm i) (Htot i)) (Hsg m (gmix i) (Htot i))) as [W _]. rewrite E, Z in W.
    apply (Rlt_irrefl 0). eapply Rlt_le_trans; [apply (bpow_gt_0 radix2 (-1))|exact W]. }
  destruct (rel_of _ _ _ _ _ Q P ltac:(unfold B64Err.KM; lia)) as (F & Q1 & _ & Q2 & _).
  split; [exact F|]. split; [|exact P]. eapply Rle_trans; [exact Q1|]. apply Rmult_le_compat_r; [lra|apply Q2].
Qed.

Lemma tr_gap i : Rabs (sR i - 1) <= 1 / 10000000 -> bR (trof i) < bR (trof 0).
Proof.
  intros H. destruct (tr_val i) as (_ & V & P). destruct (tr_val 0) as (_ & V' & P').
  assert (U : tred (fun j => bR (gmix i j)) <= 127).
  { apply tred_near. intros [|j] Hj; [lia|]. rewrite Nat.sub_succ, Nat.sub_0_r. now apply xmix_un. }
  assert (U' : tred (fun j => bR (gmix 0 j)) = TC).
  { rewrite <- tred_xg. apply tred_ext. intros [|j] Hj; [lia|]. rewrite xg_pure by exact Hj. cbn [gmix]. rewrite xmix_0. reflexivity. }
  rewrite U' in V'. apply Rabs_le_inv in V, V'. unfold TC in V'. lra.
Qed.
Lemma gm_step i : @gx_diff B (map (gmix (S i)) (seq 0 22)) (map (gmix i) (seq 0 22)) = false.
Proof.
  unfold gx_diff. destruct (existsb _ _) eqn:E; [|reflexivity]. apply existsb_exists in E. destruct E as (j & Hj & E). apply in_seq in Hj.
  rewrite !(Xg m) in E by lia. destruct j as [|j]; [lia|]. cbn [gmix] in E.
  rewrite differs_near in E; [discriminate E|apply xmix_R|apply xmix_R|apply xmix_step].
Qed.
Lemma gblend_end n : exists s r k, @gexec B New (dblend n) = Some (s, r) /\ @gc_tr B k = trof 0 /\
  @gheld B gp_new k (map (gmix n) (seq 0 22)) t300 done s.
Proof.
  destruct (@gfirst_comp B (cmix 0) t300 done (cmix_check 0) (diff_xg m (gmix 0) (Hgm 0) (Htot 0)) (diff_tg m t300 t300_ok)) as (s & r & k & E & Hk & H).
  assert (Tk : @gc_tr B k = trof 0) by exact (cn_tr _ _ _ Hk).
  destruct (@g_ramp_x B gp_new cmix k _ _ s H (differs_self m t300 (proj1 t300_R))) with (n := n) as (s' & r' & E' & H').
  - rewrite Tk. apply differs_self. apply tr_val.
  - exact cmix_check.
  - intros i _. rewrite (gmix_fr (S i)), (gmix_fr i). exact (gm_step i).
  - do 3 eexists. split; [|split; [exact Tk|exact H']]. exact (@gexec_app B New _ _ _ _ _ _ (@gexec_new B _ _ _ E) E').
Qed.
Lemma fresh_tr i u d s1 r1 : fin u -> 32 <= bR u <= 2048 ->
  @gexec B New [SetX (A := B) (gmix i); Poke (A := B) PT u; Poke (A := B) PD d; Pressure] = Some (s1, r1) -> @g_trold B s1 = trof i.
Proof.
  intros Fu Hu E. apply gexec_new_inv in E.
  destruct (@gfirst_held B (gmix i) u d (diff_xg m (gmix i) (Hgm i) (Htot i)) (diff_tg m u (conj Fu Hu))) as (s & rr & k & E' & Hk & H).
  rewrite E' in E. injection E as <- _. refine (eq_trans (gw_tr _ _ (gh_wf _ _ _ _ _ H)) _). exact (cn_tr _ _ _ Hk).
Qed.
Lemma gmix_nth i j : (j < 22)%nat -> nth j (@f0 B :: @fractions B (cmix i)) B0 = gmix i j.
Proof. exact (Xg m (gmix i) j). Qed.
Lemma gset_same i (l : list (@op B)) : @gexec B New (SetX (A := B) (fun j => nth j (@f0 B :: @fractions B (cmix i)) B0) :: l) = @gexec B New (SetX (A := B) (gmix i) :: l).
Proof.
  assert (E : map (fun j => nth j (@f0 B :: @fractions B (cmix i)) B0) (seq 0 22) = map (gmix i) (seq 0 22)).
  { apply map_ext_in. intros j Hj. apply in_seq in Hj. apply gmix_nth. lia. }
  unfold gexec. generalize (@gstart B New). intros [s|]; [|reflexivity]. cbn [bind grun gstep]. now rewrite E.
Qed.
Lemma g_double_witness : exists n s r s' o, @gexec B New (dblend n) = Some (s, r) /\
  (forall j, (1 <= j < 22)%nat -> bR (nth j (g_x s) B0) = if Nat.eqb j 2 then 1 else 0) /\
  @gstep B Pressure s = Some (s', o) /\
  forall y u sy ry, In (y, u) (@gasked B (dblend n ++ [Pressure])) ->
    (forall j, (1 <= j < 22)%nat -> Rabs (bR (nth j y B0) - bR (nth j (g_x s') B0)) <= 1 / 10000000) ->
    @gexec B New [SetX (A := B) (fun j => nth j y B0); Poke (A := B) PT u; Poke (A := B) PD (g_d s); Pressure] = Some (sy, ry) -> bR (g_trold sy) < bR (g_trold s').
Proof.
  destruct steps_exist as [n Hn]. destruct (gblend_end n) as (s & r & k & E & Tk & [W X T D XO]).
  destruct (gpress_held (P := gp_new) k (map (gmix n) (seq 0 22)) t300 s W XO) as (s' & E' & [W' X' _ _ _]).
  - rewrite X. exact (gxs_same m (gmix n) (Hgm n)).
  - rewrite T. exact (differs_self m t300 (proj1 t300_R)).
  - rewrite Tk. apply differs_self. apply tr_val.
  - exists n, s, r, s'. eexists. split; [exact E|]. split.
    { intros j Hj. rewrite X. rewrite <- gmix_fr, gmix_nth by lia. pose proof (sR_n n Hn) as Q. destruct j as [|j]; [lia|].
      destruct j as [|[|j]]; cbn [gmix xmix Nat.eqb]; rewrite ?(proj2 (nshare_R _)), ?(proj2 (mshare_R _)); [lra|lra|reflexivity]. }
    split; [cbn [gstep]; rewrite E'; reflexivity|].
    intros y u sy ry Hy Hn' Ey. destruct (gasked_blend cmix t300 done n y u cmix_check Hy) as [[i ->] ->].
    rewrite gset_same in Ey. rewrite (fresh_tr i t300 _ sy ry (proj1 t300_R) (proj2 t300_ok) Ey).
    assert (Q : @g_trold B s' = trof 0) by (rewrite <- Tk; exact (gw_tr _ _ W')). rewrite Q.
    apply tr_gap. apply (near_1 n i Hn). specialize (Hn' 2%nat ltac:(lia)). rewrite X', X, <- (gmix_fr n), !gmix_nth in Hn' by lia. exact Hn'.
Qed.
Lemma g_double_false : ~ (forall l (s s' : @Gerg B) r o, @gexec B New l = Some (s, r) -> @gstep B Pressure s = Some (s', o) ->
  exists y u s1 r1, In (y, u) (@gasked B (l ++ [Pressure])) /\
    (forall j, (1 <= j < 22)%nat -> Rabs (bR (nth j y B0) - bR (nth j (g_x s') B0)) <= 1 / 10000000) /\
    @gexec B New [SetX (A := B) (fun j => nth j y B0); Poke (A := B) PT u; Poke (A := B) PD (g_d s); Pressure] = Some (s1, r1) /\ g_trold s' = g_trold s1).
Proof.
  intros H. destruct g_double_witness as (n & s & r & s' & o & E & _ & E' & K).
  destruct (H _ _ _ _ _ E E') as (y & u & sy & ry & I & Hy & Ey & Q). specialize (K y u sy ry I Hy Ey). rewrite Q in K. exact (Rlt_irrefl _ K).
Qed.
End M.
