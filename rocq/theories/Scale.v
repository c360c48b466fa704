(* A composition that check() accepts although its sum is not 1. *)
From Coq Require Import Reals ZArith List Lra Lia.
From Flocq Require Import Core BinarySingleNaN.
From Verif Require Import FArith Prelude Composition Tab ArithB64 B64Lemmas B64Err ArithR RSum SpecB64 SpecGeneric SpecStd DetailTables GergTables DetailModel DetailPure DetailRefine DetailEval GergModel GergPure GergRefine GergEval Api SlopeReal Drift GenericLemmas
  B64Comp B64Check Session Session2 AccAllM GAllFin DriftWit.
Import ListNotations.
Local Open Scope R_scope.

(* any arithmetic: the molar mass of a new object with a composition *)
Section Any.
Context {A : Arith}.
Lemma mass_run c s0 : length (d_x s0) = 21%nat -> comp_check c = ROk ->
  exists s, drun [SetComp c; MolarMass] s0 = Some (s, [OComp ROk; OVal (pmm (xf (fractions c)))]) /\ dread PMM s = pmm (xf (fractions c)).
Proof.
  intros Hl K. cbn [drun dstep]. rewrite (set_composition_ok c s0 Hl), K. cbn [bind]. change (comp_slots c) with (fractions c). rewrite molar_mass_ok by reflexivity. cbn [bind].
  eexists. split; reflexivity.
Qed.
Lemma gmass_run c s0 : length (g_x s0) = 22%nat -> comp_check c = ROk ->
  exists s, grun [SetComp c; MolarMass] s0 = Some (s, [OComp ROk; OUnit]) /\ gread PMM s = gmm (xf (f0 :: fractions c)).
Proof.
  intros Hl K. cbn [grun gstep]. rewrite (gset_composition_ok c s0 Hl), K. cbn [bind]. change (comp_slots c) with (fractions c). rewrite gmm_ok by reflexivity. cbn [bind].
  eexists. split; reflexivity.
Qed.
Lemma mass_new c : comp_check c = ROk -> exists s, dexec Api.New [SetComp c; MolarMass] = Some (s, [OComp ROk; OVal (pmm (xf (fractions c)))]) /\ dread PMM s = pmm (xf (fractions c)).
Proof. intros K. destruct (mass_run c detail_fresh eq_refl K) as (s & E & M). exists s. split; [now apply dexec_new|exact M]. Qed.
Lemma gmass_new c : comp_check c = ROk -> exists s, gexec Api.New [SetComp c; MolarMass] = Some (s, [OComp ROk; OUnit]) /\ gread PMM s = gmm (xf (f0 :: fractions c)).
Proof. intros K. destruct (gmass_run c gerg_fresh eq_refl K) as (s & E & M). exists s. split; [now apply gexec_new|exact M]. Qed.
End Any.

(* weighted sums *)
Lemma tot_near n (w x y : nat -> R) S e : (forall i, (i < n)%nat -> 0 <= w i) -> (forall i, (i < n)%nat -> Rabs (y i - x i / S) <= e * (x i / S)) ->
  Rabs (tot n (fun i => y i * w i) - tot n (fun i => x i * w i) / S) <= e * (tot n (fun i => x i * w i) / S).
Proof.
  intros Hw H. induction n as [|n IH]; cbn [tot].
  - unfold Rdiv. rewrite Rmult_0_l, Rmult_0_r, Rminus_0_r, Rabs_R0. lra.
  - specialize (IH (fun i Hi => Hw i ltac:(lia)) (fun i Hi => H i ltac:(lia))). specialize (H n ltac:(lia)). specialize (Hw n ltac:(lia)).
    set (a := tot n (fun i => y i * w i)) in *. set (b := tot n (fun i => x i * w i)) in *. clearbody a b.
    replace (a + y n * w n - (b + x n * w n) / S) with ((a - b / S) + (y n - x n / S) * w n) by (unfold Rdiv; ring).
    eapply Rle_trans; [apply Rabs_triang|]. rewrite Rabs_mult, (Rabs_pos_eq (w n)) by exact Hw.
    pose proof (Rmult_le_compat_r _ _ _ Hw H). unfold Rdiv in *. lra.
Qed.
Lemma near_pair u v v' M M' S : 0 <= u <= / 1000000000 -> 0 <= M -> / 2 <= S <= 2 -> Rabs (M' - M / S) <= 26 * u * (M / S) -> Rabs (v - M) <= 50 * u * M -> Rabs (v' - M') <= 50 * u * M' ->
  Rabs (v - S * v') <= 130 * u * v.
Proof.
  intros Hu HM HS H1 H2 H3. set (q := M / S) in *. assert (Q : M = S * q) by (unfold q; field; lra). assert (Pq : 0 <= q). { unfold q, Rdiv. apply Rmult_le_pos; [exact HM|]. apply Rlt_le, Rinv_0_lt_compat. lra. }
  clearbody q. subst M. apply Rabs_le_inv in H1, H2, H3. assert (A1 : 0 <= u * q) by (apply Rmult_le_pos; lra). assert (A2 : u * q <= / 1000000000 * q) by (apply Rmult_le_compat_r; lra).
  assert (A3 : 0 <= S * q) by (apply Rmult_le_pos; lra). assert (A4 : u * (S * q) <= / 1000000000 * (S * q)) by (apply Rmult_le_compat_r; lra). assert (A5 : 0 <= u * (S * q)) by (apply Rmult_le_pos; lra).
  assert (B1 : Rabs (v' - q) <= 77 * u * q).
  { assert (u * M' <= u * (q + 26 * u * q)) by (apply Rmult_le_compat_l; lra). assert (u * (u * q) <= / 1000000000 * (u * q)) by (apply Rmult_le_compat_r; lra). apply Rabs_le. lra. }
  apply Rabs_le_inv in B1. assert (B2 : S * (q - 77 * u * q) <= S * v' <= S * (q + 77 * u * q)) by (split; apply Rmult_le_compat_l; lra).
  assert (B3 : u * (S * q - 50 * u * (S * q)) <= u * v) by (apply Rmult_le_compat_l; lra). assert (B4 : u * (u * (S * q)) <= / 1000000000 * (u * (S * q))) by (apply Rmult_le_compat_r; lra).
  apply Rabs_le. lra.
Qed.

Section D.
Variable m : Libm.
Local Notation B := (ArithB64 m).
(* fractions of a composition: 0 or at least 2^-47; the sum is at most 2; check() accepts it *)
Variable c : @Composition B.
Hypothesis Hx : forall i, (i < 21)%nat -> fin (nth i (bfractions m c) B0) /\ (bR (nth i (bfractions m c) B0) = 0 \/ bpow radix2 (-47) <= bR (nth i (bfractions m c) B0)).
Hypothesis H2 : exact_sum m c <= 2.
Hypothesis K : comp_check (A := B) c = ROk.
Lemma acc_usable : usable (bfractions m c).
Proof.
  apply Forall_forall. intros y Hy. destruct (In_nth _ _ B0 Hy) as (i & Hi & <-). assert (Hi' : (i < 21)%nat) by exact Hi. destruct (Hx i Hi') as [F [Z|Z]]; (split; [exact F|]); [lra|].
  apply Rle_trans with (2 := Z). apply bpow_ge_0.
Qed.
Lemma u_small : 0 <= u64 <= / 1000000000.
Proof. assert (U : u64 = / 9007199254740992) by reflexivity. rewrite U. lra. Qed.
Lemma p1000 : bpow radix2 (-1000) <= / 2 /\ 2 <= bpow radix2 1000.
Proof. split; [change (/ 2) with (bpow radix2 (-1))|change 2 with (bpow radix2 1)]; apply bpow_le; lia. Qed.
Lemma acc_sum : 98 / 100 <= exact_sum m c <= 102 / 100.
Proof.
  destruct (sum_usable m c acc_usable (Rle_trans _ _ _ H2 (proj2 p1000))) as [F E]. pose proof (check_of_sum m c F _ eq_refl) as (_ & _ & _ & Q & _). specialize (Q K).
  pose proof u_small as U. assert (U' : 21 * u64 * exact_sum m c <= 1 / 1000 * 2).
  { destruct (Rle_lt_dec 0 (exact_sum m c)) as [P|P]; [|assert (21 * u64 * exact_sum m c <= 0) by nra; lra]. apply Rmult_le_compat; lra. }
  assert (/ 10 ^ 17 <= 1 / 1000000) by lra. apply Rabs_le_inv in E, Q. lra.
Qed.
Lemma norm_acc : exists c', comp_normalize (A := B) c = (c', ROk) /\ comp_check (A := B) c' = ROk /\
  (forall i, (i < 21)%nat -> fin (nth i (bfractions m c') B0) /\ rng (-49) 1 (bR (nth i (bfractions m c') B0)) /\ Rabs (bR (nth i (bfractions m c') B0) - bR (nth i (bfractions m c) B0) / exact_sum m c) <= 26 * u64 * (bR (nth i (bfractions m c) B0) / exact_sum m c)).
Proof.
  pose proof acc_sum as S2. destruct (normalize_check m c acc_usable) as (c' & En & U' & Hf & Hs & Kc); [pose proof p1000; lra|].
  exists c'. split; [exact En|]. split; [exact Kc|]. intros i Hi. set (S := exact_sum m c) in *.
  assert (F : fin (nth i (bfractions m c') B0)) by (apply (proj1 (Forall_forall _ _) U'), nth_In; exact Hi). split; [exact F|].
  pose proof (Forall2_at _ B0 _ _ Hf i Hi) as D. cbv beta in D. fold S in D. pose proof u_small as U.
  assert (L : forall j, (j < 21)%nat -> bR (nth j (bfractions m c) B0) <= S).
  { intros j Hj. unfold S, exact_sum. apply Rsum_ge_elem; [|apply in_map, nth_In; exact Hj]. rewrite List.Forall_map. eapply List.Forall_impl; [|exact acc_usable]. intros y Hy. apply Hy. }
  specialize (L i Hi). destruct (Hx i Hi) as [_ X]. set (x := bR (nth i (bfractions m c) B0)) in *. set (y := nth i (bfractions m c') B0) in *.
  destruct X as [X|X].
  - assert (Z : bR y = 0). { apply tiny_zero; [exact F|]. rewrite X in D. unfold Rdiv in D. rewrite Rmult_0_l, Rmult_0_r, Rminus_0_r, Rplus_0_l in D. exact D. }
    rewrite Z, X. unfold Rdiv. rewrite Rmult_0_l, Rmult_0_r, Rminus_0_r, Rabs_R0. split; [now left|lra].
  - set (q := x / S) in *. assert (Q : bpow radix2 (-48) <= q <= 1).
    { unfold q. split; (apply (Rmult_le_reg_r S); [lra|]; unfold Rdiv; rewrite Rmult_assoc, Rinv_l, Rmult_1_r by lra); [|lra].
      apply Rle_trans with (2 := X). change (-47)%Z with (-48 + 1)%Z. rewrite bpow_plus. apply Rmult_le_compat_l; [apply bpow_ge_0|]. change (bpow radix2 1) with 2. lra. }
    assert (T : bpow radix2 (-1075) <= u64 * q). { apply Rle_trans with (u64 * bpow radix2 (-48)); [unfold u64; rewrite <- bpow_plus; apply bpow_le; lia|]. apply Rmult_le_compat_l; lra. }
    pose proof (bpow_ge_0 radix2 (-48)) as P48. clearbody q. assert (D2 : Rabs (bR y - q) <= 26 * u64 * q) by lra. split; [|exact D2]. right. apply Rabs_le_inv in D2. assert (26 * u64 * q <= / 2 * q) by (apply Rmult_le_compat_r; lra).
    change (p2 (-49)) with (bpow radix2 (-1 + -48)). rewrite bpow_plus. change (bpow radix2 (-1)) with (/ 2). change (p2 1) with 2. lra.
Qed.
Lemma acc_rng i : (i < 21)%nat -> fin (nth i (bfractions m c) B0) /\ rng (-49) 1 (bR (nth i (bfractions m c) B0)).
Proof.
  intros Hi. destruct (Hx i Hi) as [F X]. split; [exact F|]. destruct X as [X|X]; [now left|right]. split; [eapply Rle_trans; [|exact X]; apply bpow_le; lia|].
  change (p2 1) with 2. apply Rle_trans with (exact_sum m c); [|exact H2]. unfold exact_sum. apply Rsum_ge_elem; [|apply in_map, nth_In; exact Hi]. rewrite List.Forall_map. eapply List.Forall_impl; [|exact acc_usable]. intros y Hy. apply Hy.
Qed.
Lemma rng50 y : rng (-49) 1 y -> rng (-50) 1 y.
Proof. intros [H|H]; [now left|right]. split; [eapply Rle_trans; [|apply H]; apply bpow_le; lia|apply H]. Qed.
Lemma pmm_tot (x : nat -> R) : @pmm ArithR x = tot 21 (fun i => x i * Rlit (nth i D_MMI (L 0 0))).
Proof. unfold pmm. cbn [seq fold_left tot]. unfold lv. change (@f0 ArithR) with 0. cbn [flit ArithR fadd fmul]. match goal with |- @eq _ ?a ?b => change (@eq R a b) end. ring. Qed.
Lemma gmm_tot (x : nat -> R) : @gmm ArithR x = tot 21 (fun i => x (S i) * Rlit (nth (S i) G_MMI_GERG (L 0 0))).
Proof. unfold gmm. cbn [seq fold_left tot]. unfold lv. change (@f0 ArithR) with 0. cbn [flit ArithR fadd fmul]. match goal with |- @eq _ ?a ?b => change (@eq R a b) end. ring. Qed.
Lemma wpos i : (i < 21)%nat -> 1 <= Rlit (nth i D_MMI (L 0 0)) /\ 1 <= Rlit (nth (S i) G_MMI_GERG (L 0 0)).
Proof. intros Hi. do 21 (destruct i as [|i]; [unfold D_MMI, G_MMI_GERG; cbn [nth Rlit]; cbv [Z.pow Z.pow_pos Pos.iter Z.mul Pos.mul Pos.add Pos.succ Pos.add_carry]; lra|]). lia. Qed.
Lemma scale_detail : exists c' s s' v v', comp_normalize (A := B) c = (c', ROk) /\
  dexec (A := B) Api.New [SetComp (A := B) c; MolarMass (A := B)] = Some (s, [OComp (A := B) ROk; OVal (A := B) v]) /\
  dexec (A := B) Api.New [SetComp (A := B) c'; MolarMass (A := B)] = Some (s', [OComp (A := B) ROk; OVal (A := B) v']) /\
  fin v /\ fin v' /\ 0 < bR v /\ Rabs (bR v - exact_sum m c * bR v') <= 1 / 50000000000000 * bR v.
Proof.
  destruct norm_acc as (c' & En & Kc & Hf). exists c'. destruct (mass_new (A := B) c K) as (s & E & _). destruct (mass_new (A := B) c' Kc) as (s' & E' & _).
  exists s, s'. do 2 eexists. split; [exact En|]. split; [exact E|]. split; [exact E'|].
  pose proof (dmm m (fun i => nth i (bfractions m c) B0) (fun i Hi => conj (proj1 (acc_rng i Hi)) (rng50 _ (proj2 (acc_rng i Hi))))) as (F1 & N1 & _ & _). pose proof (dmm m (fun i => nth i (bfractions m c') B0) (fun i Hi => conj (proj1 (Hf i Hi)) (rng50 _ (proj1 (proj2 (Hf i Hi)))))) as (F2 & N2 & _ & _).
  split; [exact F1|]. split; [exact F2|]. rewrite pmm_tot in N1, N2.
  assert (U : 130 * u64 <= 1 / 50000000000000). { assert (U : u64 = / 9007199254740992) by reflexivity. rewrite U. lra. }
  pose proof acc_sum as S2. pose proof (tot_near 21 (fun i => Rlit (nth i D_MMI (L 0 0))) (fun i => bR (nth i (bfractions m c) B0)) (fun i => bR (nth i (bfractions m c') B0)) (exact_sum m c) (26 * u64) (fun i Hi => Rle_trans _ _ _ Rle_0_1 (proj1 (wpos i Hi))) (fun i Hi => proj2 (proj2 (Hf i Hi)))) as N.
  set (v := bR (pmm (xf (fractions c)))). set (v' := bR (pmm (xf (fractions c')))). change (bR (@pmm B (fun i => nth i (bfractions m c) B0))) with v in N1. change (bR (@pmm B (fun i => nth i (bfractions m c') B0))) with v' in N2.
  assert (PM : 98 / 100 <= tot 21 (fun i => bR (nth i (bfractions m c) B0) * Rlit (nth i D_MMI (L 0 0)))).
  { apply Rle_trans with (1 := proj1 S2). rewrite <- tot_exact. apply tot_le. intros i Hi. rewrite <- (Rmult_1_r (bR (nth i (bfractions m c) B0))) at 1. apply Rmult_le_compat_l; [apply (proj1 (Forall_forall _ _) acc_usable), nth_In; exact Hi|exact (proj1 (wpos i Hi))]. }
  set (M := tot 21 (fun i => bR (nth i (bfractions m c) B0) * _)) in *. set (M' := tot 21 (fun i => bR (nth i (bfractions m c') B0) * _)) in *. clearbody v v' M M'.
  pose proof (near_pair u64 v v' M M' (exact_sum m c) u_small ltac:(lra) ltac:(lra) N N1 N2) as Z.
  apply Rabs_le_inv in N1. pose proof u_small. assert (50 * u64 * M <= / 2 * M) by (apply Rmult_le_compat_r; lra). split; [lra|].
  eapply Rle_trans; [exact Z|]. apply Rmult_le_compat_r; [lra|exact U].
Qed.
Lemma scale_gerg : exists c' s s', comp_normalize (A := B) c = (c', ROk) /\
  gexec (A := B) Api.New [SetComp (A := B) c; MolarMass (A := B)] = Some (s, [OComp (A := B) ROk; OUnit (A := B)]) /\
  gexec (A := B) Api.New [SetComp (A := B) c'; MolarMass (A := B)] = Some (s', [OComp (A := B) ROk; OUnit (A := B)]) /\
  let v := gread (A := B) PMM s in let v' := gread (A := B) PMM s' in
  fin v /\ fin v' /\ 0 < bR v /\ Rabs (bR v - exact_sum m c * bR v') <= 1 / 50000000000000 * bR v.
Proof.
  destruct norm_acc as (c' & En & Kc & Hf). exists c'. destruct (gmass_new (A := B) c K) as (s & E & Ev). destruct (gmass_new (A := B) c' Kc) as (s' & E' & Ev').
  exists s, s'. split; [exact En|]. split; [exact E|]. split; [exact E'|]. cbv zeta. rewrite Ev, Ev'.
  assert (X1 : forall i, (1 <= i < 22)%nat -> fin (nth i (B0 :: bfractions m c) B0) /\ rng (-49) 1 (bR (nth i (B0 :: bfractions m c) B0))) by (intros [|i] Hi; [lia|]; apply (acc_rng i); lia).
  assert (X2 : forall i, (1 <= i < 22)%nat -> fin (nth i (B0 :: bfractions m c') B0) /\ rng (-49) 1 (bR (nth i (B0 :: bfractions m c') B0))).
  { intros [|i] Hi; [lia|]. destruct (Hf i ltac:(lia)) as (Q1 & Q2 & _). split; [exact Q1|exact Q2]. }
  pose proof (amm m (fun i => nth i (B0 :: bfractions m c) B0) X1) as (F1 & N1 & _ & _). pose proof (amm m (fun i => nth i (B0 :: bfractions m c') B0) X2) as (F2 & N2 & _ & _).
  split; [exact F1|]. split; [exact F2|]. rewrite gmm_tot in N1, N2.
  assert (U : 130 * u64 <= 1 / 50000000000000). { assert (U : u64 = / 9007199254740992) by reflexivity. rewrite U. lra. }
  pose proof acc_sum as S2. pose proof (tot_near 21 (fun i => Rlit (nth (S i) G_MMI_GERG (L 0 0))) (fun i => bR (nth i (bfractions m c) B0)) (fun i => bR (nth i (bfractions m c') B0)) (exact_sum m c) (26 * u64) (fun i Hi => Rle_trans _ _ _ Rle_0_1 (proj2 (wpos i Hi))) (fun i Hi => proj2 (proj2 (Hf i Hi)))) as N.
  set (v := bR (gmm (xf (f0 :: fractions c)))). set (v' := bR (gmm (xf (f0 :: fractions c')))). change (bR (@gmm B (fun i => nth i (B0 :: bfractions m c) B0))) with v in N1. change (bR (@gmm B (fun i => nth i (B0 :: bfractions m c') B0))) with v' in N2.
  change (tot 21 (fun i => bR (nth (S i) (B0 :: bfractions m c) B0) * Rlit (nth (S i) G_MMI_GERG (L 0 0)))) with (tot 21 (fun i => bR (nth i (bfractions m c) B0) * Rlit (nth (S i) G_MMI_GERG (L 0 0)))) in N1. change (tot 21 (fun i => bR (nth (S i) (B0 :: bfractions m c') B0) * Rlit (nth (S i) G_MMI_GERG (L 0 0)))) with (tot 21 (fun i => bR (nth i (bfractions m c') B0) * Rlit (nth (S i) G_MMI_GERG (L 0 0)))) in N2.
  assert (PM : 98 / 100 <= tot 21 (fun i => bR (nth i (bfractions m c) B0) * Rlit (nth (S i) G_MMI_GERG (L 0 0)))).
  { apply Rle_trans with (1 := proj1 S2). rewrite <- tot_exact. apply tot_le. intros i Hi. rewrite <- (Rmult_1_r (bR (nth i (bfractions m c) B0))) at 1. apply Rmult_le_compat_l; [apply (proj1 (Forall_forall _ _) acc_usable), nth_In; exact Hi|exact (proj2 (wpos i Hi))]. }
  set (M := tot 21 (fun i => bR (nth i (bfractions m c) B0) * _)) in *. set (M' := tot 21 (fun i => bR (nth i (bfractions m c') B0) * _)) in *. clearbody v v' M M'.
  pose proof (near_pair u64 v v' M M' (exact_sum m c) u_small ltac:(lra) ltac:(lra) N N1 N2) as Z.
  apply Rabs_le_inv in N1. pose proof u_small. assert (50 * u64 * M <= / 2 * M) by (apply Rmult_le_compat_r; lra). split; [lra|].
  eapply Rle_trans; [exact Z|]. apply Rmult_le_compat_r; [lra|exact U].
Qed.
End D.

(* methane at 255/256: accepted, and 0.4 % too light *)
Section W.
Variable m : Libm.
Local Notation B := (ArithB64 m).
Definition thin : @Composition B := let z := B0 in @mkComposition B (bdy 255 (-8)) z z z z z z z z z z z z z z z z z z z z.
Lemma thin_R i : fin (nth i (bfractions m thin) B0) /\ bR (nth i (bfractions m thin) B0) = match i with O => 255 / 256 | _ => 0 end.
Proof.
  destruct i as [|i].
  - destruct (bdy_R 255 (-8) ltac:(lia) ltac:(lia)) as [F E]. split; [exact F|]. cbn [bfractions fractions nth thin]. change (bR (bdy 255 (-8)) = 255 / 256). rewrite E. replace (bpow radix2 (-8)) with (/ 256) by (cbn; lra). reflexivity.
  - do 20 (destruct i as [|i]; [split; reflexivity|]). split; destruct i; reflexivity.
Qed.
Lemma thin_sum : exact_sum m thin = 255 / 256.
Proof. rewrite <- tot_exact. cbn [tot]. rewrite !(proj2 (thin_R _)). lra. Qed.
Lemma thin_x i : (i < 21)%nat -> fin (nth i (bfractions m thin) B0) /\ (bR (nth i (bfractions m thin) B0) = 0 \/ bpow radix2 (-47) <= bR (nth i (bfractions m thin) B0)).
Proof. intros _. destruct (thin_R i) as [F E]. split; [exact F|]. rewrite E. destruct i; [right|now left]. apply Rle_trans with (bpow radix2 (-1)); [apply bpow_le; lia|change (bpow radix2 (-1)) with (/ 2); lra]. Qed.
Lemma thin_check : comp_check (A := B) thin = ROk.
Proof.
  refine (proj1 (proj2 (proj2 (check_decides m thin (acc_usable m thin thin_x) _ _ eq_refl))) _); rewrite thin_sum; [pose proof p1000; lra|]. assert (/ 10 ^ 14 <= / 1000000) by (apply Rinv_le; lra). assert (0 < / 10 ^ 14) by (apply Rinv_0_lt_compat; lra). lra.
Qed.
End W.
Lemma light v v' : Rabs (v - 255 / 256 * v') <= 1 / 50000000000000 * v -> 0 < v -> v <= 997 / 1000 * v'.
Proof. intros H P. apply Rabs_le_inv in H. lra. Qed.
