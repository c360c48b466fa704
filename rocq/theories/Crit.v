(* Critical points of the pure-fluid equations of GERG-2008. *)
From Coq Require Import Reals ZArith List Bool Lra Lia Psatz.
From Coquelicot Require Import Coquelicot.
From Interval Require Import Tactic.
From Verif Require Import FArith Prelude Tab Composition DetailTables GergTables DetailModel GergModel Api ApiSafe
  ArithR RSum SpecReal SpecDetail SpecGerg SpecTables SpecIdeal DetailPure DetailEval DetailReal DetailThermo DetailEos DetailLimit
  GergPure GergEval GergReal GergIdeal GergThermo GergEos GergLimit TablesReal HistoryGerg IdealGas.
Import ListNotations.
Local Open Scope R_scope.
Local Existing Instance ArithR.
Local Existing Instance GN.

Definition same_tc : bool :=
  forallb (fun i => lit_eqb (nth i (nth i G_GTIJ []) (L 0 0)) (nth i G_TC (L 0 0))) (seq 1 21).
Lemma same_tc_ok : same_tc = true. Proof. reflexivity. Qed.
Lemma tc_eq i : (1 <= i < 22)%nat -> tb2 G_GTIJ i i = Tc i.
Proof.
  intros Hi. unfold tb2, Tc, tb. f_equal. apply lit_eqb_ok.
  exact (proj1 (forallb_forall (fun i => lit_eqb (nth i (nth i G_GTIJ []) (L 0 0)) (nth i G_TC (L 0 0))) (seq 1 21)) same_tc_ok i ltac:(apply in_seq; lia)).
Qed.

(* the terms of component i at tau = 1 *)
Definition cpol (i k : nat) (q : R) (e : nat) : R :=
  @pol_c ArithR (tb2 G_NOIK i k * q ^ dexp i k) (INR (dexp i k)) (texp i k) e.
Definition cexpo (i k : nat) (q : R) (e : nat) : R :=
  @exp_c ArithR (tb2 G_NOIK i k * q ^ dexp i k * exp (- q ^ cexp i k)) (INR (dexp i k)) (texp i k) (INR (cexp i k)) (q ^ cexp i k) e.
Definition cS (i : nat) (q : R) (e : nat) : R :=
  rsum (fun k => cpol i k q e) (seq 1 (kpol i)) + rsum (fun k => cexpo i k q e) (seq (1 + kpol i) (kexp i)).

Lemma tc_pos i : (1 <= i < 22)%nat -> 1 <= Tc i.
Proof.
  unfold Tc, tb. intros Hi. do 22 (destruct i as [|i]; [try lia;
   cbv [nth G_TC Rlit Z.pow Z.pow_pos Pos.iter Z.mul Pos.mul Pos.add Pos.succ Pos.add_carry]; lra|]). lia.
Qed.
Lemma gv_pos i : (1 <= i < 22)%nat -> 0 < tb2 G_GVIJ i i.
Proof. intros Hi. apply (upper_pos_ok G_GVIJ i i gvij_pos); lia. Qed.
Section One.
Variable i : nat.
Hypothesis Hi : (1 <= i < 22)%nat.
Local Notation x := (only i).
Lemma one_present : exists j, (1 <= j < 22)%nat /\ 1 / 1000000 < x j.
Proof. exists i. split; [exact Hi|]. unfold only. rewrite Nat.eqb_refl. lra. Qed.
Lemma one_ac j : ac x j = pure i j.
Proof. unfold ac, only, pure. destruct (Nat.eqb j i); destruct (Rlt_dec _ _); lra. Qed.
Lemma one_vred : vred (ac x) = tb2 G_GVIJ i i.
Proof. rewrite <- (vred_pure i Hi). apply vred_ext. intros; apply one_ac. Qed.
Lemma one_tred : tred (ac x) = Tc i.
Proof. rewrite <- (tc_eq i Hi), <- (tred_pure i Hi). apply tred_ext. intros; apply one_ac. Qed.
Lemma one_dr : @gdr ArithR GN (gX x) = 1 / tb2 G_GVIJ i i.
Proof. rewrite <- one_vred. exact (gdr_eq x one_present). Qed.
Lemma one_tr : @gtr ArithR GN (gX x) = Tc i.
Proof. rewrite <- one_tred. exact (gtr_eq x). Qed.
Lemma one_act j : (1 <= j < 22)%nat -> @act ArithR (@xf ArithR (gxl x) j) = Nat.eqb j i.
Proof.
  intros Hj. rewrite gxl_i by lia. unfold act, only. rar. rewrite glit15. destruct (Nat.eqb j i);
  [apply Rltb_true|apply Rltb_false]; lra.
Qed.
Lemma rsum_only {T} (f : nat -> list T) (g : T -> R) l : NoDup l -> In i l -> (forall j, In j l -> j <> i -> f j = []) ->
  rsum g (flat_map f l) = rsum g (f i).
Proof.
  intros ND Hin H. rewrite rsum_flat_map. induction l as [|j l IH]; [destruct Hin|].
  rewrite rsum_cons. inversion ND as [|? ? Hn ND']; subst. destruct Hin as [->|Hin].
  - rewrite (rsum_ext (fun x => rsum g (f x)) (fun _ => 0) l), rsum_0; [ring|]. intros k Hk. rewrite H; [reflexivity|now right|intros ->; contradiction].
  - rewrite (H j), IH; [change (rsum g []) with 0; ring|exact ND'|exact Hin|intros; apply H; [now right|assumption]|now left|intros ->; contradiction].
Qed.
Lemma one_AR e d : @AR GN (gxl x) e (Tc i) d = cS i (d * tb2 G_GVIJ i i) e.
Proof.
  pose proof (tc_pos i Hi) as HT. unfold AR, can_terms, gterms. rewrite arS_rsum, rsum_app.
  assert (@clntau ArithR GN (gxl x) (Tc i) = 0) as EL.
  { unfold clntau. change (@xf ArithR (gxl x)) with (gX x). rewrite one_tr. rar. replace (Tc i / Tc i) with 1 by (field; lra). apply ln_1. }
  change (@xf ArithR (gxl x)) with (gX x). rewrite one_dr.
  cbn [fdiv ArithR]. replace (d / (1 / tb2 G_GVIJ i i)) with (d * tb2 G_GVIJ i i).
  2:{ rar. pose proof (gv_pos i Hi). field. lra. }
  set (q := d * tb2 G_GVIJ i i).
  rewrite (rsum_only _ _ (seq 1 21)); [|apply seq_NoDup|apply in_seq; lia|].
  2:{ intros j Hj Hn. apply in_seq in Hj. unfold pure_terms. change (gX x) with (@xf ArithR (gxl x)). rewrite one_act by lia.
      apply Nat.eqb_neq in Hn. now rewrite Hn. }
  replace (rsum _ (flat_map _ (seq 1 20))) with 0.
  2:{ rewrite rsum_flat_map, (rsum_ext _ (fun _ => 0)), rsum_0; [reflexivity|]. intros j Hj. apply in_seq in Hj.
      unfold mixrow. change (gX x) with (@xf ArithR (gxl x)). rewrite one_act by lia. destruct (Nat.eqb j i) eqn:Ej; [|reflexivity].
      apply Nat.eqb_eq in Ej. subst j. rewrite rsum_flat_map, (rsum_ext _ (fun _ => 0)), rsum_0; [reflexivity|].
      intros j Hj'. apply in_seq in Hj'. unfold mix_terms. rewrite one_act by lia.
      replace (Nat.eqb j i) with false; [reflexivity|]. symmetry. apply Nat.eqb_neq. lia. }
  rewrite Rplus_0_r. unfold pure_terms. change (gX x) with (@xf ArithR (gxl x)). rewrite one_act, Nat.eqb_refl by assumption.
  rewrite rsum_app, !rsum_map. unfold cS.
  assert (EX : @xf ArithR (gxl x) i = 1). { rewrite gxl_i by lia. unfold only. now rewrite Nat.eqb_refl. }
  f_equal; apply rsum_ext; intros k Hk; apply in_seq in Hk.
  - destruct (exps_at i k Hi ltac:(lia)) as (E1 & E2 & E3 & E4 & E5 & E6).
    unfold pterm, cpol, cTP. rewrite EL, EX. cbn [q_doik q_toik GN gp_new]. rewrite E1, E5, gdelp_pow by assumption.
    f_equal. rar. rewrite Rmult_0_r, exp_0. unfold lv2, tb2. rar. ring.
  - destruct (exps_at i k Hi ltac:(lia)) as (E1 & E2 & E3 & E4 & E5 & E6).
    unfold eterm, cexpo, cTP. rewrite EL, EX. cbn [q_doik q_toik q_coik GN gp_new].
    rewrite E1, E3, E5, !gdelp_pow, gexpd_exp by (assumption || (apply E4; lia)).
    f_equal. rar. rewrite Rmult_0_r, exp_0. unfold lv2, tb2. rar. ring.
Qed.
End One.

(* the same with the coefficients as data *)
Definition cdat (i k : nat) : lit * (nat * nat) := (nth k (nth i G_NOIK []) (L 0 0), (dexp i k, cexp i k)).
Definition pdat i := map (cdat i) (seq 1 (kpol i)).
Definition edat i := map (cdat i) (seq (1 + kpol i) (kexp i)).
Definition pval (q : R) (e : nat) (c : lit * (nat * nat)) : R :=
  let d := IZR (Z.of_nat (fst (snd c))) in
  Rlit (fst c) * q ^ fst (snd c) * match e with 1%nat => d | 2%nat => d * (d - 1) | _ => d * (d - 1) * (d - 2) end.
Definition evl (q : R) (e : nat) (c : lit * (nat * nat)) : R :=
  let d := IZR (Z.of_nat (fst (snd c))) in let n := IZR (Z.of_nat (snd (snd c))) in
  let ex := n * q ^ snd (snd c) in let ex2 := d - ex in
  Rlit (fst c) * q ^ fst (snd c) * exp (- q ^ snd (snd c)) *
  match e with 1%nat => ex2 | 2%nat => ex2 * (ex2 - 1) - n * ex
  | _ => ex2 * (ex2 - 1) * (ex2 - 2) - ex * (3 * ex2 - 3 + n) * n end.
Definition cD (i : nat) (q : R) (e : nat) : R := rsum (pval q e) (pdat i) + rsum (evl q e) (edat i).
Lemma cS_cD i q e : (1 <= e <= 3)%nat -> cS i q e = cD i q e.
Proof.
  intros He. unfold cS, cD, pdat, edat. rewrite !rsum_map. f_equal; apply rsum_ext; intros k _.
  - unfold cpol, pval, cdat, pol_c, tb2. cbn [fst snd]. rewrite INR_IZR_INZ. unfold f1, f2. rar. cbn [Rlit].
    destruct e as [|[|[|[|e]]]]; try lia; ring.
  - unfold cexpo, evl, cdat, exp_c, tb2. cbn [fst snd]. rewrite !INR_IZR_INZ. unfold f1, f2, f3. rar. cbn [Rlit].
    destruct e as [|[|[|[|e]]]]; try lia; ring.
Qed.
Definition at_crit i : Prop := forall q, 1 - 1 / 10000000000000 <= q <= 1 + 1 / 10000000000000 ->
  Rabs (1 + 2 * cD i q 1 + cD i q 2) <= 4 / 1000 /\
  Rabs (2 * cD i q 1 + 4 * cD i q 2 + cD i q 3) <= 35 / 1000 /\
  1 / 5 <= 1 + cD i q 1 <= 7 / 20.
Ltac crit i :=
  intros q Hq; unfold cD;
  let p := eval vm_compute in (pdat i) in let e := eval vm_compute in (edat i) in
  change (pdat i) with p; change (edat i) with e;
  cbv [rsum fold_right pval evl fst snd Rlit Z.of_nat Pos.of_succ_nat Z.pow Z.pow_pos Pos.iter Z.mul Pos.mul Pos.add Pos.succ Pos.add_carry];
  repeat split; interval.
