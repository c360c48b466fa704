(* Error analysis of the DETAIL parameter tables and mixing sums in double precision. *)
From Coq Require Import Reals ZArith List Bool Lra Lia Psatz.
From Flocq Require Import Core BinarySingleNaN.
From Verif Require Import FArith Prelude ArithB64 B64Lemmas ArithR RSum SpecDetail SpecAcc DetailTables DetailPure DetailEos B64Err AccFold.
Import ListNotations.
Local Open Scope R_scope.

Ltac zc := solve [unfold inr, KM in *; lia].
(* ranges *)
Lemma rng_pow a b x n : rng a b x -> (0 < n)%nat -> rng (Z.of_nat n * a) (Z.of_nat n * b) (x ^ n).
Proof.
  intros H Hn. induction n as [|n IH]; [lia|]. destruct n as [|n].
  - cbn [pow]. rewrite Rmult_1_r. apply (rng_weak a b); [exact H|lia|lia].
  - specialize (IH ltac:(lia)). replace (Z.of_nat (S (S n)) * a)%Z with (a + Z.of_nat (S n) * a)%Z by lia.
    replace (Z.of_nat (S (S n)) * b)%Z with (b + Z.of_nat (S n) * b)%Z by lia. exact (rng_mul _ _ _ _ _ _ H IH).
Qed.
Lemma rng_pos a b x : rng a b x -> x <> 0 -> p2 a <= x <= p2 b.
Proof. intros [->|H] H0; [contradiction|exact H]. Qed.
Lemma p2_Rpower a : p2 a = exp (IZR a * ln 2).
Proof. change (p2 a = Rpower 2 (IZR a)). rewrite bpow_powerRZ. rewrite powerRZ_Rpower by (cbn; lra). reflexivity. Qed.
Lemma box w y a b y1 y2 c : a <= w <= b -> y1 <= y <= y2 -> c <= a * y1 -> c <= a * y2 -> c <= b * y1 -> c <= b * y2 -> c <= w * y.
Proof.
  intros Hw Hy H1 H2 H3 H4.
  assert (c <= w * y1 /\ c <= w * y2) as [A1 A2].
  { split; [destruct (Rle_lt_dec 0 y1)|destruct (Rle_lt_dec 0 y2)]; nra. }
  destruct (Rle_lt_dec 0 w); nra.
Qed.
(* y1 <= y <= y2 *)
Lemma rpow_rng2 a b x y y1 y2 (c e : Z) : 0 < x -> rng a b x -> y1 <= y <= y2 ->
  IZR c <= IZR a * y1 -> IZR c <= IZR a * y2 -> IZR c <= IZR b * y1 -> IZR c <= IZR b * y2 ->
  IZR a * y1 <= IZR e -> IZR a * y2 <= IZR e -> IZR b * y1 <= IZR e -> IZR b * y2 <= IZR e ->
  rng c e (Rpower x y).
Proof.
  intros Hx Hr Hy C1 C2 C3 C4 E1 E2 E3 E4. right. pose proof ln2_le1 as L2.
  destruct Hr as [->|Hr]; [exfalso; revert Hx; apply Rlt_irrefl|].
  assert (IZR a * ln 2 <= ln x <= IZR b * ln 2) as HL.
  { rewrite !p2_Rpower in Hr. destruct Hr as [R1 R2]. split.
    - apply (ln_mono _ _ (exp_pos _)) in R1. now rewrite ln_exp in R1.
    - apply (ln_mono _ _ Hx) in R2. now rewrite ln_exp in R2. }
  rewrite !p2_Rpower. unfold Rpower.
  assert (forall u v, u <= v -> exp u <= exp v) as EM.
  { intros u v [L| ->]; [left; now apply exp_increasing|right; reflexivity]. }
  set (l := ln 2) in *. set (z := ln x) in *.
  assert (exists w, z = w * l /\ IZR a <= w <= IZR b) as (w & -> & Hw).
  { exists (z / l). split; [field; lra|]. split.
    - apply Rmult_le_reg_r with l; [lra|]. unfold Rdiv. rewrite Rmult_assoc, Rinv_l by lra. lra.
    - apply Rmult_le_reg_r with l; [lra|]. unfold Rdiv. rewrite Rmult_assoc, Rinv_l by lra. lra. }
  split; apply EM; rewrite <- ?Rmult_assoc; apply Rmult_le_compat_r; try lra; rewrite (Rmult_comm y).
  - now apply (box w y (IZR a) (IZR b) y1 y2).
  - assert (- IZR e <= w * - y); [|lra]. apply (box w (- y) (IZR a) (IZR b) (- y2) (- y1)); lra.
Qed.

Definition inok (a b : Z) (l : lit) : bool := lit_in a b l && lnneg l.
Section M.
Variable m : Libm.
Hypothesis A : accurate m.
Local Notation B := (ArithB64 m).

Lemma ap_tb l i a b : forallb (lit_in a b) l = true -> inr a b -> ap 1 a b (@lv B l i) (tb l i) (Rabs (tb l i)).
Proof.
  intros H Hi. apply ap_lit; [|exact Hi]. destruct (nth_in_or_default i l (L 0 0)) as [I| ->]; [|reflexivity].
  now apply (proj1 (forallb_forall _ _) H).
Qed.
Lemma inok_nth l i a b : forallb (inok a b) l = true -> inok a b (nth i l (L 0 0)) = true.
Proof.
  intros H. destruct (nth_in_or_default i l (L 0 0)) as [I| ->]; [|reflexivity]. now apply (proj1 (forallb_forall _ _) H).
Qed.
Lemma ap_inok l a b : inok a b l = true -> inr a b -> ap 1 a b (blit l) (Rlit l) (Rlit l).
Proof.
  intros H Hi. apply andb_true_iff in H. destruct H as [H1 H2]. eapply ap_eq; [apply ap_lit; eassumption|reflexivity|].
  apply Rabs_pos_eq, lnneg_ok, H2.
Qed.
Lemma ap_tbp l i a b : forallb (inok a b) l = true -> inr a b -> ap 1 a b (@lv B l i) (tb l i) (tb l i).
Proof. intros H Hi. apply ap_inok; [now apply inok_nth|exact Hi]. Qed.
Lemma ap_bip l i j a b : (i <= j)%nat -> forallb (forallb (inok a b)) l = true -> inr a b -> ap 1 a b (@lv2 B l i j) (bip l i j) (bip l i j).
Proof.
  intros Hij H Hi. unfold bip. rewrite Nat.max_r, Nat.min_l by exact Hij. apply ap_inok; [|exact Hi].
  apply inok_nth. destruct (nth_in_or_default i l []) as [I| ->]; [|reflexivity]. now apply (proj1 (forallb_forall _ _) H).
Qed.

Lemma aKI i : ap 1 (-2) 0 (@lv B D_KI i) (tb D_KI i) (tb D_KI i). Proof. apply ap_tbp; [reflexivity|zc]. Qed.
Lemma aEI i : ap 1 1 10 (@lv B D_EI i) (tb D_EI i) (tb D_EI i). Proof. apply ap_tbp; [reflexivity|zc]. Qed.
Lemma aGI i : ap 1 (-6) (-1) (@lv B D_GI i) (tb D_GI i) (tb D_GI i). Proof. apply ap_tbp; [reflexivity|zc]. Qed.
Lemma aQI i : ap 1 (-1) 1 (@lv B D_QI i) (tb D_QI i) (tb D_QI i). Proof. apply ap_tbp; [reflexivity|zc]. Qed.
Lemma aFI i : ap 1 0 0 (@lv B D_FI i) (tb D_FI i) (tb D_FI i). Proof. apply ap_tbp; [reflexivity|zc]. Qed.
Lemma aSI i : ap 1 (-2) 1 (@lv B D_SI i) (tb D_SI i) (tb D_SI i). Proof. apply ap_tbp; [reflexivity|zc]. Qed.
Lemma aWI i : ap 1 0 0 (@lv B D_WI i) (tb D_WI i) (tb D_WI i). Proof. apply ap_tbp; [reflexivity|zc]. Qed.
Lemma aEIJ i j : (i <= j)%nat -> ap 1 (-1) 1 (@lv2 B D_EIJ i j) (bip D_EIJ i j) (bip D_EIJ i j).
Proof. intros H. apply ap_bip; [exact H|vm_compute; reflexivity|zc]. Qed.
Lemma aKIJ i j : (i <= j)%nat -> ap 1 (-1) 1 (@lv2 B D_KIJ i j) (bip D_KIJ i j) (bip D_KIJ i j).
Proof. intros H. apply ap_bip; [exact H|vm_compute; reflexivity|zc]. Qed.
Lemma aUIJ i j : (i <= j)%nat -> ap 1 (-2) 1 (@lv2 B D_UIJ i j) (bip D_UIJ i j) (bip D_UIJ i j).
Proof. intros H. apply ap_bip; [exact H|vm_compute; reflexivity|zc]. Qed.
Lemma aGIJ i j : (i <= j)%nat -> ap 1 (-2) 1 (@lv2 B D_GIJ i j) (bip D_GIJ i j) (bip D_GIJ i j).
Proof. intros H. apply ap_bip; [exact H|vm_compute; reflexivity|zc]. Qed.
Lemma aAN n : ap 1 (-55) 4 (@lv B D_AN n) (tb D_AN n) (Rabs (tb D_AN n)). Proof. apply ap_tb; [reflexivity|zc]. Qed.
Lemma a1 : ap 1 0 0 (@f1 B) 1 1.
Proof. eapply ap_eq; [apply (ap_inok (L 1 0) 0 0); [reflexivity|zc]| |]; reflexivity. Qed.
Lemma a2 : ap 1 1 1 (@f2 B) 2 2.
Proof. eapply ap_eq; [apply (ap_inok (L 2 0) 1 1); [reflexivity|zc]| |]; reflexivity. Qed.
Lemma UN_chk : forallb (fun l => let '(L a e) := l in ((e =? 0) && (-13 <=? a) && (a <=? 23) || (e =? -1) && (-130 <=? a) && (a <=? 230))%Z) D_UN = true.
Proof. reflexivity. Qed.
Lemma UN_rng n : -13 <= tb D_UN n <= 23.
Proof.
  unfold tb. destruct (nth_in_or_default n D_UN (L 0 0)) as [I| ->]; [|cbn; lra].
  pose proof (proj1 (forallb_forall _ _) UN_chk _ I) as H. destruct (nth n D_UN (L 0 0)) as [a e].
  apply orb_true_iff in H. destruct H as [H|H]; apply andb_true_iff in H; destruct H as [H H3]; apply andb_true_iff in H;
    destruct H as [H1 H2]; apply Z.eqb_eq in H1; apply Z.leb_le in H2, H3; apply IZR_le in H2, H3; subst e; cbn [Rlit]; cbn; lra.
Qed.
Lemma UN_err n : fin (@lv B D_UN n) /\ Rabs (bR (@lv B D_UN n) - tb D_UN n) <= u64 * Rabs (tb D_UN n).
Proof.
  apply (lit_err _ (-1) 5); [|zc]. destruct (nth_in_or_default n D_UN (L 0 0)) as [I| ->]; [|reflexivity].
  revert I. apply (proj1 (forallb_forall (lit_in (-1) 5) D_UN)). reflexivity.
Qed.
Lemma lit_w (n : Z) : lit_in (-4) 4 (L n (-1)) = true ->
  fin (@flit B (L n (-1))) /\ Rabs (bR (@flit B (L n (-1))) - Rlit (L n (-1))) <= u64 * Rabs (Rlit (L n (-1))).
Proof. intros H. apply (lit_err _ (-4) 4); [exact H|zc]. Qed.

Lemma aki25 i : (i < 21)%nat -> ap 23 (-5) 0 (@Dki25 B i) (Rpower (tb D_KI i) (5/2)) (Rpower (tb D_KI i) (5/2)).
Proof.
  intros Hi. destruct (lit_w 25 eq_refl) as [F1 F2]. replace (Rlit (L 25 (-1))) with (5/2) in F2 by (cbn; lra).
  pose proof (KI_pos i Hi) as H0. pose proof (aKI i) as Q. assert (R : rng (-2) 0 (tb D_KI i)) by apply Q.
  change 23%Z with (13 + 10)%Z. eapply (ap_powf m A) with (Y := 5/2) (Lx := 2); try exact Q; try exact F2; try assumption; try zc.
  - rewrite Rabs_pos_eq; lra.
  - apply (ln_rng1 (-2) 0); trivial; lia.
  - lra.
  - apply (rpow_rng2 (-2) 0 _ _ (5/2) (5/2)); trivial; lra.
Qed.
Lemma aei25 i : (i < 21)%nat -> ap 43 2 25 (@Dei25 B i) (Rpower (tb D_EI i) (5/2)) (Rpower (tb D_EI i) (5/2)).
Proof.
  intros Hi. destruct (lit_w 25 eq_refl) as [F1 F2]. replace (Rlit (L 25 (-1))) with (5/2) in F2 by (cbn; lra).
  pose proof (EI_pos i Hi) as H0. pose proof (aEI i) as Q. assert (R : rng 1 10 (tb D_EI i)) by apply Q.
  change 43%Z with (33 + 10)%Z. eapply (ap_powf m A) with (Y := 5/2) (Lx := 10); try exact Q; try exact F2; try assumption; try zc.
  - rewrite Rabs_pos_eq; lra.
  - apply (ln_rng1 1 10); trivial; lia.
  - lra.
  - apply (rpow_rng2 1 10 _ _ (5/2) (5/2)); trivial; lra.
Qed.
Lemma aij5 l a b i j : (-10 <= a <= 0)%Z -> (0 <= b <= 10)%Z -> ap 1 a b (@lv2 B l i j) (bip l i j) (bip l i j) ->
  ap 22 (5 * a) (5 * b + 1) (@fsub B (@fpowi B (@lv2 B l i j) 5) (@f1 B)) (bip l i j ^ 5 - 1) (bip l i j ^ 5 + 1).
Proof.
  intros Ha Hb Q. pose proof (ap_M _ _ _ _ _ _ Q). assert (R : rng a b (bip l i j)) by apply Q.
  pose proof (rng_pow _ _ _ 5 R ltac:(lia)) as R5. cbn [Z.of_nat Pos.of_succ_nat Pos.succ] in R5.
  assert (ap 20 (5 * a) (5 * b) (lm_powi m (@lv2 B l i j) 5) (bip l i j ^ 5) (bip l i j ^ 5)) as P.
  { change 20%Z with (10 + 10)%Z. change 5%Z with (Z.of_nat 5) at 3. eapply (ap_powi m A); try exact Q; try assumption; try zc. }
  change 22%Z with (Z.max 20 1 + 2)%Z. eapply ap_sub; [exact P|exact a1|zc|zc|zc|].
  eapply rng_weak; [eapply rng_add; [exact R5|apply a1]|lia|lia].
Qed.
Lemma akij5 i j : (i <= j < 21)%nat -> ap 74 (-15) 6 (@Dkij5 B i j) ((bip D_KIJ i j ^ 5 - 1) * Rpower (tb D_KI i) (5/2) * Rpower (tb D_KI j) (5/2))
  ((bip D_KIJ i j ^ 5 + 1) * Rpower (tb D_KI i) (5/2) * Rpower (tb D_KI j) (5/2)).
Proof.
  intros H. change 74%Z with (22 + 23 + 3 + 23 + 3)%Z. change (-15)%Z with (-5 + -5 + -5)%Z. change 6%Z with (6 + 0 + 0)%Z.
  unfold Dkij5. eapply ap_mul; [eapply ap_mul; [apply (aij5 _ (-1) 1); [lia|lia|apply aKIJ; lia]|apply aki25; lia|zc|zc|zc|zc]|apply aki25; lia|zc|zc|zc|zc].
Qed.
Lemma auij5 i j : (i <= j < 21)%nat -> ap 114 (-6) 56 (@Duij5 B i j) ((bip D_UIJ i j ^ 5 - 1) * Rpower (tb D_EI i) (5/2) * Rpower (tb D_EI j) (5/2))
  ((bip D_UIJ i j ^ 5 + 1) * Rpower (tb D_EI i) (5/2) * Rpower (tb D_EI j) (5/2)).
Proof.
  intros H. change 114%Z with (22 + 43 + 3 + 43 + 3)%Z. change (-6)%Z with (-10 + 2 + 2)%Z. change 56%Z with (6 + 25 + 25)%Z.
  unfold Duij5. eapply ap_mul; [eapply ap_mul; [apply (aij5 _ (-2) 1); [lia|lia|apply aUIJ; lia]|apply aei25; lia|zc|zc|zc|zc]|apply aei25; lia|zc|zc|zc|zc].
Qed.
Lemma agg i j : ap 3 (-6) 0 (@fadd B (lv D_GI i) (lv D_GI j)) (tb D_GI i + tb D_GI j) (tb D_GI i + tb D_GI j).
Proof.
  change 3%Z with (Z.max 1 1 + 2)%Z. eapply ap_add; [apply aGI|apply aGI|zc|zc|zc|].
  eapply rng_weak; [eapply rng_add; apply aGI|lia|lia].
Qed.
Lemma agij5 i j : (i <= j)%nat -> ap 13 (-9) 1 (@Dgij5 B i j) ((bip D_GIJ i j - 1) * (tb D_GI i + tb D_GI j) / 2)
  ((bip D_GIJ i j + 1) * (tb D_GI i + tb D_GI j) / 2).
Proof.
  intros H. assert (ap 3 (-2) 2 (@fsub B (lv2 D_GIJ i j) (@f1 B)) (bip D_GIJ i j - 1) (bip D_GIJ i j + 1)) as P.
  { change 3%Z with (Z.max 1 1 + 2)%Z. eapply ap_sub; [apply aGIJ, H|exact a1|zc|zc|zc|].
    eapply rng_weak; [eapply rng_add; [apply aGIJ, H|apply a1]|lia|lia]. }
  unfold Dgij5. eapply ap_weak; [eapply ap_div; [eapply ap_mul; [exact P|apply agg|zc|zc|zc|zc]|exact a2|lra|zc|zc|zc|zc]|zc|zc|zc].
Qed.
End M.
