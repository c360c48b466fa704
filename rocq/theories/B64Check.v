(* What check() guarantees in binary64, and the witnesses against C02, C03 and C06. *)
From Coq Require Import ZArith Reals List Bool Psatz.
From Flocq Require Import Core BinarySingleNaN.
From Verif Require Import FArith Prelude Composition SpecGeneric ArithB64 B64Lemmas SpecB64 B64Comp.
Import ListNotations.
Local Open Scope R_scope.
Local Opaque badd bsub bmul bdiv.

Lemma add_cases x y : fin x -> fin y ->
  (fin (badd x y) /\ bR (badd x y) = rnd (bR x + bR y))
  \/ (badd x y = B754_infinity (Bsign x) /\ Bsign x = Bsign y
      /\ bpow radix2 1024 <= Rabs (rnd (bR x + bR y))).
Proof.
  intros Hx Hy. pose proof (Bplus_correct 53 1024 _ _ mode_NE x y Hx Hy) as C.
  revert C. case Rlt_bool_spec; intros L C; [left; split; apply C|right].
  destruct C as (C & C'). change (Bplus mode_NE x y) with (badd x y) in C.
  split; [|split; [exact C'|exact L]].
  destruct (badd x y) as [s|s| |s]; cbn in C; destruct (Bsign x); try discriminate; congruence.
Qed.

Lemma nonneg_cases x : nonneg x -> x = pinf \/ (fin x /\ 0 <= bR x).
Proof.
  intros H. destruct (is_finite x) eqn:E.
  - right. split; [exact E|]. now apply nonneg_fin.
  - left. destruct x as [s|[]| |s]; cbn in E, H; try discriminate; reflexivity.
Qed.
Lemma nonneg_pinf : nonneg pinf.
Proof. reflexivity. Qed.
Lemma add_pinf_l y : nonneg y -> badd pinf y = pinf.
Proof.
  Local Transparent badd.
  intros H. destruct y as [s|[]| |s]; cbn in H; try discriminate; reflexivity.
Qed.
Lemma add_pinf_r y : nonneg y -> badd y pinf = pinf.
Proof.
  intros H. destruct y as [s|[]| |s]; cbn in H; try discriminate; reflexivity.
Qed.
Local Opaque badd.

Lemma nonneg_add x y : nonneg x -> nonneg y -> nonneg (badd x y).
Proof.
  intros Hx Hy.
  destruct (nonneg_cases x Hx) as [->|(Fx & Px)]; [rewrite (add_pinf_l y Hy); exact nonneg_pinf|].
  destruct (nonneg_cases y Hy) as [->|(Fy & Py)]; [rewrite (add_pinf_r x Hx); exact nonneg_pinf|].
  destruct (add_cases x y Fx Fy) as [(F & E)|(E & S & O)].
  - apply nonneg_fin; [exact F|]. rewrite E, <- rnd_0. apply rnd_le. lra.
  - destruct (Bsign x) eqn:Sx; [exfalso|rewrite E; reflexivity].
    assert (Z : forall z, fin z -> Bsign z = true -> 0 <= bR z -> bR z = 0).
    { intros z Fz Sz Pz. destruct z as [s|s| |s mz ez Hz]; [reflexivity|discriminate|discriminate|].
      cbn in Sz. subst s. unfold bR, B2R in Pz. exfalso. apply (Rlt_not_le _ _ (F2R_lt_0 radix2 (Float radix2 (Zneg mz) ez) eq_refl) Pz). }
    rewrite (Z x Fx Sx Px), (Z y Fy (eq_sym S) Py), Rplus_0_l, rnd_0, Rabs_R0 in O.
    pose proof (bpow_gt_0 radix2 1024). lra.
Qed.

Section Check.
Variable m : Libm.
Local Notation Comp := (@Composition (ArithB64 m)).
Local Notation sum := (@comp_sum (ArithB64 m)).
Local Notation check := (@comp_check (ArithB64 m)).

Lemma bsum_nonneg l : forall a, nonneg a -> List.Forall nonneg l -> nonneg (bsum a l).
Proof.
  induction l as [|x l IH]; intros a Ha Hl; [exact Ha|].
  inversion_clear Hl as [|? ? Hx Hl']. cbn [bsum fold_left]. apply IH; [now apply nonneg_add|exact Hl'].
Qed.

Lemma sum_nonneg (c : Comp) : List.Forall nonneg (bfractions m c) -> nonneg (sum c).
Proof.
  rewrite sum_fold. destruct (bfractions m c) as [|x l]; intros H; [reflexivity|].
  inversion_clear H as [|? ? Hx Hl]. now apply bsum_nonneg.
Qed.

Lemma check_pinf (c : Comp) : sum c = pinf -> check c = RErr BadSum.
Proof. intros E. rewrite check_eq, E. reflexivity. Qed.

(* among compositions without NaN and negative fractions, only good sums are accepted *)
Lemma accepted (c : Comp) : List.Forall nonneg (bfractions m c) -> check c = ROk ->
  List.Forall fin (bfractions m c) /\ Rabs (exact_sum m c - 1) <= / 100 + / 10 ^ 14.
Proof.
  intros N K. destruct (nonneg_cases _ (sum_nonneg c N)) as [E|(F & P)].
  { rewrite (check_pinf c E) in K. discriminate. }
  destruct (sum_accurate m c F) as (Fl & A). split; [exact Fl|].
  assert (Us : usable (bfractions m c)).
  { apply List.Forall_forall. intros x Hx. rewrite List.Forall_forall in N, Fl.
    split; [now apply Fl|]. apply nonneg_fin; [now apply Fl|now apply N]. }
  unfold abs_sum in A. rewrite (usable_abs _ Us) in A. fold (exact_sum m c) in A.
  destruct (check_of_sum m c F _ eq_refl) as (_ & _ & _ & H & _). specialize (H K).
  assert (U : u64 = / 9007199254740992) by reflexivity. rewrite U in A.
  apply Rabs_le_inv in A, H. apply Rabs_le. lra.
Qed.

(* the decision by the exact sum, for usable fractions *)
Lemma check_decides (c : Comp) : usable (bfractions m c) -> exact_sum m c <= bpow radix2 1000 ->
  forall S, S = exact_sum m c ->
  (S <= / 10 ^ 10 - / 10 ^ 20 -> check c = RErr Empty) /\
  (/ 10 ^ 10 + / 10 ^ 20 <= S -> S < 1 - / 100 - / 10 ^ 14 -> check c = RErr BadSum) /\
  (1 - / 100 + / 10 ^ 14 <= S <= 1 + / 100 - / 10 ^ 14 -> check c = ROk) /\
  (1 + / 100 + / 10 ^ 14 < S -> check c = RErr BadSum).
Proof.
  intros Us B S ES. destruct (sum_usable m c Us B) as (F & A). rewrite <- ES in A.
  assert (U : u64 = / 9007199254740992) by reflexivity. rewrite U in A.
  assert (P : 0 <= S).
  { rewrite ES. apply Rsum_nonneg. rewrite List.Forall_map. eapply List.Forall_impl; [|exact Us].
    intros x Hx. apply Hx. }
  destruct (check_of_sum m c F _ eq_refl) as (C1 & C2 & C3 & _ & _).
  apply Rabs_le_inv in A. set (s := bR (sum c)) in *.
  split; [|split; [|split]].
  - intros H. apply C1. apply Rabs_le. lra.
  - intros H1 H2. apply C2; [pose proof (Rle_abs s); lra|]. rewrite Rabs_minus_sym. pose proof (Rle_abs (1 - s)). lra.
  - intros H1. apply C3. apply Rabs_le. lra.
  - intros H1. apply C2; [pose proof (Rle_abs s); lra|]. pose proof (Rle_abs (s - 1)). lra.
Qed.

(* all fractions zero, of either sign *)
Lemma check_zero (c : Comp) : List.Forall (fun x => exists s, x = B754_zero s) (bfractions m c) ->
  check c = RErr Empty.
Proof.
  intros H. assert (Z : exists s, sum c = B754_zero s).
  { rewrite sum_fold. destruct (bfractions m c) as [|x l]; [now exists false|].
    inversion_clear H as [|? ? Hx Hl]. revert x Hx. induction Hl as [|y l Hy Hl IH]; intros x Hx; [exact Hx|].
    cbn [bsum fold_left]. apply IH. destruct Hx as (s1 & ->), Hy as (s2 & ->).
    Local Transparent badd. destruct s1, s2; eexists; reflexivity. }
  destruct Z as (s & E). rewrite check_eq, E. destruct s; reflexivity.
Qed.
Local Opaque badd.

(* -- witnesses -------------------------------------------------------------------------------- *)
Definition half : b64 := blit (L 5 (-1)).
Definition mhalf : b64 := blit (L (-5) (-1)).
Definition three_halves : b64 := blit (L 15 (-1)).
(* the smallest positive double, 2^-1074 *)
Definition smallest : b64 := @B754_finite 53 1024 false 1 (-1074) eq_refl.
Local Transparent badd bsub bmul bdiv.
Lemma check_nan_fraction : check (two m B754_nan B0) = ROk.
Proof. reflexivity. Qed.
Lemma check_neg_fraction : check (two m three_halves mhalf) = ROk.
Proof. vm_compute. reflexivity. Qed.
Lemma check_cancel : check (two m half mhalf) = RErr Empty.
Proof. vm_compute. reflexivity. Qed.
Lemma check_small : check (two m (blit (L 1 (-11))) B0) = RErr Empty.
Proof. vm_compute. reflexivity. Qed.
Lemma normalize_smallest :
  exists c', @comp_normalize (ArithB64 m) (two m smallest B0) = (c', ROk)
    /\ methane c' = pinf /\ nitrogen c' = B754_nan /\ check c' = ROk.
Proof.
  assert (L : Bltb B0 (sum (two m smallest B0)) = true) by (vm_compute; reflexivity).
  assert (Fc : bdiv one (sum (two m smallest B0)) = pinf) by (vm_compute; reflexivity).
  destruct (normalize_eq m _ L) as (c' & E & Ef). rewrite Fc in Ef.
  exists c'. split; [exact E|].
  assert (V : bfractions m c' = pinf :: repeat B754_nan 20) by (rewrite Ef; reflexivity).
  assert (V1 : methane c' = pinf) by (apply (f_equal (hd B0)) in V; exact V).
  assert (V2 : nitrogen c' = B754_nan) by (apply (f_equal (fun l => hd B0 (tl l))) in V; exact V).
  split; [exact V1|split; [exact V2|]].
  rewrite check_eq, sum_fold, V. reflexivity.
Qed.
End Check.
