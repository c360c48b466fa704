(* Facts about binary64 arithmetic used by the floating-point theorems. *)
From Coq Require Import ZArith Reals List Bool Psatz.
From Flocq Require Import Core BinarySingleNaN Plus_error Relative.
From Verif Require Import FArith ArithB64.
Import ListNotations.
Local Open Scope R_scope.


(* -- NaN ------------------------------------------------------------------------------- *)
Lemma nan_eq x : nan x <-> x = B754_nan.
Proof. unfold nan. destruct x; cbn; split; congruence. Qed.
Lemma nan_add_l x y : nan x -> nan (badd x y).
Proof. rewrite (nan_eq x). intros ->. reflexivity. Qed.
Lemma nan_add_r x y : nan y -> nan (badd x y).
Proof. rewrite (nan_eq y). intros ->. destruct x; reflexivity. Qed.
Lemma nan_sub_l x y : nan x -> nan (bsub x y).
Proof. rewrite (nan_eq x). intros ->. destruct y; reflexivity. Qed.
Lemma nan_sub_r x y : nan y -> nan (bsub x y).
Proof. rewrite (nan_eq y). intros ->. destruct x; reflexivity. Qed.
Lemma nan_mul_l x y : nan x -> nan (bmul x y).
Proof. rewrite (nan_eq x). intros ->. destruct y; reflexivity. Qed.
Lemma nan_mul_r x y : nan y -> nan (bmul x y).
Proof. rewrite (nan_eq y). intros ->. destruct x; reflexivity. Qed.
Lemma nan_div_l x y : nan x -> nan (bdiv x y).
Proof. rewrite (nan_eq x). intros ->. destruct y; reflexivity. Qed.
Lemma nan_div_r x y : nan y -> nan (bdiv x y).
Proof. rewrite (nan_eq y). intros ->. destruct x; reflexivity. Qed.
Lemma nan_abs x : nan x -> nan (Babs x).
Proof. rewrite (nan_eq x). intros ->. reflexivity. Qed.
Lemma nan_neg x : nan x -> nan (Bopp x).
Proof. rewrite (nan_eq x). intros ->. reflexivity. Qed.
Lemma lt_nan_l x y : nan x -> Bltb x y = false.
Proof. rewrite (nan_eq x). intros ->. reflexivity. Qed.
Lemma lt_nan_r x y : nan y -> Bltb x y = false.
Proof. rewrite (nan_eq y). intros ->. destruct x as [[]|[]| |[]]; reflexivity. Qed.
Lemma le_nan_l x y : nan x -> Bleb x y = false.
Proof. rewrite (nan_eq x). intros ->. reflexivity. Qed.
Lemma le_nan_r x y : nan y -> Bleb x y = false.
Proof. rewrite (nan_eq y). intros ->. destruct x as [[]|[]| |[]]; reflexivity. Qed.

(* -- infinity or NaN: "not below any finite bound in magnitude" -------------------------- *)
Definition wild (x : b64) : Prop := is_finite x = false.
Lemma wild_nan x : nan x -> wild x.
Proof. rewrite (nan_eq x). intros ->. reflexivity. Qed.
Lemma wild_abs x y : wild x -> fin y -> Bltb (Babs x) y = false.
Proof.
  unfold wild, fin. destruct x as [sx|sx| |sx mx ex Hx]; cbn; try discriminate; intros _;
    destruct y as [sy|sy| |sy my ey Hy]; cbn; try discriminate; intros _; try reflexivity;
    destruct sy; reflexivity.
Qed.
(* infinity or NaN times anything is infinity or NaN *)
Lemma wild_mul_l x y : wild x -> wild (bmul x y).
Proof.
  unfold wild. destruct x as [sx|sx| |sx mx ex Hx]; cbn; try discriminate; intros _;
    destruct y as [sy|sy| |sy my ey Hy]; reflexivity.
Qed.
Lemma wild_mul_r x y : wild y -> wild (bmul x y).
Proof.
  unfold wild. destruct y as [sy|sy| |sy my ey Hy]; cbn; try discriminate; intros _;
    destruct x as [sx|sx| |sx mx ex Hx]; reflexivity.
Qed.
Lemma wild_sub_l x y : wild x -> wild (bsub x y).
Proof.
  unfold wild. destruct x as [sx|sx| |sx mx ex Hx]; cbn; try discriminate; intros _;
    destruct y as [sy|sy| |sy my ey Hy]; cbn; try reflexivity.
  destruct sx, sy; reflexivity.
Qed.
Lemma wild_sub_r x y : wild y -> wild (bsub x y).
Proof.
  unfold wild. destruct y as [sy|sy| |sy my ey Hy]; cbn; try discriminate; intros _;
    destruct x as [sx|sx| |sx mx ex Hx]; cbn; try reflexivity.
  destruct sx, sy; reflexivity.
Qed.
Lemma wild_div_l x y : wild x -> wild (bdiv x y).
Proof.
  unfold wild. destruct x as [sx|sx| |sx mx ex Hx]; cbn; try discriminate; intros _;
    destruct y as [sy|sy| |sy my ey Hy]; reflexivity.
Qed.
Lemma wild_add_l x y : wild x -> wild (badd x y).
Proof.
  unfold wild. destruct x as [sx|sx| |sx mx ex Hx]; cbn; try discriminate; intros _;
    destruct y as [sy|sy| |sy my ey Hy]; cbn; try reflexivity.
  destruct sx, sy; reflexivity.
Qed.
Lemma wild_add_r x y : wild y -> wild (badd x y).
Proof.
  unfold wild. destruct y as [sy|sy| |sy my ey Hy]; cbn; try discriminate; intros _;
    destruct x as [sx|sx| |sx mx ex Hx]; cbn; try reflexivity.
  destruct sx, sy; reflexivity.
Qed.
Lemma fin_not_wild x : fin x <-> ~ wild x.
Proof. unfold fin, wild. destruct (is_finite x); split; congruence. Qed.
Lemma fin_add x y : fin (badd x y) -> fin x /\ fin y.
Proof.
  rewrite !fin_not_wild. intros H. split; intros W; apply H; [now apply wild_add_l|now apply wild_add_r].
Qed.

(* -- comparisons of finite numbers --------------------------------------------------------- *)
Lemma lt_fin x y : fin x -> fin y -> Bltb x y = Rlt_bool (bR x) (bR y).
Proof. apply Bltb_correct. Qed.
Lemma le_fin x y : fin x -> fin y -> Bleb x y = Rle_bool (bR x) (bR y).
Proof. apply Bleb_correct. Qed.

(* -- rounding ---------------------------------------------------------------------------- *)
Definition u64 : R := bpow radix2 (-53).
Lemma u64_val : u64 = / 9007199254740992.
Proof. reflexivity. Qed.
Global Instance valid64 : Valid_exp fexp64.
Proof. unfold fexp64. apply FLT_exp_valid. reflexivity. Qed.

Lemma rnd_le x y : x <= y -> rnd x <= rnd y.
Proof. apply round_le; auto with typeclass_instances. Qed.
Lemma rnd_0 : rnd 0 = 0.
Proof. apply round_0; auto with typeclass_instances. Qed.
Lemma rnd_bpow e : (-1074 <= e)%Z -> rnd (bpow radix2 e) = bpow radix2 e.
Proof.
  intros H. apply round_generic; auto with typeclass_instances.
  apply generic_format_FLT_bpow; [reflexivity|exact H].
Qed.
Lemma rnd_opp x : rnd (- x) = - rnd x.
Proof. apply round_NE_opp. Qed.
Lemma rnd_abs_le_bpow x e : (-1074 <= e)%Z -> Rabs x <= bpow radix2 e -> Rabs (rnd x) <= bpow radix2 e.
Proof.
  intros He H. apply Rabs_le. apply Rabs_le_inv in H. rewrite <- (rnd_bpow e He), <- rnd_opp.
  split; apply rnd_le; apply H.
Qed.
Lemma no_overflow x e : (-1074 <= e < 1024)%Z -> Rabs x <= bpow radix2 e ->
  Rabs (rnd x) < bpow radix2 1024.
Proof.
  intros He H. eapply Rle_lt_trans; [apply (rnd_abs_le_bpow x e); [lia|exact H]|].
  apply bpow_lt. lia.
Qed.
Lemma rnd_bR x : rnd (bR x) = bR x.
Proof.
  apply round_generic; auto with typeclass_instances.
  apply (generic_format_B2R 53 1024).
Qed.

(* relative error, above the subnormal range *)
Lemma rnd_rel x : bpow radix2 (-1022) <= Rabs x ->
  exists e, Rabs e <= u64 /\ rnd x = x * (1 + e).
Proof.
  intros H.
  destruct (relative_error_N_FLT_ex radix2 (-1074) 53 eq_refl (fun z => negb (Z.even z)) x H)
    as (e & He & E).
  exists e. split; [|exact E]. eapply Rle_trans; [exact He|]. unfold u64. simpl. lra.
Qed.
(* relative plus absolute error, always *)
Lemma rnd_any x : exists e h, Rabs e <= u64 /\ Rabs h <= bpow radix2 (-1075) /\ rnd x = x * (1 + e) + h.
Proof.
  destruct (error_N_FLT radix2 (-1074) 53 eq_refl (fun z => negb (Z.even z)) x)
    as (e & h & He & Hh & _ & E).
  exists e, h. split; [eapply Rle_trans; [exact He|unfold u64; simpl; lra]|].
  split; [|exact E]. eapply Rle_trans; [exact Hh|]. 
  replace (bpow radix2 (-1075)) with (/ 2 * bpow radix2 (-1074)); [lra|].
  change (/ 2) with (bpow radix2 (-1)). rewrite <- bpow_plus. reflexivity.
Qed.

(* -- the operations on finite numbers -------------------------------------------------------- *)
Lemma add_ok x y : fin x -> fin y -> Rabs (rnd (bR x + bR y)) < bpow radix2 1024 ->
  bR (badd x y) = rnd (bR x + bR y) /\ fin (badd x y).
Proof.
  intros Hx Hy H. pose proof (Bplus_correct 53 1024 _ _ mode_NE x y Hx Hy) as C.
  rewrite Rlt_bool_true in C by exact H. split; apply C.
Qed.
Lemma add_inv x y : fin (badd x y) -> bR (badd x y) = rnd (bR x + bR y).
Proof.
  intros H. destruct (fin_add x y H) as (Hx & Hy).
  pose proof (Bplus_correct 53 1024 _ _ mode_NE x y Hx Hy) as C.
  match type of C with context [Rlt_bool ?a ?b] => destruct (Rlt_bool a b) end; [apply C|].
  exfalso. destruct C as (C & _). unfold fin in H.
  change (Bplus mode_NE x y) with (badd x y) in C.
  destruct (badd x y) as [ | | | ]; cbn in C, H; destruct (Bsign x); discriminate.
Qed.
Lemma sub_ok x y : fin x -> fin y -> Rabs (rnd (bR x - bR y)) < bpow radix2 1024 ->
  bR (bsub x y) = rnd (bR x - bR y) /\ fin (bsub x y).
Proof.
  intros Hx Hy H. pose proof (Bminus_correct 53 1024 _ _ mode_NE x y Hx Hy) as C.
  rewrite Rlt_bool_true in C by exact H. split; apply C.
Qed.
Lemma sub_cases x y : fin x -> fin y ->
  (fin (bsub x y) /\ bR (bsub x y) = rnd (bR x - bR y)) \/ exists s, bsub x y = B754_infinity s.
Proof.
  intros Hx Hy. pose proof (Bminus_correct 53 1024 _ _ mode_NE x y Hx Hy) as C.
  match type of C with context [Rlt_bool ?a ?b] => destruct (Rlt_bool a b) end;
    [left; split; apply C|right].
  destruct C as (C & _). change (Bminus mode_NE x y) with (bsub x y) in C.
  destruct (bsub x y) as [s|s| |s]; cbn in C; destruct (Bsign x); try discriminate; now exists s.
Qed.
Lemma mul_ok x y : fin x -> fin y -> Rabs (rnd (bR x * bR y)) < bpow radix2 1024 ->
  bR (bmul x y) = rnd (bR x * bR y) /\ fin (bmul x y).
Proof.
  intros Hx Hy H. pose proof (Bmult_correct 53 1024 _ _ mode_NE x y) as C.
  rewrite Rlt_bool_true in C by exact H. destruct C as (C1 & C2 & _). split; [exact C1|].
  unfold fin in *. change (Bmult mode_NE x y) with (bmul x y) in C2. now rewrite C2, Hx, Hy.
Qed.
Lemma div_ok x y : fin x -> bR y <> 0 -> Rabs (rnd (bR x / bR y)) < bpow radix2 1024 ->
  bR (bdiv x y) = rnd (bR x / bR y) /\ fin (bdiv x y).
Proof.
  intros Hx Hy H. pose proof (Bdiv_correct 53 1024 _ _ mode_NE x y Hy) as C.
  rewrite Rlt_bool_true in C by exact H. destruct C as (C1 & C2 & _). split; [exact C1|].
  unfold fin in *. change (Bdiv mode_NE x y) with (bdiv x y) in C2. now rewrite C2, Hx.
Qed.
Lemma abs_ok x : bR (Babs x) = Rabs (bR x) /\ (fin (Babs x) <-> fin x).
Proof.
  split; [apply B2R_Babs|]. unfold fin. rewrite is_finite_Babs. reflexivity.
Qed.

(* a rounded sum has a relative error even in the subnormal range *)
Lemma add_rel x y : fin (badd x y) ->
  exists e, Rabs e <= u64 /\ bR (badd x y) = (bR x + bR y) * (1 + e).
Proof.
  intros H. rewrite (add_inv x y H).
  destruct (FLT_plus_error_N_ex radix2 (-1074) 53 (fun z => negb (Z.even z)) (bR x) (bR y))
    as (e & He & E); [apply (generic_format_B2R 53 1024)|apply (generic_format_B2R 53 1024)|].
  exists e. split; [|exact E]. eapply Rle_trans; [exact He|].
  eapply Rle_trans; [apply u_rod1pu_ro_le_u_ro|]. unfold u_ro, u64. simpl. lra.
Qed.

(* -- literals ----------------------------------------------------------------------------- *)
Lemma lit_0 : blit (L 0 0) = B0.
Proof. reflexivity. Qed.
Lemma lit_R l sf : B2SF (blit l) = sf -> bR (blit l) = SF2R radix2 sf.
Proof. intros <-. unfold bR. now rewrite SF2R_B2SF. Qed.
