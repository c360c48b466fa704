(* Floating-point facts about density() and properties(): binary64, any libm. *)
From Coq Require Import ZArith Reals List Bool Psatz.
From Flocq Require Import Core BinarySingleNaN.
From Verif Require Import FArith Prelude Composition DetailModel GergModel Api SpecGeneric
  GenericLemmas Consistency ArithB64 B64Lemmas SpecB64.
Import ListNotations.
Local Open Scope R_scope.
Local Opaque badd bsub bmul bdiv bsqrt blit.

(* -- laws of binary64 used by the arithmetic-independent theorems -------------------------- *)
Lemma lit7_fin : fin (blit (L 1 (-7))). 
Proof. reflexivity. Qed.
Lemma lit7_pos : 0 <= bR (blit (L 1 (-7))).
Proof.
  destruct (blit_correct (L 1 (-7))) as (E & _).
  - apply (no_overflow _ 0); [lia|]. cbn [litR]. simpl powerRZ. simpl bpow.
    rewrite Rabs_pos_eq by lra. lra.
  - rewrite E. rewrite <- rnd_0. apply rnd_le. cbn [litR]. simpl powerRZ. lra.
Qed.
Lemma eps_fin : fin (blit (L 1 (-15))).
Proof. reflexivity. Qed.
Lemma eps_pos : 0 < bR (blit (L 1 (-15))).
Proof.
  destruct (blit_correct (L 1 (-15))) as (E & _).
  - apply (no_overflow _ 0); [lia|]. cbn [litR]. simpl powerRZ. simpl bpow.
    rewrite Rabs_pos_eq by lra. lra.
  - rewrite E. apply Rlt_le_trans with (bpow radix2 (-60)); [apply bpow_gt_0|].
    rewrite <- (rnd_bpow (-60)) by lia. apply rnd_le. cbn [litR]. simpl powerRZ. simpl bpow. lra.
Qed.

Lemma self_same64 x : Bltb (blit (L 1 (-7))) (Babs (bsub x x)) = false.
Proof.
  destruct (is_finite x) eqn:Fx.
  - destruct (sub_ok x x Fx Fx) as (E & Ef).
    + rewrite Rminus_eq_0, rnd_0, Rabs_R0. apply bpow_gt_0.
    + rewrite Rminus_eq_0, rnd_0 in E. destruct (abs_ok (bsub x x)) as (Ea & Efa).
      rewrite lt_fin by (try apply Efa; assumption || exact lit7_fin).
      rewrite Ea, E, Rabs_R0. apply Rlt_bool_false. exact lit7_pos.
  - apply lt_nan_r, nan_abs. Local Transparent bsub.
    destruct x as [| [] | |]; try discriminate Fx; reflexivity.
    Local Opaque bsub.
Qed.
Lemma neg_below_eps x : Bltb x B0 = true -> Bltb x (blit (L 1 (-15))) = true.
Proof.
  destruct (is_finite x) eqn:Fx.
  - rewrite !lt_fin by (assumption || reflexivity || exact eps_fin).
    pose proof eps_pos. change (bR B0) with 0. intros E.
    apply Rlt_bool_true. destruct (Rlt_bool_spec (bR x) 0) as [H0|]; [lra|discriminate E].
  - destruct x as [|[]| |]; try discriminate Fx; try (intros E; discriminate E). intros _. reflexivity.
Qed.
Lemma zero_below_eps s : Bltb (B754_zero s) (blit (L 1 (-15))) = true.
Proof. destruct s; reflexivity. Qed.
Lemma zero_abs_below_eps s : Bltb (Babs (B754_zero s : b64)) (blit (L 1 (-15))) = true.
Proof. reflexivity. Qed.

Lemma sqrt_not_neg y : Bltb (bsqrt y) B0 = false.
Proof.
  Local Transparent bsqrt.
  pose proof (Bsqrt_correct 53 1024 _ _ mode_NE y) as (E & Ef & _).
  unfold bsqrt. destruct y as [s|[]| |[] my ey Hy]; try reflexivity.
  - assert (Hf : fin (Bsqrt mode_NE (B754_finite false my ey Hy))) by exact Ef.
    rewrite lt_fin by (exact Hf || reflexivity). apply Rlt_bool_false. change (bR B0) with 0.
    apply Rle_trans with (rnd (sqrt (B2R (B754_finite false my ey Hy)))); [|apply Req_le; symmetry; exact E].
    rewrite <- rnd_0. apply rnd_le, sqrt_pos.
  Local Opaque bsqrt.
Qed.

Section M.
Variable m : Libm.
Notation A := (ArithB64 m).
Notation Det := (@Detail A).
Notation Ger := (@Gerg A).

(* w = (ln p - ln P) * p / y is out of control as soon as one of the logarithms is *)
Lemma wild_w (a b p y : b64) : wild a \/ wild b ->
  Bltb (Babs (bdiv (bmul (bsub a b) p) y)) (blit (L 1 (-7))) = false.
Proof.
  intros H. apply wild_abs; [|exact lit7_fin]. apply wild_div_l, wild_mul_l.
  destruct H; [now apply wild_sub_l|now apply wild_sub_r].
Qed.

Hypothesis Hln : ln_ok m.
Lemma ln_wild x : wild x \/ Bleb x B0 = true -> wild (lm_ln m x).
Proof.
  destruct x as [s|[]| |[]]; intros H.
  - rewrite (ln_zero m Hln). reflexivity.
  - apply wild_nan, (ln_neg m Hln). reflexivity.
  - change (B754_infinity false) with pinf. rewrite (ln_inf m Hln). reflexivity.
  - apply wild_nan, (ln_nan m Hln). reflexivity.
  - apply wild_nan, (ln_neg m Hln). reflexivity.
  - exfalso. destruct H as [H|H]; discriminate H.
Qed.
(* d * R * t * z with t zero, infinite or NaN *)
Definition bad_t (t : b64) : Prop := wild t \/ exists s, t = B754_zero s.
Lemma bad_product a t z : bad_t t -> wild (bmul (bmul a t) z) \/ exists s, bmul (bmul a t) z = B754_zero s.
Proof.
  intros [H|[s ->]].
  - left. now apply wild_mul_l, wild_mul_r.
  - destruct (is_finite a) eqn:Fa.
    + assert (E : exists s', bmul a (B754_zero s) = B754_zero s').
      { Local Transparent bmul. destruct a; try discriminate Fa; eexists; reflexivity. }
      destruct E as (s' & ->). destruct (is_finite z) eqn:Fz.
      * right. destruct z; try discriminate Fz; eexists; reflexivity.
      * left. now apply wild_mul_r.
    + left. now apply wild_mul_l, wild_mul_l.
    Local Opaque bmul.
Qed.

(* quotients keep their sign, or are infinite or NaN *)
Lemma div_cases x y : fin x -> bR y <> 0 ->
  (fin (bdiv x y) /\ bR (bdiv x y) = rnd (bR x / bR y)) \/ wild (bdiv x y).
Proof.
  intros Hx Hy. pose proof (Bdiv_correct 53 1024 _ _ mode_NE x y Hy) as C.
  match type of C with context [Rlt_bool ?a ?b] => destruct (Rlt_bool a b) end; [left|right].
  - destruct C as (C1 & C2 & _). split; [|exact C1].
    unfold fin in *. change (Bdiv mode_NE x y) with (bdiv x y) in C2. now rewrite C2, Hx.
  - change (Bdiv mode_NE x y) with (bdiv x y) in C. unfold wild.
    destruct (bdiv x y) as [a|a| |a]; cbn in C; destruct (xorb (Bsign x) (Bsign y)); try discriminate; reflexivity.
Qed.
Lemma le_zero x : fin x -> bR x <= 0 -> Bleb x B0 = true.
Proof. intros H Hx. rewrite le_fin by (exact H || reflexivity). now apply Rle_bool_true. Qed.
Lemma div_neg x t : Bleb B0 x = true \/ wild x -> Bltb t B0 = true ->
  wild (bdiv x t) \/ Bleb (bdiv x t) B0 = true.
Proof.
  intros Hx Ht. destruct (is_finite x) eqn:Fx; [|left; now apply wild_div_l].
  destruct Hx as [Hx|Hx]; [|unfold wild in Hx; congruence].
  rewrite le_fin in Hx by (reflexivity || exact Fx). change (bR B0) with 0 in Hx.
  destruct (Rle_bool_spec 0 (bR x)) as [Hx0|]; [|discriminate Hx].
  destruct (is_finite t) eqn:Ft.
  - rewrite lt_fin in Ht by (reflexivity || exact Ft). change (bR B0) with 0 in Ht.
    destruct (Rlt_bool_spec (bR t) 0) as [Ht0|]; [|discriminate Ht].
    destruct (div_cases x t Fx) as [(E1 & E2)|]; [lra| |now left].
    right. apply le_zero; [exact E1|]. rewrite E2, <- rnd_0. apply rnd_le.
    unfold Rdiv. pose proof (Rinv_lt_0_compat _ Ht0). nra.
  - right. Local Transparent bdiv.
    destruct t as [|[]| |]; try discriminate Ft; try discriminate Ht.
    destruct x; try discriminate Fx; reflexivity.
    Local Opaque bdiv.
Qed.
Lemma div_pos x r : Bleb B0 x = true -> fin r -> 0 < bR r -> Bleb B0 (bdiv x r) = true \/ wild (bdiv x r).
Proof.
  intros Hx Hr Hr0. destruct (is_finite x) eqn:Fx; [|right; now apply wild_div_l].
  rewrite le_fin in Hx by (reflexivity || exact Fx). change (bR B0) with 0 in Hx.
  destruct (Rle_bool_spec 0 (bR x)) as [Hx0|]; [|discriminate Hx].
  destruct (div_cases x r Fx) as [(E1 & E2)|]; [lra| |now right]. left.
  rewrite le_fin by (reflexivity || exact E1). apply Rle_bool_true. change (bR B0) with 0.
  rewrite E2, <- rnd_0. apply rnd_le. unfold Rdiv. pose proof (Rinv_0_lt_compat _ Hr0). nra.
Qed.
Lemma wild_range v : wild v -> Bleb (blit (L (-7) 0)) v && Bleb v (blit (L 100 0)) = false.
Proof. unfold wild. destruct v as [|[]| |]; cbn [is_finite]; try discriminate; intros _; reflexivity. Qed.
Lemma wild_neg v : wild v -> wild (Bopp v).
Proof. unfold wild. now rewrite is_finite_Bopp. Qed.

(* DETAIL: a first guess that is not positive ends the search at once *)
Lemma ddens_bad_guess (s s' : Det) i r : dstep (Density i) s = Some (s', ODens r) ->
  wild (dguess s) \/ Bleb (dguess s) B0 = true -> r <> ROk.
Proof.
  intros E Hg ->. destruct (ddens_step s i s' ROk E) as [(E1 & _)|(_ & n & _ & D)]; [discriminate E1|].
  assert (R0 : (flit (L (-7) 0) <=? (- fln (dguess s)))%F && ((- fln (dguess s)) <=? flit (L 100 0))%F = false).
  { apply wild_range, wild_neg, ln_wild. exact Hg. }
  inversion D; congruence.
Qed.
Lemma R_pos : fin (@RDETAIL A) /\ 0 < bR (@RDETAIL A).
Proof.
  split; [reflexivity|]. change (0 < bR (blit (L 831451 (-5)))).
  destruct (blit_correct (L 831451 (-5))) as (E & _).
  - apply (no_overflow _ 10); [lia|]. cbn [litR]. simpl powerRZ. simpl bpow.
    rewrite Rabs_pos_eq by lra. lra.
  - rewrite E. apply Rlt_le_trans with (bpow radix2 0); [apply bpow_gt_0|].
    rewrite <- (rnd_bpow 0) by lia. apply rnd_le. cbn [litR]. simpl powerRZ. simpl bpow. lra.
Qed.

(* the pressures density() can never find a density for *)
Definition bad_p (p : b64) : Prop := wild p \/ Bleb p B0 = true.

Lemma ddens_bad_p (s s' : Det) i r : dreach s -> dstep (Density i) s = Some (s', ODens r) ->
  bad_p (d_p s) -> r <> ROk.
Proof.
  intros H E Hp ->. destruct (ddens_last s i s' H E) as
    (v0 & s0 & s1 & p & w & _ & _ & _ & _ & _ & _ & Ew & Hw & _).
  rewrite Ew in Hw. cbn [fabs fdiv fmul fsub fln flit flt ArithB64] in Hw.
  rewrite wild_w in Hw; [discriminate Hw|]. right. now apply ln_wild.
Qed.
Lemma gdens_bad_p (s s' : Ger) i r : greach s -> gstep (Density i) s = Some (s', ODens r) ->
  bad_p (g_p s) -> r <> ROk.
Proof.
  intros H E Hp ->. destruct (gdens_last s i s' H E) as
    (v0 & s0 & s1 & p & w & _ & _ & _ & _ & _ & Ew & Hw & _).
  rewrite Ew in Hw. cbn [fabs fdiv fmul fsub fln flit flt ArithB64] in Hw.
  rewrite wild_w in Hw; [discriminate Hw|]. right. now apply ln_wild.
Qed.

Lemma ddens_bad_t (s s' : Det) i r : dreach s -> dstep (Density i) s = Some (s', ODens r) ->
  bad_t (d_t s) -> r <> ROk.
Proof.
  intros H E Ht ->. destruct (ddens_last s i s' H E) as
    (v0 & s0 & s1 & p & w & H0 & (_ & Fr) & _ & E1 & _ & Hp & Ew & Hw & _).
  pose proof (dreach_set_d (fexp (fneg v0)) _ H0) as H0'.
  pose proof (dpress_value _ _ _ H0' E1) as Ep.
  destruct (dconfined _ s1 (OVal p) H0') as (Fr1 & _). destruct (Fr1 E1) as (_ & Fr2).
  assert (Et : d_t s1 = d_t s).
  { etransitivity; [apply (Fr2 PT); cbn; intuition discriminate|].
    change (dread PT s0 = d_t s). apply (Fr PT). cbn; intuition discriminate. }
  injection Ep as Ep. rewrite Et in Ep. cbn [fmul ArithB64] in Ep.
  assert (Hq : wild p \/ exists sg, p = B754_zero sg).
  { rewrite Ep. apply bad_product. exact Ht. }
  destruct Hq as [Hq|[sg ->]].
  - rewrite Ew in Hw. cbn [fabs fdiv fmul fsub fln flit flt ArithB64] in Hw.
    rewrite wild_w in Hw; [discriminate Hw|]. left. apply ln_wild. now left.
  - change (Bltb (B754_zero sg) (blit (L 1 (-15))) = false) in Hp.
    rewrite zero_below_eps in Hp. discriminate Hp.
Qed.
Lemma gdens_bad_t (s s' : Ger) i r : greach s -> gstep (Density i) s = Some (s', ODens r) ->
  bad_t (g_t s) -> r <> ROk.
Proof.
  intros H E Ht ->. destruct (gdens_last s i s' H E) as
    (v0 & s0 & s1 & p & w & H0 & (_ & Fr) & E1 & _ & Hp & Ew & Hw & _).
  pose proof (greach_set_d (fexp (fneg v0)) _ H0) as H0'.
  pose proof (gpress_value _ _ _ H0' E1) as Ep.
  destruct (gconfined _ s1 (OVal p) H0') as (Fr1 & _). destruct (Fr1 E1) as (_ & Fr2).
  assert (Et : g_t s1 = g_t s).
  { etransitivity; [apply (Fr2 PT); cbn; intuition discriminate|].
    change (gread PT s0 = g_t s). apply (Fr PT). cbn; intuition discriminate. }
  injection Ep as Ep. rewrite Et in Ep. cbn [fmul ArithB64] in Ep.
  assert (Hq : wild p \/ exists sg, p = B754_zero sg).
  { rewrite Ep. apply bad_product. exact Ht. }
  destruct Hq as [Hq|[sg ->]].
  - rewrite Ew in Hw. cbn [fabs fdiv fmul fsub fln flit flt ArithB64] in Hw.
    rewrite wild_w in Hw; [discriminate Hw|]. left. apply ln_wild. now left.
  - change (Bltb (B754_zero sg) (blit (L 1 (-15))) = false) in Hp.
    rewrite zero_below_eps in Hp. discriminate Hp.
Qed.

Lemma ddens_neg_t (s s' : Det) i r : dreach s -> dstep (Density i) s = Some (s', ODens r) ->
  Bltb (d_t s) B0 = true -> Bltb (@fneg A (@EPSILON A)) (d_d s) = true -> r <> ROk.
Proof.
  intros H E Ht Hd.
  destruct (is_finite (d_p s)) eqn:Fp; [|apply (ddens_bad_p s s' i r H E); now left].
  destruct (Rle_or_lt (bR (d_p s)) 0) as [Hp|Hp].
  - apply (ddens_bad_p s s' i r H E). right. now apply le_zero.
  - apply (ddens_bad_guess s s' i r E). unfold dguess.
    change (((- EPSILON) <? d_d s)%F = true) in Hd. rewrite Hd. cbn [fdiv ArithB64].
    apply div_neg; [|exact Ht]. apply div_pos; [|apply R_pos|apply R_pos].
    rewrite le_fin by (reflexivity || exact Fp). apply Rle_bool_true. change (bR B0) with 0. lra.
Qed.
End M.

Section W.
Variable m : Libm.
Notation A := (ArithB64 m).
Lemma dw_not_neg (s s' : @Detail A) r : dreach s -> dstep Properties s = Some (s', r) ->
  Bltb (d_w s') B0 = false.
Proof.
  intros H E. destruct (dconsistent _ _ _ H E) as (_ & _ & _ & _ & _ & _ & Ew & _).
  rewrite Ew. cbn [fsqrt ArithB64]. apply sqrt_not_neg.
Qed.
Lemma gw_not_neg (s s' : @Gerg A) r : greach s -> gstep Properties s = Some (s', r) ->
  Bltb (g_w s') B0 = false.
Proof.
  intros H E. destruct (gconsistent _ _ _ H E) as (_ & _ & _ & _ & Ew & _).
  rewrite Ew. cbn [fsqrt ArithB64]. apply sqrt_not_neg.
Qed.
End W.
