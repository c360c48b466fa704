(* Properties in IEEE-754 double precision: every operation is rounded as the standard says, exp, ln,
   powf and powi are arbitrary (ln_ok where the special values of ln are needed). *)
From Coq Require Import ZArith Reals List Bool Psatz.
From Flocq Require Import Core BinarySingleNaN.
From Verif Require Import FArith Prelude Composition DetailModel GergModel Api SpecGeneric
  GenericLemmas Consistency ArithB64 B64Lemmas SpecB64 B64Comp B64Check B64Density.
Import ListNotations.
Local Open Scope R_scope.

(* C01, double precision: what check() decides, up to 1e-14 around the limits *)
Theorem C01_double : forall m (c : @Composition (ArithB64 m)),
  usable (bfractions m c) -> exact_sum m c <= bpow radix2 1000 ->
  forall S, S = exact_sum m c ->
  (S <= / 10 ^ 10 - / 10 ^ 20 -> comp_check c = RErr Empty) /\
  (/ 10 ^ 10 + / 10 ^ 20 <= S -> S < 1 - / 100 - / 10 ^ 14 -> comp_check c = RErr BadSum) /\
  (1 - / 100 + / 10 ^ 14 <= S <= 1 + / 100 - / 10 ^ 14 -> comp_check c = ROk) /\
  (1 + / 100 + / 10 ^ 14 < S -> comp_check c = RErr BadSum).
Proof. exact check_decides. Qed.

(* C02: "accepted implies every fraction is a number, none negative, sum within 1e-2 of 1" is false *)
Theorem C02_refuted : forall m,
  (exists c : @Composition (ArithB64 m), comp_check c = ROk /\ is_nan (methane c) = true) /\
  (exists c : @Composition (ArithB64 m), comp_check c = ROk /\
     Bltb (nitrogen c) (B754_zero false) = true).
Proof.
  intros m. split.
  - exists (two m B754_nan B0). split; [apply check_nan_fraction|reflexivity].
  - exists (two m three_halves mhalf). split; [apply check_neg_fraction|reflexivity].
Qed.
(* what remains true: without NaN and negative fractions acceptance does mean a good sum *)
Theorem C02_partial : forall m (c : @Composition (ArithB64 m)),
  List.Forall nonneg (bfractions m c) -> comp_check c = ROk ->
  List.Forall fin (bfractions m c) /\ Rabs (exact_sum m c - 1) <= / 100 + / 10 ^ 14.
Proof. exact accepted. Qed.

(* C03: "Empty iff all components are zero" is false in one direction *)
Theorem C03_refuted : forall m,
  (exists c : @Composition (ArithB64 m), comp_check c = RErr Empty /\
     methane c = half /\ nitrogen c = mhalf) /\
  (exists c : @Composition (ArithB64 m), comp_check c = RErr Empty /\
     List.Forall nonneg (bfractions m c) /\ Bltb (B754_zero false) (methane c) = true).
Proof.
  intros m. split.
  - exists (two m half mhalf). split; [apply check_cancel|split; reflexivity].
  - exists (two m (blit (L 1 (-11))) B0). split; [apply check_small|].
    split; [|reflexivity]. unfold bfractions, fractions, two. repeat constructor.
Qed.
Theorem C03_partial : forall m (c : @Composition (ArithB64 m)),
  List.Forall (fun x => exists s, x = B754_zero s) (bfractions m c) -> comp_check c = RErr Empty.
Proof. exact check_zero. Qed.

(* C06 *)
Theorem C06 : forall m (c : @Composition (ArithB64 m)), usable (bfractions m c) ->
  bpow radix2 (-1000) <= exact_sum m c <= bpow radix2 1000 ->
  exists c', comp_normalize c = (c', ROk) /\
    usable (bfractions m c') /\
    List.Forall2 (fun x y => Rabs (bR y - bR x / exact_sum m c)
      <= 25 * u64 * (bR x / exact_sum m c) + bpow radix2 (-1075)) (bfractions m c) (bfractions m c') /\
    Rabs (exact_sum m c' - 1) <= / 10 ^ 14 /\
    comp_check c' = ROk.
Proof. exact normalize_check. Qed.
(* outside that range: the smallest positive fraction alone *)
Theorem C06_outside_refuted : forall m, exists c : @Composition (ArithB64 m),
  usable (bfractions m c) /\ 0 < exact_sum m c /\
  exists c', comp_normalize c = (c', ROk) /\ methane c' = pinf /\ nitrogen c' = B754_nan /\
    comp_check c' = ROk.
Proof.
  intros m. exists (two m smallest B0).
  assert (P : 0 < bR smallest).
  { unfold bR, smallest. cbn [B2R cond_Zopp]. now apply F2R_gt_0. }
  split; [|split; [|apply normalize_smallest]].
  - unfold bfractions, fractions, two.
    cbn [methane nitrogen carbon_dioxide ethane propane isobutane n_butane
      isopentane n_pentane hexane heptane octane nonane decane hydrogen
      oxygen carbon_monoxide water hydrogen_sulfide helium argon].
    apply List.Forall_cons; [split; [reflexivity|apply Rlt_le; exact P]|].
    repeat (apply List.Forall_cons; [split; [reflexivity|apply Rle_refl]|]). constructor.
  - unfold exact_sum, bfractions, fractions, two. cbn [map Rsum fold_right
      methane nitrogen carbon_dioxide ethane propane isobutane n_butane
      isopentane n_pentane hexane heptane octane nonane decane hydrogen
      oxygen carbon_monoxide water hydrogen_sulfide helium argon].
    change (bR (B754_zero false)) with 0. change (bR B0) with 0. lra.
Qed.

(* C07 *)
Theorem C07 : forall m (c : @Composition (ArithB64 m)), fin (comp_sum c) ->
  List.Forall fin (bfractions m c) /\
  Rabs (bR (comp_sum c) - exact_sum m c) <= 21 * u64 * abs_sum m c.
Proof. exact sum_accurate. Qed.

(* C16: p infinite, NaN, negative or zero *)
Theorem C16_detail : forall m, ln_ok m -> forall (s s' : @Detail (ArithB64 m)) i r, dreach s ->
  dstep (Density i) s = Some (s', ODens r) ->
  is_finite (d_p s) = false \/ Bleb (d_p s) (B754_zero false) = true -> r <> ROk.
Proof. exact ddens_bad_p. Qed.
Theorem C16_gerg : forall m, ln_ok m -> forall (s s' : @Gerg (ArithB64 m)) i r, greach s ->
  gstep (Density i) s = Some (s', ODens r) ->
  is_finite (g_p s) = false \/ Bleb (g_p s) (B754_zero false) = true -> r <> ROk.
Proof. exact gdens_bad_p. Qed.

(* C32, C38: the law the general theorems ask for holds in double precision *)
Theorem C32_detail_double : forall m o (s s' : @Detail (ArithB64 m)) r, dreach s ->
  o = Pressure \/ o = Properties -> dstep o s = Some (s', r) -> dstep o s' = Some (s', r).
Proof. intros m. exact (@dagain (ArithB64 m) self_same64). Qed.
Theorem C32_gerg_double : forall m o (s s' : @Gerg (ArithB64 m)) r, greach s ->
  o = Pressure \/ o = Properties -> gstep o s = Some (s', r) -> gstep o s' = Some (s', r).
Proof. intros m. exact (@gagain (ArithB64 m) self_same64). Qed.
Theorem C38_gerg_double : forall m (s : @Gerg (ArithB64 m)) i s' r, greach s ->
  gstep (Density i) s = Some (s', ODens r) ->
  exists q g, (q <= 50)%nat /\ (g <= 3)%nat /\
    gsearch false i (gpseudo (g_x s)) (fln (g_p s)) 0 0 false (fneg (fln (gguess i s)))
      (set_g_d (gguess i s) s) q g r s'.
Proof. intros m. exact (@gdens_noflag (ArithB64 m) neg_below_eps). Qed.

(* C33 *)
Theorem C33_detail : forall m (s s' : @Detail (ArithB64 m)) r, dreach s ->
  dstep Properties s = Some (s', r) -> Bltb (d_w s') (B754_zero false) = false.
Proof. exact dw_not_neg. Qed.
Theorem C33_gerg : forall m (s s' : @Gerg (ArithB64 m)) r, greach s ->
  gstep Properties s = Some (s', r) -> Bltb (g_w s') (B754_zero false) = false.
Proof. exact gw_not_neg. Qed.

(* C39: t infinite, NaN or zero, both equations; t negative for DETAIL unless d asks for a
   starting value of its own *)
Theorem C39_detail : forall m, ln_ok m -> forall (s s' : @Detail (ArithB64 m)) i r, dreach s ->
  dstep (Density i) s = Some (s', ODens r) ->
  is_finite (d_t s) = false \/ (exists sg, d_t s = B754_zero sg) -> r <> ROk.
Proof. exact ddens_bad_t. Qed.
Theorem C39_gerg : forall m, ln_ok m -> forall (s s' : @Gerg (ArithB64 m)) i r, greach s ->
  gstep (Density i) s = Some (s', ODens r) ->
  is_finite (g_t s) = false \/ (exists sg, g_t s = B754_zero sg) -> r <> ROk.
Proof. exact gdens_bad_t. Qed.
Theorem C39_detail_negative : forall m, ln_ok m -> forall (s s' : @Detail (ArithB64 m)) i r, dreach s ->
  dstep (Density i) s = Some (s', ODens r) -> Bltb (d_t s) (B754_zero false) = true ->
  (fneg EPSILON <? d_d s)%F = true -> r <> ROk.
Proof. exact ddens_neg_t. Qed.

(* The hypotheses can be met. *)
Definition some_libm : Libm := {|
  lm_exp := fun x => x;
  lm_ln := fun x => match x with
                    | B754_zero _ => ninf | B754_infinity false => pinf
                    | B754_finite false _ _ _ => x | _ => B754_nan
                    end;
  lm_powf := fun x _ => x; lm_powi := fun x _ => x |}.
Example ln_ok_applies : ln_ok some_libm.
Proof.
  constructor; cbn.
  - intros []; cbn; congruence.
  - intros [[]|[]| |[]]; cbn; congruence.
  - reflexivity.
  - reflexivity.
Qed.
Lemma any_pressure {A : Arith} (v : F) : exists s s' r,
  dreach s /\ d_p s = v /\ d_t s = f0 /\ dstep (Density 0) s = Some (s', ODens r).
Proof.
  exists (set_d_p v detail_default).
  assert (H : dreach (set_d_p v detail_default)).
  { exists Default, [Poke PP v], [OUnit]. reflexivity. }
  destruct (@dexec_some A Default [Poke PP v; Density 0]) as (s' & r' & E').
  unfold dexec in E'. cbn [dstart bind drun] in E'.
  change (dstep (Poke PP v) detail_default) with (Some (set_d_p v detail_default, @OUnit A)) in E'.
  cbn [bind] in E'.
  destruct (dstep (Density 0) (set_d_p v detail_default)) as [[s3 r3]|] eqn:E3; [|discriminate E'].
  cbn [dstep] in E3.
  destruct (density (set_d_p v detail_default)) as [[s5 r5]|]; [|discriminate E3].
  exists s3, r5. split; [exact H|]. split; [reflexivity|]. split; [reflexivity|]. cbn [bind] in E3.
  injection E3 as -> <-. reflexivity.
Qed.
Example C16_applies : exists s s' r, @dreach (ArithB64 some_libm) s /\
  Bleb (d_p s) (B754_zero false) = true /\
  dstep (Density 0) s = Some (s', ODens r).
Proof.
  destruct (@any_pressure (ArithB64 some_libm) (blit (L (-1) 0))) as (s & s' & r & H1 & H2 & _ & H3).
  exists s, s', r. split; [exact H1|]. split; [rewrite H2; reflexivity|exact H3].
Qed.
Example C06_applies : forall m,
  usable (bfractions m (two m half three_halves)) /\
  bpow radix2 (-1000) <= exact_sum m (two m half three_halves) <= bpow radix2 1000.
Proof.
  intros m.
  assert (Hh : bR half = / 2) by (unfold bR; rewrite <- SF2R_B2SF; vm_compute; lra).
  assert (Ht : bR three_halves = 3 / 2) by (unfold bR; rewrite <- SF2R_B2SF; vm_compute; lra).
  split.
  - unfold bfractions, fractions, two.
    cbn [methane nitrogen carbon_dioxide ethane propane isobutane n_butane
      isopentane n_pentane hexane heptane octane nonane decane hydrogen
      oxygen carbon_monoxide water hydrogen_sulfide helium argon].
    apply List.Forall_cons; [split; [reflexivity|rewrite Hh; lra]|].
    apply List.Forall_cons; [split; [reflexivity|rewrite Ht; lra]|].
    repeat (apply List.Forall_cons; [split; [reflexivity|apply Rle_refl]|]). constructor.
  - assert (E : exact_sum m (two m half three_halves) = 2).
    { unfold exact_sum, bfractions, fractions, two. cbn [map Rsum fold_right
      methane nitrogen carbon_dioxide ethane propane isobutane n_butane
      isopentane n_pentane hexane heptane octane nonane decane hydrogen
      oxygen carbon_monoxide water hydrogen_sulfide helium argon].
      rewrite Hh, Ht. change (bR (B754_zero false)) with 0. lra. }
    rewrite E. change 2 with (bpow radix2 1). split; apply bpow_le; lia.
Qed.
Example C01_double_applies : forall m, usable (bfractions m (two m half half)) /\ exact_sum m (two m half half) = 1 /\
  comp_check (two m half half) = ROk.
Proof.
  intros m. assert (Hh : bR half = / 2) by (unfold bR; rewrite <- SF2R_B2SF; vm_compute; lra).
  assert (U : usable (bfractions m (two m half half))).
  { unfold bfractions, fractions, two.
    cbn [methane nitrogen carbon_dioxide ethane propane isobutane n_butane
      isopentane n_pentane hexane heptane octane nonane decane hydrogen
      oxygen carbon_monoxide water hydrogen_sulfide helium argon].
    do 2 (apply List.Forall_cons; [split; [reflexivity|rewrite Hh; lra]|]).
    repeat (apply List.Forall_cons; [split; [reflexivity|apply Rle_refl]|]). constructor. }
  assert (E : exact_sum m (two m half half) = 1).
  { unfold exact_sum, bfractions, fractions, two. cbn [map Rsum fold_right
      methane nitrogen carbon_dioxide ethane propane isobutane n_butane
      isopentane n_pentane hexane heptane octane nonane decane hydrogen
      oxygen carbon_monoxide water hydrogen_sulfide helium argon].
    rewrite Hh. change (bR (B754_zero false)) with 0. lra. }
  split; [exact U|]. split; [exact E|].
  destruct (C01_double m (two m half half) U) with (S := 1) as (_ & _ & H & _); [|now symmetry|].
  - rewrite E. change 1 with (bpow radix2 0). apply bpow_le. lia.
  - apply H. lra.
Qed.
Example C39_applies : exists s s' r, @dreach (ArithB64 some_libm) s /\ d_t s = B754_zero false /\
  dstep (Density 0) s = Some (s', ODens r).
Proof.
  destruct (@any_pressure (ArithB64 some_libm) (blit (L 100 0))) as (s & s' & r & H1 & _ & H2 & H3).
  exists s, s', r. split; [exact H1|]. split; [rewrite H2; reflexivity|exact H3].
Qed.

Print Assumptions C01_double.
Print Assumptions C02_refuted.
Print Assumptions C02_partial.
Print Assumptions C03_refuted.
Print Assumptions C03_partial.
Print Assumptions C06.
Print Assumptions C06_outside_refuted.
Print Assumptions C07.
Print Assumptions C16_detail.
Print Assumptions C16_gerg.
Print Assumptions C32_detail_double.
Print Assumptions C32_gerg_double.
Print Assumptions C38_gerg_double.
Print Assumptions C33_detail.
Print Assumptions C33_gerg.
Print Assumptions C39_detail.
Print Assumptions C39_gerg.
Print Assumptions C39_detail_negative.
