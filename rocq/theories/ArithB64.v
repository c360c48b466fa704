(* IEEE-754 binary64 instance of the arithmetic (Flocq, round to nearest even, one NaN).
   +, -, *, /, sqrt, abs, negation and the comparisons are those of the standard; decimal literals
   are correctly rounded; exp, ln, powf and powi, whose results the standard library of Rust
   leaves to the platform, are given by an arbitrary Libm. *)
From Coq Require Import ZArith Reals List Bool Psatz.
From Flocq Require Import Core BinarySingleNaN.
From Verif Require Import FArith.

Definition b64 := binary_float 53 1024.
Definition Hprec64 : Prec_gt_0 53 := eq_refl.
Definition Hmax64 : Prec_lt_emax 53 1024 := eq_refl.
Global Existing Instance Hprec64.
Global Existing Instance Hmax64.

Definition badd : b64 -> b64 -> b64 := Bplus mode_NE.
Definition bsub : b64 -> b64 -> b64 := Bminus mode_NE.
Definition bmul : b64 -> b64 -> b64 := Bmult mode_NE.
Definition bdiv : b64 -> b64 -> b64 := Bdiv mode_NE.
Definition bsqrt : b64 -> b64 := Bsqrt mode_NE.
Definition bofZ (z : Z) : b64 := binary_normalize 53 1024 _ _ mode_NE z 0 false.
(* the correctly rounded quotient n/d of two integers *)
Definition bquot (s : bool) (n d : positive) : b64 :=
  SF2B _ (proj1 (Bdiv_correct_aux 53 1024 _ _ mode_NE s n 0 false d 0)).
(* m * 10^e *)
Definition blit (l : lit) : b64 :=
  match l with
  | L m e =>
    if (0 <=? e)%Z then bofZ (m * 10 ^ e)
    else match m with
         | Z0 => B754_zero false
         | Zpos n => bquot false n (10 ^ Z.to_pos (- e))
         | Zneg n => bquot true n (10 ^ Z.to_pos (- e))
         end
  end.

Record Libm := mkLibm {
  lm_exp : b64 -> b64; lm_ln : b64 -> b64;
  lm_powf : b64 -> b64 -> b64; lm_powi : b64 -> Z -> b64 }.

Definition ArithB64 (m : Libm) : Arith := {|
  F := b64; fadd := badd; fsub := bsub; fmul := bmul; fdiv := bdiv; fneg := @Bopp 53 1024;
  fabs := @Babs 53 1024; fsqrt := bsqrt; fexp := lm_exp m; fln := lm_ln m; fpowf := lm_powf m;
  fpowi := lm_powi m; flt := @Bltb 53 1024; fle := @Bleb 53 1024; flit := blit;
  fofnat := fun n => bofZ (Z.of_nat n) |}.

(* real value (0 for infinities and NaN), and rounding to the nearest double *)
Definition bR (x : b64) : R := B2R x.
Definition fexp64 := FLT_exp (-1074) 53.
Definition rnd (x : R) : R := round radix2 fexp64 ZnearestE x.
Definition fin (x : b64) : Prop := is_finite x = true.
Definition nan (x : b64) : Prop := is_nan x = true.
Definition B0 : b64 := B754_zero false.
Definition pinf : b64 := B754_infinity false.
Definition ninf : b64 := B754_infinity true.

(* -- literals -------------------------------------------------------------------------- *)
Definition litR (l : lit) : R := match l with L m e => IZR m * powerRZ 10 e end.

Lemma powerRZ_pos10 e : (0 <= e)%Z -> powerRZ 10 e = IZR (10 ^ e).
Proof.
  intros H. rewrite <- (Z2Nat.id e H) at 1. rewrite <- pow_powerRZ, pow_IZR.
  now rewrite Z2Nat.id.
Qed.

Lemma blit_correct l : (Rabs (rnd (litR l)) < bpow radix2 1024)%R ->
  bR (blit l) = rnd (litR l) /\ fin (blit l).
Proof.
  destruct l as [m e]. cbn [litR blit]. intros H.
  destruct (0 <=? e)%Z eqn:E.
  - apply Z.leb_le in E. rewrite powerRZ_pos10, <- mult_IZR in H |- * by exact E.
    pose proof (binary_normalize_correct 53 1024 _ _ mode_NE (m * 10 ^ e) 0 false) as N.
    cbv zeta in N.
    assert (EF : F2R (Float radix2 (m * 10 ^ e) 0) = IZR (m * 10 ^ e)).
    { unfold F2R. cbn [Fnum Fexp bpow]. apply Rmult_1_r. }
    rewrite EF in N. rewrite Rlt_bool_true in N by exact H. destruct N as (N1 & N2 & _).
    split; [exact N1|exact N2].
  - apply Z.leb_gt in E.
    assert (Q : forall s n, cond_Zopp s (Zpos n) = m -> bR (bquot s n (10 ^ Z.to_pos (- e)))
        = rnd (IZR m * powerRZ 10 e) /\ fin (bquot s n (10 ^ Z.to_pos (- e)))).
    { intros s n Em. unfold bR, fin, bquot. rewrite B2R_SF2B, is_finite_SF2B.
      destruct (Bdiv_correct_aux 53 1024 Hprec64 Hmax64 mode_NE s n 0 false (10 ^ Z.to_pos (- e)) 0)
        as (V & C).
      assert (EV : (F2R (Float radix2 (cond_Zopp s (Zpos n)) 0)
          / F2R (Float radix2 (cond_Zopp false (Zpos (10 ^ Z.to_pos (- e)))) 0) = IZR m * powerRZ 10 e)%R).
      { rewrite Em. unfold F2R. cbn [Fnum Fexp bpow cond_Zopp]. rewrite !Rmult_1_r.
        unfold Rdiv. f_equal. rewrite Pos2Z.inj_pow, Z2Pos.id by lia.
        rewrite <- powerRZ_pos10 by lia. rewrite powerRZ_neg' by lra. apply Rinv_inv. }
      rewrite EV in C. rewrite Rlt_bool_true in C by exact H. destruct C as (C1 & C2 & _).
      split; [exact C1|exact C2]. }
    destruct m as [|n|n].
    + rewrite Rmult_0_l. unfold rnd. rewrite round_0 by auto with typeclass_instances.
      split; reflexivity.
    + now apply Q.
    + now apply Q.
Qed.
