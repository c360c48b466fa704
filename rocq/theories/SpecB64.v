(* Specifications of the floating-point properties: binary64, any libm. *)
From Coq Require Import ZArith Reals List Bool.
From Flocq Require Import Core BinarySingleNaN.
From Verif Require Import FArith Prelude Composition SpecGeneric ArithB64 Api.
Import ListNotations.
Local Open Scope R_scope.

(* what is assumed of f64::ln: the special cases of the C standard *)
Record ln_ok (m : Libm) : Prop := mk_ln_ok {
  ln_nan : forall x, is_nan x = true -> is_nan (lm_ln m x) = true;
  ln_neg : forall x, Bltb x (B754_zero false) = true -> is_nan (lm_ln m x) = true;
  ln_zero : forall s, lm_ln m (B754_zero s) = ninf;
  ln_inf : lm_ln m pinf = pinf }.

(* the 21 fractions as doubles *)
Definition bfractions (m : Libm) (c : @Composition (ArithB64 m)) : list b64 :=
  @fractions (ArithB64 m) c.
(* their exact sum, and the exact sum of their magnitudes *)
Definition Rsum (l : list R) : R := fold_right Rplus 0 l.
Definition exact_sum (m : Libm) (c : @Composition (ArithB64 m)) : R := Rsum (map bR (bfractions m c)).
Definition abs_sum (m : Libm) (c : @Composition (ArithB64 m)) : R :=
  Rsum (map (fun x => Rabs (bR x)) (bfractions m c)).

(* a composition with the given first two fractions and nothing else *)
Definition two (m : Libm) (x y : b64) : @Composition (ArithB64 m) :=
  let z := B754_zero false in
  @mkComposition (ArithB64 m) x y z z z z z z z z z z z z z z z z z z z.

(* neither NaN nor negative *)
Definition nonneg (x : b64) : Prop := Bleb B0 x = true.
(* finite and not negative *)
Definition usable (l : list b64) : Prop := List.Forall (fun x => fin x /\ 0 <= bR x) l.

(* the special cases of exp and ln the NaN results rely on *)
Record special_ok (m : Libm) : Prop := mk_special_ok {
  sp_exp_nan : lm_exp m B754_nan = B754_nan;
  sp_exp_zero : forall s, lm_exp m (B754_zero s) = blit (L 1 0);
  sp_ln_nan : lm_ln m B754_nan = B754_nan;
  sp_ln_one : lm_ln m (blit (L 1 0)) = B754_zero false }.

(* the last result of a history *)
Definition answer {S O : Type} (r : option (S * list O)) : option O :=
  match r with Some (_, l) => last (map Some l) None | None => None end.
(* finite and not negative; finite and positive *)
Definition good (x : b64) : Prop := fin x /\ 0 <= bR x.
Definition gpos (x : b64) : Prop := fin x /\ 0 < bR x.
(* a composition, a temperature, a density, and a pressure call *)
Definition ask {m : Libm} (x : nat -> b64) (t d : b64) : list (@op (ArithB64 m)) :=
  [@SetX (ArithB64 m) x; @Poke (ArithB64 m) PT t; @Poke (ArithB64 m) PD d; Pressure].
(* one fraction is NaN in y, the others are those of x *)
Definition one_nan (x y : nat -> b64) : Prop :=
  exists i, y i = B754_nan /\ forall j, j <> i -> y j = x j.
