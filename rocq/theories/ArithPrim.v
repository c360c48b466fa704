(* An executable instance of the arithmetic: hardware binary64 (Coq's primitive floats) with a
   software exp/ln/powf in double-double arithmetic.  It is used only to run the model on the
   test vectors of /repo/tests (PrimTests.v); no theorem of the Properties files depends on it. *)
From Coq Require Import ZArith List Uint63 Floats.
From Verif Require Import FArith.
Import ListNotations.
Set Warnings "-inexact-float".
Local Open Scope bool_scope.
Local Open Scope float_scope.

(* a decimal literal, correctly rounded *)
Definition prim_lit (l : lit) : float :=
  let '(L m e) := l in
  match m with
  | Z0 => zero
  | _ =>
    let neg := Z.ltb m 0 in
    if Z.leb 0 e then
      SF2Prim (binary_normalize FloatOps.prec emax (m * 10 ^ e) 0 neg)
    else
      let '(mz, ez, lz) := SFdiv_core_binary FloatOps.prec emax (Z.abs m) 0 (10 ^ (- e)) 0 in
      SF2Prim (binary_round_aux FloatOps.prec emax neg mz ez lz)
  end.

(* double-double numbers: unevaluated sums hi + lo *)
Definition dd := (float * float)%type.
Definition two_sum (a b : float) : dd :=
  let s := a + b in let bb := s - a in (s, (a - (s - bb)) + (b - bb)).
Definition quick_two_sum (a b : float) : dd := let s := a + b in (s, b - (s - a)).
Definition split_f (a : float) : dd :=
  let t := 134217729 * a in let hi := t - (t - a) in (hi, a - hi).
Definition two_prod (a b : float) : dd :=
  let p := a * b in
  let '(ah, al) := split_f a in let '(bh, bl) := split_f b in
  (p, ((ah * bh - p) + ah * bl + al * bh) + al * bl).
Definition dd_add (x y : dd) : dd :=
  let '(s, e) := two_sum (fst x) (fst y) in
  let '(t, f) := two_sum (snd x) (snd y) in
  let '(s, e) := quick_two_sum s (e + t) in quick_two_sum s (e + f).
Definition dd_mul (x y : dd) : dd :=
  let '(p, e) := two_prod (fst x) (fst y) in
  quick_two_sum p (e + (fst x * snd y + snd x * fst y)).
Definition dd_neg (x : dd) : dd := (- fst x, - snd x).
Definition dd_div (x y : dd) : dd :=
  let q1 := fst x / fst y in
  let r := dd_add x (dd_neg (dd_mul (q1, 0) y)) in
  let q2 := fst r / fst y in
  let r := dd_add r (dd_neg (dd_mul (q2, 0) y)) in
  let q3 := fst r / fst y in
  let '(a, b) := quick_two_sum q1 q2 in dd_add (a, b) (q3, 0).

Fixpoint f_of_pos (p : positive) : float :=
  match p with xH => 1 | xO q => 2 * f_of_pos q | xI q => 2 * f_of_pos q + 1 end.
Definition f_of_Z (z : Z) : float :=
  match z with Z0 => 0 | Zpos p => f_of_pos p | Zneg p => - f_of_pos p end.
Definition dd_of_nat (n : nat) : dd := (f_of_Z (Z.of_nat n), 0).

(* ln x for x > 0 finite: x = m * 2^e with m in [0.7, 1.4], atanh series *)
Fixpoint atanh_ser (n : nat) (s2 : dd) : dd :=
  match n with
  | O => (0, 0)
  | S n' => dd_add (dd_div (1, 0) (dd_of_nat (2 * (30 - n) + 1))) (dd_mul s2 (atanh_ser n' s2))
  end.
Definition dd_log_m (m : dd) : dd :=
  let s := dd_div (dd_add m (-1, 0)) (dd_add m (1, 0)) in
  dd_mul (2, 0) (dd_mul s (atanh_ser 30 (dd_mul s s))).
Definition dd_ln2 : dd := dd_mul (-1, 0) (dd_add (dd_log_m (0.75, 0))
  (dd_neg (dd_log_m (1.5, 0)))).
Definition ln2 : dd := Eval vm_compute in dd_ln2.
Definition dd_log (x : float) : dd :=
  let '(m, e) := frshiftexp x in            (* m in [0.5, 1), x = m * 2^(e - shift) *)
  let e := (Uint63.to_Z e - FloatOps.shift)%Z in
  let '(m, e) := if m <? 0.7 then (2 * m, (e - 1)%Z) else (m, e) in
  dd_add (dd_log_m (m, 0)) (dd_mul (f_of_Z e, 0) ln2).

(* exp of a double-double *)
Fixpoint exp_ser (n : nat) (r : dd) (k : nat) : dd :=
  match n with
  | O => (1, 0)
  | S n' => dd_add (1, 0) (dd_mul (dd_div r (dd_of_nat k)) (exp_ser n' r (S k)))
  end.
Definition rnd_Z (x : float) : Z :=           (* truncation towards zero of x + 1/2 *)
  match Prim2SF (x + 0.5) with
  | S754_finite s m e =>
    let v := if Z.leb 0 e then (Zpos m * 2 ^ e)%Z else (Zpos m / 2 ^ (- e))%Z in
    if s then (- v)%Z else v
  | _ => 0%Z
  end.
Definition dd_exp (x : dd) : float :=
  if is_nan (fst x) then nan
  else if 710 <? fst x then infinity
  else if fst x <? -750 then 0
  else
    let k := rnd_Z (fst x / fst ln2) in
    let r := dd_add x (dd_neg (dd_mul (f_of_Z k, 0) ln2)) in
    let v := exp_ser 28 r 1 in
    Z.ldexp (fst v + snd v) k.

Definition prim_exp (x : float) : float := dd_exp (x, 0).
Definition prim_ln (x : float) : float :=
  if is_nan x then nan
  else if x <? 0 then nan
  else if x =? 0 then neg_infinity
  else if x =? infinity then infinity
  else let v := dd_log x in fst v + snd v.
(* x^y for the cases the tests need: y = 0, x = 0, x > 0; NaN for x < 0 *)
Definition prim_powf (x y : float) : float :=
  if y =? 0 then 1
  else if is_nan x || is_nan y then nan
  else if x =? 0 then (if 0 <? y then 0 else infinity)
  else if x <? 0 then nan
  else if x =? infinity then (if 0 <? y then infinity else 0)
  else dd_exp (dd_mul (y, 0) (dd_log x)).

(* compiler-rt __powidf2: square and multiply, reciprocal at the end for negative n *)
Fixpoint powi_pos (r a : float) (p : positive) : float :=
  match p with
  | xH => r * a
  | xO q => powi_pos r (a * a) q
  | xI q => powi_pos (r * a) (a * a) q
  end.
Definition prim_powi (x : float) (n : Z) : float :=
  match n with
  | Z0 => 1
  | Zpos p => powi_pos 1 x p
  | Zneg p => 1 / powi_pos 1 x p
  end.

Definition ArithPrim : Arith := {|
  F := float; fadd := PrimFloat.add; fsub := PrimFloat.sub; fmul := PrimFloat.mul;
  fdiv := PrimFloat.div; fneg := PrimFloat.opp; fabs := PrimFloat.abs;
  fsqrt := PrimFloat.sqrt; fexp := prim_exp; fln := prim_ln; fpowf := prim_powf; fpowi := prim_powi;
  flt := PrimFloat.ltb; fle := PrimFloat.leb; flit := prim_lit; fofnat := fun n => f_of_Z (Z.of_nat n) |}.
