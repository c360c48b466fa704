(* Arithmetic interface: the model of the Rust code is written once, over an arbitrary
   implementation of the f64 operations the code uses, and then instantiated
   (exact reals: ArithR.v, IEEE-754 binary64: ArithB64.v, executable: ArithPrim.v). *)
From Coq Require Import ZArith List.
Import ListNotations.

(* A decimal literal m * 10^e of the Rust source. *)
Inductive lit : Set := L (m e : Z).

(* The f64 operations used by src/*.rs.  No law is assumed here: theorems that need one
   state it as a hypothesis. *)
Class Arith := {
  F : Type;
  fadd : F -> F -> F;
  fsub : F -> F -> F;
  fmul : F -> F -> F;
  fdiv : F -> F -> F;
  fneg : F -> F;
  fabs : F -> F;                 (* f64::abs *)
  fsqrt : F -> F;                (* f64::sqrt *)
  fexp : F -> F;                 (* f64::exp *)
  fln : F -> F;                  (* f64::ln *)
  fpowf : F -> F -> F;           (* f64::powf *)
  fpowi : F -> Z -> F;           (* f64::powi *)
  flt : F -> F -> bool;          (* a < b, false on NaN *)
  fle : F -> F -> bool;          (* a <= b, false on NaN *)
  flit : lit -> F;               (* a decimal literal, rounded to nearest *)
  fofnat : nat -> F              (* usize as f64 *)
}.

Declare Scope F_scope.
Delimit Scope F_scope with F.
Bind Scope F_scope with F.
Infix "+" := fadd : F_scope.
Infix "-" := fsub : F_scope.
Infix "*" := fmul : F_scope.
Infix "/" := fdiv : F_scope.
Notation "- x" := (fneg x) : F_scope.
Infix "<?" := flt : F_scope.
Infix "<=?" := fle : F_scope.
Notation "x >? y" := (flt y x) : F_scope.
Notation "x >=? y" := (fle y x) : F_scope.

Definition f0 {A : Arith} : F := flit (L 0 0).
Definition f1 {A : Arith} : F := flit (L 1 0).
Definition f2 {A : Arith} : F := flit (L 2 0).
Definition f3 {A : Arith} : F := flit (L 3 0).
Definition f4 {A : Arith} : F := flit (L 4 0).
