(* Specification of history independence. *)
From Coq Require Import ZArith List Bool.
From Verif Require Import FArith Prelude Composition DetailModel GergModel Api SpecGeneric.
Import ListNotations.

Section Spec.
Context {A : Arith}.
Local Open Scope bool_scope.
Local Open Scope F_scope.

(* the two objects look the same from outside *)
Definition dsame (s s' : Detail) : Prop := d_x s = d_x s' /\ forall f, dread f s = dread f s'.
Definition gsame (s s' : Gerg) : Prop := g_x s = g_x s' /\ forall f, gread f s = gread f s'.

(* The compositions and temperatures the equation of state is asked for in a history, read off
   the history alone (no method changes x or t); n is the number of array slots and fr what
   set_composition stores. *)
Fixpoint asked (n : nat) (fr : Composition -> list F) (x : list F) (t : F) (l : list op)
  : list (list F * F) :=
  match l with
  | [] => []
  | Poke PT v :: l => asked n fr x v l
  | Poke _ _ :: l => asked n fr x t l
  | SetX v :: l => asked n fr (map v (seq 0 n)) t l
  | SetComp c :: l => asked n fr (match comp_check c with ROk => fr c | RErr _ => x end) t l
  | MolarMass :: l => asked n fr x t l
  | Pressure :: l | Density _ :: l | Properties :: l => (x, t) :: asked n fr x t l
  end.
Definition dasked (l : list op) : list (list F * F) := asked 21 fractions (repeat f0 21) f0 l.
Definition gasked (l : list op) : list (list F * F) :=
  asked 22 (fun c => f0 :: fractions c) (repeat f0 22) f0 l.

(* a is told apart from b by the code's comparison: |a - b| > 1e-7 *)
Definition apart (a b : F) : Prop := (flit (L 1 (-7)) <? fabs (a - b)) = true.
(* some component from slot lo on is apart *)
Definition xapart (lo : nat) (x y : list F) : Prop :=
  exists i, (lo <= i < length x)%nat /\ apart (nth i x f0) (nth i y f0).

(* every two inputs asked for are equal or told apart, and all are told apart from the zeros a new
   object starts with *)
Definition separated (lo : nat) (V : list (list F * F)) : Prop :=
  (forall x t x' t', In (x, t) V -> In (x', t') V ->
     (x = x' \/ xapart lo x x') /\ (t = t' \/ apart t t')) /\
  (forall x t, In (x, t) V -> xapart lo x (repeat f0 (length x)) /\ apart t f0).

(* the history that gives a new object the public fields of s *)
Definition all_fields : list pfield :=
  [PT; PP; PD; PZ; PMM; PDpDd; PD2pDd2; PD2pDtd; PDpDt; PU; PH; PS; PCv; PCp; PW; PG; PJt; PKappa].
Definition dcopy (s : Detail) : list op :=
  SetX (fun i => nth i (d_x s) f0) :: map (fun f => Poke f (dread f s)) all_fields.
Definition gcopy (s : Gerg) : list op :=
  SetX (fun i => nth i (g_x s) f0) :: map (fun f => Poke f (gread f s)) all_fields.
End Spec.
