(* src/composition.rs *)
From Coq Require Import ZArith List.
From Verif Require Import FArith Prelude.
Import ListNotations.

(* src/composition.rs:178-187  enum CompositionError (its Ok variant is only used by the FFI) *)
Inductive CompositionError := CompOk | Empty | BadSum.

(* src/composition.rs:24-67  struct Composition *)
Record Composition {A : Arith} := mkComposition {
  methane : F; nitrogen : F; carbon_dioxide : F; ethane : F; propane : F; isobutane : F;
  n_butane : F; isopentane : F; n_pentane : F; hexane : F; heptane : F; octane : F;
  nonane : F; decane : F; hydrogen : F; oxygen : F; carbon_monoxide : F; water : F;
  hydrogen_sulfide : F; helium : F; argon : F }.
Arguments mkComposition {A}.

Section Model.
Context {A : Arith}.
Local Open Scope F_scope.

(* src/composition.rs:23  derive(Default) *)
Definition comp_default : Composition :=
  mkComposition f0 f0 f0 f0 f0 f0 f0 f0 f0 f0 f0 f0 f0 f0 f0 f0 f0 f0 f0 f0 f0.

(* src/composition.rs:83-105  Composition::sum *)
Definition comp_sum (c : Composition) : F :=
  methane c + nitrogen c + carbon_dioxide c + ethane c + propane c + isobutane c
  + n_butane c + isopentane c + n_pentane c + hexane c + heptane c + octane c
  + nonane c + decane c + hydrogen c + oxygen c + carbon_monoxide c + water c
  + hydrogen_sulfide c + helium c + argon c.

(* src/composition.rs:122-152  Composition::normalize; the new value of *self and the result *)
Definition comp_normalize (c : Composition) : Composition * result CompositionError :=
  let sum := comp_sum c in
  if sum >? f0 then
    let factor := f1 / sum in
    (mkComposition
       (methane c * factor) (nitrogen c * factor) (carbon_dioxide c * factor)
       (ethane c * factor) (propane c * factor) (isobutane c * factor) (n_butane c * factor)
       (isopentane c * factor) (n_pentane c * factor) (hexane c * factor) (heptane c * factor)
       (octane c * factor) (nonane c * factor) (decane c * factor) (hydrogen c * factor)
       (oxygen c * factor) (carbon_monoxide c * factor) (water c * factor)
       (hydrogen_sulfide c * factor) (helium c * factor) (argon c * factor), ROk)
  else (c, RErr Empty).

(* src/composition.rs:166-174  Composition::check *)
Definition comp_check (c : Composition) : result CompositionError :=
  if fabs (comp_sum c - f0) <? flit (L 1 (-10)) then RErr Empty
  else if fabs (comp_sum c - f1) >? flit (L 1 (-2)) then RErr BadSum
  else ROk.

End Model.
