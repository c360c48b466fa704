(* Round trip at line pressure: pressure() at a density, then density() at the pressure it gave. *)
From Coq Require Import Reals ZArith List.
From Flocq Require Import Core BinarySingleNaN.
From Verif Require Import FArith Prelude Composition ArithB64 Api.
Import ListNotations.
Local Open Scope R_scope.

(* a new object: set composition, temperature and density and ask for the pressure; the answers, v the pressure *)
Definition gauge {A : Arith} (c : Composition) (t d : F) : list op := [SetComp c; Poke PT t; Poke PD d; Pressure].
Definition gauged {A : Arith} (v : F) : list out := [OComp ROk; OUnit; OUnit; OVal v].
(* the error of a round trip: one part in nine million *)
Definition returns (d d' : R) : Prop := Rabs (d' - d) <= 1 / 9000000 * d.
