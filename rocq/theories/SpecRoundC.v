(* The round trip of SpecRound, made by a C program. *)
From Coq Require Import ZArith List.
From Verif Require Import FArith Prelude Composition Api Ffi.
Import ListNotations.

(* the C program: create the object at address a, set composition, temperature and density, compute the pressure; set composition, temperature and the
   pressure v, compute the density and the properties, read the density *)
Definition round_c {A : Arith} (e : kind) (a : addr) (c : Composition) (t d v : F) : list call :=
  Ffi.New e (Some a) :: map (Use e a) [USetComposition c; USet IT t; USet ID d; UPressure; USetComposition c; USet IT t; USet IP v; UDensity; UProperties; UGet ID].
(* its answers if there is no error: v the pressure computed, d' the density read *)
Definition round_answers {A : Arith} (a : addr) (v d' : F) : list answer :=
  [APtr a; AErr 0; AUnit; AUnit; AVal v; AErr 0; AUnit; AUnit; AErr 0; AUnit; AVal d'].
