(* The range of C76 for GERG-2008: 270 K to 350 K, 0.1 kPa to 1.0 MPa. *)
From Coq Require Import Reals ZArith List.
From Flocq Require Import Core BinarySingleNaN.
From Verif Require Import FArith ArithB64.
Local Open Scope R_scope.

Definition line_range_g (t P : b64) : Prop := (fin t /\ 270 <= bR t <= 350) /\ (fin P /\ 1 / 10 <= bR P <= 1000).
