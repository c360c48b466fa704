(* A pressure function moderately close to that of an ideal gas around the density d0: a narrower region than in
   SpecConv.nearly_ideal, a wider range for the slope. *)
From Coq Require Import Reals.
From Coquelicot Require Import Coquelicot.
Local Open Scope R_scope.
Definition medium_ideal (p : R -> R) (d0 P : R) : Prop :=
  87 / 100 * P <= p d0 <= 23 / 20 * P /\
  forall d, 8 / 11 * d0 <= d <= 11 / 8 * d0 -> 0 < p d /\ 10 / 13 * p d <= d * Derive p d <= 14 / 13 * p d.
