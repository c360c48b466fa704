(* The sizes of the fields that properties() of GERG-2008 reports. *)
From Coq Require Import Reals ZArith List.
From Flocq Require Import Core.
From Verif Require Import FArith ArithB64 B64Lemmas ArithR SpecGerg Api SpecAll.
Local Open Scope R_scope.

Definition field_size (f : pfield) (x : nat -> R) (delta tau t d : R) : R :=
  let S e := gerg_sum e x delta tau in let I e := ideal_sum e x t d in
  match f with
  | PP => d * (Rg * t) * (1 + S 1%nat) | PZ => 1 + S 1%nat
  | PDpDd => Rg * t * (1 + 2 * S 1%nat + S 2%nat)
  | PD2pDd2 => Rg * t * (2 * S 1%nat + 4 * S 2%nat + S 3%nat) / d
  | PD2pDtd => Rg * (1 + 2 * S 1%nat + S 2%nat + 2 * S 5%nat + S 6%nat)
  | PDpDt => d * Rg * (1 + S 1%nat + S 5%nat)
  | PU => Rg * t * (I 1%nat + S 4%nat) | PH => Rg * t * (1 + S 1%nat + I 1%nat + S 4%nat)
  | PS => Rg * (I 1%nat + S 4%nat + I 0%nat + S 0%nat) | PCv => Rg * (I 2%nat + S 7%nat)
  | PG => Rg * t * (1 + S 1%nat + I 0%nat + S 0%nat)
  | _ => 0
  end.
(* the fields without a division by another computed quantity *)
Definition plain_field (f : pfield) : Prop :=
  match f with PZ | PDpDd | PD2pDd2 | PD2pDtd | PDpDt | PU | PH | PS | PCv | PG => True | _ => False end.
(* a finite double away from overflow and underflow *)
Definition tame (v : b64) : Prop := fin v /\ bpow radix2 (-100) <= Rabs (bR v) <= bpow radix2 100.
