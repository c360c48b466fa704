(* End to end: compositions as a user writes them, and what a C program reads back. *)
From Coq Require Import Reals ZArith List.
From Flocq Require Import Core BinarySingleNaN.
From Verif Require Import FArith Prelude Composition ArithB64 SpecB64 SpecGas Api Ffi.
Import ListNotations.
Local Open Scope R_scope.

(* a natural gas with mole fractions that check() accepts, even after rounding *)
Definition gas_comp (m : Libm) (c : @Composition (ArithB64 m)) : Prop :=
  let x i := nth i (bfractions m c) B0 in
  (forall i, (i < 21)%nat -> fin (x i) /\ (bR (x i) = 0 \/ bpow radix2 (-49) <= bR (x i))) /\
  natural_gas (fun i => bR (x i)) /\ 1 - / 100 + / 10 ^ 14 <= exact_sum m c <= 1 + / 100 - / 10 ^ 14.

(* a natural gas given by amounts in any unit (percent, mol, mol/h, ...): sum n_i = S, and n_i / S is within the limits with 0.1 % to spare *)
Definition gas_amounts (m : Libm) (c : @Composition (ArithB64 m)) : Prop :=
  let x i := nth i (bfractions m c) B0 in let S := exact_sum m c in
  bpow radix2 (-1000) <= S <= bpow radix2 1000 /\
  (forall i, (i < 21)%nat -> fin (x i) /\ (bR (x i) = 0 \/ bpow radix2 (-48) * S <= bR (x i) <= 999 / 1000 * gas_limit i * S)) /\
  451 / 1000 * S <= bR (x 0%nat).

(* the C program: create the object at address a, set composition, temperature and pressure, compute the density and then
   the properties, read the structure of properties, the temperature and the pressure *)
Definition session {A : Arith} (e : kind) (a : addr) (c : Composition) (t p : F) : list call :=
  Ffi.New e (Some a) :: map (Use e a) [USetComposition c; USet IT t; USet IP p; UDensity; UProperties; UGetProperties; UGet IT; UGet IP].
(* its answers if there is no error: q the structure, t and p the temperature and pressure read *)
Definition no_error {A : Arith} (a : addr) (q : FProperties) (t p : F) : list answer :=
  [APtr a; AErr 0; AUnit; AUnit; AErr 0; AUnit; AProps q; AVal t; AVal p].
(* the quantities by name; the structure has no d2p_dtd *)
Definition reported (m : Libm) (q : @FProperties (ArithB64 m)) (t p : b64) (k : pfield) : b64 :=
  match k with
  | PT => t | PP => p | PD => fp_d q | PZ => fp_z q | PMM => fp_mm q | PDpDd => fp_dp_dd q | PD2pDd2 => fp_d2p_dd2 q
  | PD2pDtd => B0 | PDpDt => fp_dp_dt q | PU => fp_u q | PH => fp_h q | PS => fp_s q | PCv => fp_cv q | PCp => fp_cp q
  | PW => fp_w q | PG => fp_g q | PJt => fp_jt q | PKappa => fp_kappa q
  end.
(* the rest of memory is untouched *)
Definition elsewhere {A : Arith} (a : addr) (h h' : heap) : Prop := forall b, b <> a -> h' b = h b.
