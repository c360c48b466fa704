(* C81: at line pressure, from amounts in any unit (percent, mol, mol/h, ...) to what a C program reads back, in IEEE double precision: normalize()
   succeeds, and with the composition it gives a C program computes a sensible state at any pressure up to 1.2 MPa (DETAIL) or 1.0 MPa (GERG-2008), and the
   round trip of C79 returns.  Specification: SpecSession (gas_amounts, session, reported), SpecMedState, SpecMedStateG, SpecRoundC. *)
From Coq Require Import Reals ZArith List Lra Lia.
From Flocq Require Import Core BinarySingleNaN.
From Verif Require Import FArith Prelude Composition DetailModel GergModel Api Ffi ArithB64 B64Lemmas SpecB64 SpecGerg SpecStd SpecGas SpecAcc SpecSession SpecMedState SpecMedStateG SpecRound SpecRoundC AccLibm Amounts.
From Verif Require PropsSession.
Import ListNotations.
Local Open Scope R_scope.

Theorem C81_detail : forall m, accurate m -> forall (c : @Composition (ArithB64 m)), gas_amounts m c -> forall t : b64, fin t /\ 270 <= bR t <= 350 ->
  exists c', comp_normalize (A := ArithB64 m) c = (c', ROk) /\ forall a h, a <> null ->
  (forall P, fin P /\ 1 / 10 <= bR P <= 1200 -> exists h' q t' p, ffi_run (A := ArithB64 m) (session (A := ArithB64 m) KDetail a c' t P) h = Ret (A := ArithB64 m) h' (no_error (A := ArithB64 m) a q t' p) /\ elsewhere a h h' /\
    medium_state (831451 / 100000) (bR t) (bR P) (bR p) (reported m q t' p)) /\
  (forall d, fin d /\ 1 / 10000 <= bR d <= 55 / 100 -> exists h' v d', ffi_run (A := ArithB64 m) (round_c (A := ArithB64 m) KDetail a c' t d v) h = Ret (A := ArithB64 m) h' (round_answers (A := ArithB64 m) a v d') /\ elsewhere a h h' /\
    fin v /\ fin d' /\ returns (bR d) (bR d')).
Proof. exact amounts_detail. Qed.
Print Assumptions C81_detail.
Theorem C81_gerg : forall m, accurate m -> forall (c : @Composition (ArithB64 m)), gas_amounts m c -> forall t : b64, fin t /\ 270 <= bR t <= 350 ->
  exists c', comp_normalize (A := ArithB64 m) c = (c', ROk) /\ forall a h, a <> null ->
  (forall P, fin P /\ 1 / 10 <= bR P <= 1000 -> exists h' q t' p, ffi_run (A := ArithB64 m) (session (A := ArithB64 m) KGerg a c' t P) h = Ret (A := ArithB64 m) h' (no_error (A := ArithB64 m) a q t' p) /\ elsewhere a h h' /\
    medium_state_g Rg (bR t) (bR P) (bR p) (reported m q t' p)) /\
  (forall d, fin d /\ 1 / 10000 <= bR d <= 40 / 100 -> exists h' v d', ffi_run (A := ArithB64 m) (round_c (A := ArithB64 m) KGerg a c' t d v) h = Ret (A := ArithB64 m) h' (round_answers (A := ArithB64 m) a v d') /\ elsewhere a h h' /\
    fin v /\ fin d' /\ returns (bR d) (bR d')).
Proof. exact amounts_gerg. Qed.
Print Assumptions C81_gerg.

(* the composition in percent of C65 at 288 K *)
Example C81_case : accurate best /\ gas_amounts best (PropsSession.percent best) /\ (fin (bofZ 288) /\ 270 <= bR (bofZ 288) <= 350).
Proof. destruct PropsSession.C65_case as (A & G & _ & T & _). now split. Qed.
