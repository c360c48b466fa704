(* C79: the round trip of C77 from C, in IEEE double precision and from any state of memory: a C program that computes the pressure of a natural gas at a
   density, and on the same object the density at that pressure, sees no panic, no undefined behaviour and no error code, touches no other object, and
   reads the density it started from, within one part in nine million.  Specification: SpecRoundC (round_c, round_answers), SpecRound (returns),
   SpecSession (gas_comp, elsewhere). *)
From Coq Require Import Reals ZArith List Lra Lia.
From Flocq Require Import Core BinarySingleNaN.
From Verif Require Import FArith Prelude Composition ArithB64 B64Lemmas SpecB64 SpecGas SpecAcc SpecSession SpecRound SpecRoundC Api Ffi AccLibm RoundC.
From Verif Require PropsLogger PropsRound.
Import ListNotations.
Local Open Scope R_scope.

Theorem C79_detail : forall m, accurate m -> forall (c : @Composition (ArithB64 m)), gas_comp m c -> forall (t d : b64), fin t /\ 270 <= bR t <= 350 -> forall a h, fin d /\ 1 / 10000 <= bR d <= 55 / 100 -> a <> null ->
  exists h' v d', ffi_run (A := ArithB64 m) (round_c (A := ArithB64 m) KDetail a c t d v) h = Ret (A := ArithB64 m) h' (round_answers (A := ArithB64 m) a v d') /\ elsewhere a h h' /\
    fin v /\ fin d' /\ returns (bR d) (bR d').
Proof. exact c_round_detail. Qed.
Print Assumptions C79_detail.
Theorem C79_gerg : forall m, accurate m -> forall (c : @Composition (ArithB64 m)), gas_comp m c -> forall (t d : b64), fin t /\ 270 <= bR t <= 350 -> forall a h, fin d /\ 1 / 10000 <= bR d <= 40 / 100 -> a <> null ->
  exists h' v d', ffi_run (A := ArithB64 m) (round_c (A := ArithB64 m) KGerg a c t d v) h = Ret (A := ArithB64 m) h' (round_answers (A := ArithB64 m) a v d') /\ elsewhere a h h' /\
    fin v /\ fin d' /\ returns (bR d) (bR d').
Proof. exact c_round_gerg. Qed.
Print Assumptions C79_gerg.

(* 3/8 mol/l of a mixture of C66 at 288 K, as in C77; the object at any address but null *)
Example C79_case : accurate best /\ gas_comp best (PropsLogger.mix best 57 3) /\ (fin (bofZ 288) /\ 270 <= bR (bofZ 288) <= 350) /\
  (fin PropsRound.dens /\ 1 / 10000 <= bR PropsRound.dens <= 40 / 100) /\ exists a, a <> null.
Proof. destruct PropsRound.C77_case as (A & G & T & D). repeat (split; [assumption|]). exists 1%Z. discriminate. Qed.
