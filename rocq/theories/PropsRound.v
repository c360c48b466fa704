(* C77: round trip at line pressure in IEEE double precision.  For every natural gas, 270 K to 350 K, and every density from 0.0001 mol/l to
   0.55 mol/l (DETAIL) or 0.40 mol/l (GERG-2008): pressure() gives a finite number, and a new object given this number as its pressure finds, with
   density(), the density one started from, within one part in nine million.  Specification: SpecRound (gauge, returns), SpecSens (measure), SpecSession (gas_comp),
   SpecLogger (evaluate). *)
From Coq Require Import Reals ZArith List Lra Lia.
From Flocq Require Import Core BinarySingleNaN.
From Verif Require Import FArith Prelude Composition ArithB64 B64Lemmas SpecB64 SpecGas SpecAcc SpecSession SpecLogger SpecSens SpecRound DetailModel GergModel Api AccLibm AccAllCase AccDensProof RoundMed RoundSame.
From Verif Require PropsLogger.
Import ListNotations.
Local Open Scope R_scope.

Theorem C77_detail : forall m, accurate m -> forall (c : @Composition (ArithB64 m)), gas_comp m c -> forall (t d : b64), fin t /\ 270 <= bR t <= 350 -> forall i, fin d /\ 1 / 10000 <= bR d <= 55 / 100 ->
  exists s v s', @dexec (ArithB64 m) Api.New (gauge (A := ArithB64 m) c t d) = Some (s, gauged (A := ArithB64 m) v) /\ fin v /\
    @dexec (ArithB64 m) Api.New (measure (A := ArithB64 m) i c t v) = Some (s', measured (A := ArithB64 m)) /\
    fin (dread (A := ArithB64 m) PD s') /\ returns (bR d) (bR (dread (A := ArithB64 m) PD s')).
Proof. exact round_detail. Qed.
Print Assumptions C77_detail.
Theorem C77_gerg : forall m, accurate m -> forall (c : @Composition (ArithB64 m)), gas_comp m c -> forall (t d : b64), fin t /\ 270 <= bR t <= 350 -> forall i, (i <= 0)%Z -> fin d /\ 1 / 10000 <= bR d <= 40 / 100 ->
  exists s v s', @gexec (ArithB64 m) Api.New (gauge (A := ArithB64 m) c t d) = Some (s, gauged (A := ArithB64 m) v) /\ fin v /\
    @gexec (ArithB64 m) Api.New (measure (A := ArithB64 m) i c t v) = Some (s', measured (A := ArithB64 m)) /\
    fin (gread (A := ArithB64 m) PD s') /\ returns (bR d) (bR (gread (A := ArithB64 m) PD s')).
Proof. exact round_gerg. Qed.
Print Assumptions C77_gerg.

(* the same on one object: after pressure() it is given the composition, the temperature and the pressure it returned, and computes density and properties *)
Theorem C77_same_detail : forall m, accurate m -> forall (c : @Composition (ArithB64 m)), gas_comp m c -> forall (t d : b64), fin t /\ 270 <= bR t <= 350 -> forall i, fin d /\ 1 / 10000 <= bR d <= 55 / 100 ->
  exists s v s' o, @dexec (ArithB64 m) Api.New (gauge (A := ArithB64 m) c t d) = Some (s, gauged (A := ArithB64 m) v) /\ fin v /\
    @dexec (ArithB64 m) Api.New (gauge (A := ArithB64 m) c t d ++ evaluate (A := ArithB64 m) i c t v) = Some (s', gauged (A := ArithB64 m) v ++ measured (A := ArithB64 m) ++ [o]) /\
    fin (dread (A := ArithB64 m) PD s') /\ returns (bR d) (bR (dread (A := ArithB64 m) PD s')).
Proof. exact same_detail. Qed.
Print Assumptions C77_same_detail.
Theorem C77_same_gerg : forall m, accurate m -> forall (c : @Composition (ArithB64 m)), gas_comp m c -> forall (t d : b64), fin t /\ 270 <= bR t <= 350 -> forall i, (i <= 0)%Z -> fin d /\ 1 / 10000 <= bR d <= 40 / 100 ->
  exists s v s' o, @gexec (ArithB64 m) Api.New (gauge (A := ArithB64 m) c t d) = Some (s, gauged (A := ArithB64 m) v) /\ fin v /\
    @gexec (ArithB64 m) Api.New (gauge (A := ArithB64 m) c t d ++ evaluate (A := ArithB64 m) i c t v) = Some (s', gauged (A := ArithB64 m) v ++ measured (A := ArithB64 m) ++ [o]) /\
    fin (gread (A := ArithB64 m) PD s') /\ returns (bR d) (bR (gread (A := ArithB64 m) PD s')).
Proof. exact same_gerg. Qed.
Print Assumptions C77_same_gerg.

(* 3/8 mol/l of a mixture of C66 at 288 K, about 0.9 MPa *)
Definition dens : b64 := nth 0 (bfractions best (PropsLogger.mix best 24 3)) B0.
Example C77_case : accurate best /\ gas_comp best (PropsLogger.mix best 57 3) /\ (fin (bofZ 288) /\ 270 <= bR (bofZ 288) <= 350) /\ (fin dens /\ 1 / 10000 <= bR dens <= 40 / 100).
Proof.
  split; [exact best_accurate|]. split; [apply PropsLogger.mix_ok; lia|]. rewrite ofZ_R by reflexivity. split; [split; [reflexivity|lra]|].
  destruct (PropsLogger.mix_R best 24 3 0 ltac:(lia) ltac:(lia)) as [F E]. fold dens in F, E. cbn [nth] in E. split; [exact F|lra].
Qed.
