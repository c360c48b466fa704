(* C67: how the density found follows pressure and temperature, in IEEE double precision.  Specification: SpecSens (measure, follows, denser), SpecSession (gas_comp). *)
From Coq Require Import Reals ZArith List Lra Lia.
From Flocq Require Import Core BinarySingleNaN.
From Verif Require Import FArith Prelude Composition ArithB64 B64Lemmas ArithR SpecB64 SpecStd SpecGas SpecAcc SpecSession SpecSens SpecGeneric DetailModel GergModel Api AccLibm AccDensProof GasCase PropsLogger Sens.
Import ListNotations.
Local Open Scope R_scope.

(* DETAIL: one natural gas, any two states near base conditions, a new object for each.  Both searches succeed; the two densities are in the ratio of the ideal gas up to 3.7 % of the
   change of the pressure and 18.7 % of the change of the temperature (in logarithms); and a higher pressure or a lower temperature, by 1e-6, gives a higher density *)
Theorem C67_detail : forall m, accurate m -> forall c : @Composition (ArithB64 m), gas_comp m c -> forall i j t1 P1 t2 P2, gas_range t1 P1 -> gas_range t2 P2 ->
  exists s1 s2, @dexec (ArithB64 m) Api.New (measure (A := ArithB64 m) i c t1 P1) = Some (s1, measured (A := ArithB64 m)) /\ @dexec (ArithB64 m) Api.New (measure (A := ArithB64 m) j c t2 P2) = Some (s2, measured (A := ArithB64 m)) /\
    let d1 := dread (A := ArithB64 m) PD s1 in let d2 := dread (A := ArithB64 m) PD s2 in fin d1 /\ fin d2 /\ 0 < bR d1 /\ 0 < bR d2 /\
    follows (37 / 1000) (187 / 1000) (bR t1) (bR P1) (bR d1) (bR t2) (bR P2) (bR d2) /\ (denser (bR t1) (bR P1) (bR t2) (bR P2) -> bR d1 < bR d2).
Proof. exact detail_follows. Qed.
Print Assumptions C67_detail.
(* GERG-2008: 4.2 % and 10.1 % *)
Theorem C67_gerg : forall m, accurate m -> forall c : @Composition (ArithB64 m), gas_comp m c -> forall i j t1 P1 t2 P2, (i <= 0)%Z -> (j <= 0)%Z -> gas_range t1 P1 -> gas_range t2 P2 ->
  exists s1 s2, @gexec (ArithB64 m) Api.New (measure (A := ArithB64 m) i c t1 P1) = Some (s1, measured (A := ArithB64 m)) /\ @gexec (ArithB64 m) Api.New (measure (A := ArithB64 m) j c t2 P2) = Some (s2, measured (A := ArithB64 m)) /\
    let d1 := gread (A := ArithB64 m) PD s1 in let d2 := gread (A := ArithB64 m) PD s2 in fin d1 /\ fin d2 /\ 0 < bR d1 /\ 0 < bR d2 /\
    follows (42 / 1000) (101 / 1000) (bR t1) (bR P1) (bR d1) (bR t2) (bR P2) (bR d2) /\ (denser (bR t1) (bR P1) (bR t2) (bR P2) -> bR d1 < bR d2).
Proof. exact gerg_follows. Qed.
Print Assumptions C67_gerg.

(* 57/64 methane, 2/64 nitrogen, 1/64 carbon dioxide, 3/64 ethane, 1/64 propane: 101 kPa instead of 100 kPa at 288 K, and 287 K instead of 288 K at 101 kPa *)
Example C67_case : accurate best /\ gas_comp best (mix best 57 3) /\ gas_range (bofZ 288) (bofZ 100) /\ gas_range (bofZ 288) (bofZ 101) /\ gas_range (bofZ 287) (bofZ 101) /\
  denser (bR (bofZ 288)) (bR (bofZ 100)) (bR (bofZ 288)) (bR (bofZ 101)) /\ denser (bR (bofZ 288)) (bR (bofZ 101)) (bR (bofZ 287)) (bR (bofZ 101)).
Proof.
  split; [exact best_accurate|]. split; [apply mix_ok; lia|]. unfold gas_range, denser. rewrite !ofZ_R by reflexivity.
  split; [split; (split; [reflexivity|lra])|]. split; [split; (split; [reflexivity|lra])|]. split; [split; (split; [reflexivity|lra])|]. split; [left|right]; lra.
Qed.
