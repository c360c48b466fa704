(* C76, GERG-2008: how the density found follows pressure and temperature up to 1.0 MPa, in IEEE double precision.  Specification: SpecSens (measure, follows, denser), SpecMedSensG (line_range_g), SpecSession (gas_comp). *)
From Coq Require Import Reals ZArith List Lra Lia.
From Flocq Require Import Core BinarySingleNaN.
From Verif Require Import FArith Prelude Composition ArithB64 B64Lemmas ArithR SpecB64 SpecStd SpecGas SpecAcc SpecSession SpecSens SpecGeneric SpecMedSensG GergModel Api AccLibm AccDensProof GasCase PropsLogger MedSensG.
Import ListNotations.
Local Open Scope R_scope.

(* One natural gas, any two states up to 1.0 MPa, a new object for each.  Both searches succeed; the two densities are in the ratio of the ideal gas up to 18 % of the
   change of the pressure and 64 % of the change of the temperature (in logarithms); and a higher pressure or a lower temperature, by 1e-6, gives a higher density *)
Theorem C76_gerg : forall m, accurate m -> forall c : @Composition (ArithB64 m), gas_comp m c -> forall i j t1 P1 t2 P2, (i <= 0)%Z -> (j <= 0)%Z -> line_range_g t1 P1 -> line_range_g t2 P2 ->
  exists s1 s2, @gexec (ArithB64 m) Api.New (measure (A := ArithB64 m) i c t1 P1) = Some (s1, measured (A := ArithB64 m)) /\ @gexec (ArithB64 m) Api.New (measure (A := ArithB64 m) j c t2 P2) = Some (s2, measured (A := ArithB64 m)) /\
    let d1 := gread (A := ArithB64 m) PD s1 in let d2 := gread (A := ArithB64 m) PD s2 in fin d1 /\ fin d2 /\ 0 < bR d1 /\ 0 < bR d2 /\
    follows (180 / 1000) (640 / 1000) (bR t1) (bR P1) (bR d1) (bR t2) (bR P2) (bR d2) /\ (denser (bR t1) (bR P1) (bR t2) (bR P2) -> bR d1 < bR d2).
Proof. exact line_follows_g. Qed.
Print Assumptions C76_gerg.

(* 57/64 methane, 2/64 nitrogen, 1/64 carbon dioxide, 3/64 ethane, 1/64 propane: 910 kPa instead of 900 kPa at 288 K, and 287 K instead of 288 K at 910 kPa *)
Example C76_gerg_case : accurate best /\ gas_comp best (mix best 57 3) /\ line_range_g (bofZ 288) (bofZ 900) /\ line_range_g (bofZ 288) (bofZ 910) /\ line_range_g (bofZ 287) (bofZ 910) /\
  denser (bR (bofZ 288)) (bR (bofZ 900)) (bR (bofZ 288)) (bR (bofZ 910)) /\ denser (bR (bofZ 288)) (bR (bofZ 910)) (bR (bofZ 287)) (bR (bofZ 910)).
Proof.
  split; [exact best_accurate|]. split; [apply mix_ok; lia|]. unfold line_range_g, denser. rewrite !ofZ_R by reflexivity.
  split; [split; (split; [reflexivity|lra])|]. split; [split; (split; [reflexivity|lra])|]. split; [split; (split; [reflexivity|lra])|]. split; [left|right]; lra.
Qed.
