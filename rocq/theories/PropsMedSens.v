(* C76: how the density found follows pressure and temperature up to 1.2 MPa with DETAIL, in IEEE double precision.  Specification: SpecSens (measure, follows, denser), SpecMedSens (line_range), SpecSession (gas_comp). *)
From Coq Require Import Reals ZArith List Lra Lia.
From Flocq Require Import Core BinarySingleNaN.
From Verif Require Import FArith Prelude Composition ArithB64 B64Lemmas ArithR SpecB64 SpecStd SpecGas SpecAcc SpecSession SpecSens SpecMedSens DetailModel Api AccLibm AccDensProof GasCase PropsLogger MedSens.
Import ListNotations.
Local Open Scope R_scope.

(* One natural gas, any two states up to 1.2 MPa, a new object for each.  Both searches succeed; the two densities are in the ratio of the ideal gas up to 12.2 % of the
   change of the pressure and 41.2 % of the change of the temperature (in logarithms); and a higher pressure or a lower temperature, by 1e-6, gives a higher density *)
Theorem C76_detail : forall m, accurate m -> forall c : @Composition (ArithB64 m), gas_comp m c -> forall i j t1 P1 t2 P2, line_range t1 P1 -> line_range t2 P2 ->
  exists s1 s2, @dexec (ArithB64 m) Api.New (measure (A := ArithB64 m) i c t1 P1) = Some (s1, measured (A := ArithB64 m)) /\ @dexec (ArithB64 m) Api.New (measure (A := ArithB64 m) j c t2 P2) = Some (s2, measured (A := ArithB64 m)) /\
    let d1 := dread (A := ArithB64 m) PD s1 in let d2 := dread (A := ArithB64 m) PD s2 in fin d1 /\ fin d2 /\ 0 < bR d1 /\ 0 < bR d2 /\
    follows (122 / 1000) (412 / 1000) (bR t1) (bR P1) (bR d1) (bR t2) (bR P2) (bR d2) /\ (denser (bR t1) (bR P1) (bR t2) (bR P2) -> bR d1 < bR d2).
Proof. exact line_follows. Qed.
Print Assumptions C76_detail.

(* 57/64 methane, 2/64 nitrogen, 1/64 carbon dioxide, 3/64 ethane, 1/64 propane: 1010 kPa instead of 1000 kPa at 288 K, and 287 K instead of 288 K at 1010 kPa *)
Example C76_case : accurate best /\ gas_comp best (mix best 57 3) /\ line_range (bofZ 288) (bofZ 1000) /\ line_range (bofZ 288) (bofZ 1010) /\ line_range (bofZ 287) (bofZ 1010) /\
  denser (bR (bofZ 288)) (bR (bofZ 1000)) (bR (bofZ 288)) (bR (bofZ 1010)) /\ denser (bR (bofZ 288)) (bR (bofZ 1010)) (bR (bofZ 287)) (bR (bofZ 1010)).
Proof.
  split; [exact best_accurate|]. split; [apply mix_ok; lia|]. unfold line_range, denser. rewrite !ofZ_R by reflexivity.
  split; [split; (split; [reflexivity|lra])|]. split; [split; (split; [reflexivity|lra])|]. split; [split; (split; [reflexivity|lra])|]. split; [left|right]; lra.
Qed.
