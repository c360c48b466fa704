(* C70: at low pressure both equations give nearly the density of the ideal gas, so nearly the same density.  Specification: SpecNear (nearly, agree), SpecSens (measure, gas_range), SpecSession (gas_comp). *)
From Coq Require Import Reals ZArith List Lra Lia.
From Flocq Require Import Core BinarySingleNaN.
From Verif Require Import FArith Prelude Composition ArithB64 B64Lemmas ArithR SpecB64 SpecStd SpecGas SpecAcc SpecGerg SpecSession SpecSens SpecNear DetailModel GergModel Api AccLibm AccDensProof GasCase PropsLogger NearIdeal.
Import ListNotations.
Local Open Scope R_scope.

(* DETAIL, gas constant 8.31451: the density is that of the ideal gas, up to 0.036 % per kPa *)
Theorem C70_detail : forall m, accurate m -> forall c : @Composition (ArithB64 m), gas_comp m c -> forall i t P, gas_range t P ->
  exists s, @dexec (ArithB64 m) Api.New (measure (A := ArithB64 m) i c t P) = Some (s, measured (A := ArithB64 m)) /\
    fin (dread (A := ArithB64 m) PD s) /\ nearly (831451 / 100000) (bR t) (bR P) (bR (dread (A := ArithB64 m) PD s)).
Proof. exact detail_nearly. Qed.
Print Assumptions C70_detail.
(* GERG-2008, gas constant 8.314472 *)
Theorem C70_gerg : forall m, accurate m -> forall c : @Composition (ArithB64 m), gas_comp m c -> forall i t P, (i <= 0)%Z -> gas_range t P ->
  exists s, @gexec (ArithB64 m) Api.New (measure (A := ArithB64 m) i c t P) = Some (s, measured (A := ArithB64 m)) /\
    fin (gread (A := ArithB64 m) PD s) /\ nearly (8314472 / 1000000) (bR t) (bR P) (bR (gread (A := ArithB64 m) PD s)).
Proof. exact gerg_nearly. Qed.
Print Assumptions C70_gerg.
(* the same gas, temperature and pressure in both: the two densities differ by at most 0.076 % per kPa (and 1e-5) *)
Theorem C70_agree : forall m, accurate m -> forall c : @Composition (ArithB64 m), gas_comp m c -> forall i j t P, (j <= 0)%Z -> gas_range t P ->
  exists s1 s2, @dexec (ArithB64 m) Api.New (measure (A := ArithB64 m) i c t P) = Some (s1, measured (A := ArithB64 m)) /\
    @gexec (ArithB64 m) Api.New (measure (A := ArithB64 m) j c t P) = Some (s2, measured (A := ArithB64 m)) /\
    agree (bR P) (bR (dread (A := ArithB64 m) PD s1)) (bR (gread (A := ArithB64 m) PD s2)).
Proof. exact models_agree. Qed.
Print Assumptions C70_agree.

(* 57/64 methane, 2/64 nitrogen, 1/64 carbon dioxide, 3/64 ethane, 1/64 propane at 1 kPa and 288 K: both densities within 0.04 % of 1 / (8.3145 * 288), and within 0.08 % of each other *)
Example C70_case : accurate best /\ gas_comp best (mix best 57 3) /\ gas_range (bofZ 288) (bofZ 1) /\
  36 / 100000 * bR (bofZ 1) + 2 / 10000000 <= 4 / 10000 /\ 76 / 100000 * bR (bofZ 1) + 1 / 100000 <= 8 / 10000.
Proof.
  split; [exact best_accurate|]. split; [apply mix_ok; lia|]. unfold gas_range. rewrite !ofZ_R by reflexivity.
  split; [split; (split; [reflexivity|lra])|]. lra.
Qed.
