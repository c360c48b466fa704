(* C52 in double precision: density() may report Ok at a density whose pressure, evaluated by pressure() right after
   or by exact arithmetic, is a thousandth of the one asked for, whatever accurate mathematical library is used. *)
From Coq Require Import List ZArith Reals Lra Lia.
From Flocq Require Import Core BinarySingleNaN.
From Verif Require Import Prelude FArith ArithB64 B64Lemmas ArithR DetailModel Api SpecGeneric SpecHistory SpecDetail SpecAcc SpecStd B64Err AccLibm SlopeCase GergModel SpecGerg SpecReal GAllCase FalseDbl FalseDblG.
Import ListNotations.
Local Open Scope R_scope.

Lemma dd_half m : accurate m -> ~ (forall k l i (s : @Detail (ArithB64 m)) r (p : b64),
  @dexec (ArithB64 m) k (l ++ [Density (A := ArithB64 m) i; Pressure (A := ArithB64 m)]) = Some (s, r ++ [ODens (A := ArithB64 m) ROk; OVal (A := ArithB64 m) p]) ->
  let P := dread (A := ArithB64 m) PP s in fin P -> 0 < bR P -> fin p /\ Rabs (bR p - bR P) <= 1 / 2 * bR P).
Proof.
  intros A H. destruct (false_double m A) as (g & s & p & E & _ & EP & _ & _ & Hp).
  specialize (H Api.New [SetX (A := ArithB64 m) ch4b; Poke (A := ArithB64 m) PT (bofZ 150); Poke (A := ArithB64 m) PP (bofZ 5000); Poke (A := ArithB64 m) PD (Bopp g)] 0%Z s [OUnit; OUnit; OUnit; OUnit] p E).
  cbv zeta in H. rewrite EP in H. rewrite PR in H. destruct (H eq_refl ltac:(lra)) as [_ B]. revert B. unfold Rabs. destruct (Rcase_abs _); lra.
Qed.

Lemma gd_half m : accurate m -> ~ (forall k l i (s : @Gerg (ArithB64 m)) r (p : b64),
  @gexec (ArithB64 m) k (l ++ [Density (A := ArithB64 m) i; Pressure (A := ArithB64 m)]) = Some (s, r ++ [ODens (A := ArithB64 m) ROk; OVal (A := ArithB64 m) p]) ->
  let P := gread (A := ArithB64 m) PP s in fin P -> 0 < bR P -> fin p /\ Rabs (bR p - bR P) <= 1 / 2 * bR P).
Proof.
  intros A H. destruct (gfalse_double m A) as (g & s & p & E & _ & EP & _ & _ & Hp).
  specialize (H Api.New [SetX (A := ArithB64 m) ch4d; Poke (A := ArithB64 m) PT (bofZ 150); Poke (A := ArithB64 m) PP (bofZ 5000); Poke (A := ArithB64 m) PD (Bopp g)] 0%Z s [OUnit; OUnit; OUnit; OUnit] p E).
  cbv zeta in H. rewrite EP in H. rewrite gPR in H. destruct (H eq_refl ltac:(lra)) as [_ B]. revert B. unfold Rabs. destruct (Rcase_abs _); lra.
Qed.

Theorem C52_detail_double_refuted : forall m, accurate m -> ~ (forall k l i (s : @Detail (ArithB64 m)) r (p : b64),
  @dexec (ArithB64 m) k (l ++ [Density (A := ArithB64 m) i; Pressure (A := ArithB64 m)]) = Some (s, r ++ [ODens (A := ArithB64 m) ROk; OVal (A := ArithB64 m) p]) ->
  let P := dread (A := ArithB64 m) PP s in fin P -> 0 < bR P -> fin p /\ Rabs (bR p - bR P) <= 1 / 2 * bR P).
Proof. exact dd_half. Qed.
Print Assumptions C52_detail_double_refuted.

(* the inputs: methane at 150 K and 5000 kPa, search started by the caller near 21.85 mol/l *)
Theorem C52_detail_double_refuted_witness : forall m, accurate m -> exists (g : b64) s (ph : b64),
  @dexec (ArithB64 m) Api.New [SetX (A := ArithB64 m) ch4b; Poke (A := ArithB64 m) PT (bofZ 150); Poke (A := ArithB64 m) PP (bofZ 5000); Poke (A := ArithB64 m) PD (Bopp g); Density (A := ArithB64 m) 0; Pressure (A := ArithB64 m)]
    = Some (s, [OUnit; OUnit; OUnit; OUnit; ODens (A := ArithB64 m) ROk; OVal (A := ArithB64 m) ph]) /\
  (fin g /\ 21 <= bR g <= 22) /\ dread (A := ArithB64 m) PP s = bofZ 5000 /\
  (fin (dread (A := ArithB64 m) PD s) /\ -1 < detail_p (fun j => bR (ch4b j)) (bR (bofZ 150)) (bR (dread (A := ArithB64 m) PD s)) < 1) /\
  fin ph /\ -1 < bR ph < 1.
Proof. exact false_double. Qed.
Print Assumptions C52_detail_double_refuted_witness.

Theorem C52_gerg_double_refuted : forall m, accurate m -> ~ (forall k l i (s : @Gerg (ArithB64 m)) r (p : b64),
  @gexec (ArithB64 m) k (l ++ [Density (A := ArithB64 m) i; Pressure (A := ArithB64 m)]) = Some (s, r ++ [ODens (A := ArithB64 m) ROk; OVal (A := ArithB64 m) p]) ->
  let P := gread (A := ArithB64 m) PP s in fin P -> 0 < bR P -> fin p /\ Rabs (bR p - bR P) <= 1 / 2 * bR P).
Proof. exact gd_half. Qed.
Print Assumptions C52_gerg_double_refuted.

(* the inputs: methane at 150 K and 5000 kPa, search started by the caller near 22.14 mol/l *)
Theorem C52_gerg_double_refuted_witness : forall m, accurate m -> exists (g : b64) s (ph : b64),
  @gexec (ArithB64 m) Api.New [SetX (A := ArithB64 m) ch4d; Poke (A := ArithB64 m) PT (bofZ 150); Poke (A := ArithB64 m) PP (bofZ 5000); Poke (A := ArithB64 m) PD (Bopp g); Density (A := ArithB64 m) 0; Pressure (A := ArithB64 m)]
    = Some (s, [OUnit; OUnit; OUnit; OUnit; ODens (A := ArithB64 m) ROk; OVal (A := ArithB64 m) ph]) /\
  (fin g /\ 22 <= bR g <= 23) /\ gread (A := ArithB64 m) PP s = bofZ 5000 /\
  (fin (gread (A := ArithB64 m) PD s) /\ -1 < gpres Api.New (fun j => bR (ch4d j)) (bR (bofZ 150)) (bR (gread (A := ArithB64 m) PD s)) < 1) /\
  fin ph /\ -1 < bR ph < 1.
Proof. exact gfalse_double. Qed.
Print Assumptions C52_gerg_double_refuted_witness.

Example C52_double_case : accurate best /\ bR (bofZ 150) = 150 /\ bR (bofZ 5000) = 5000 /\ (fun j => bR (ch4b j)) = SpecDetail.nn ConvCase.ch4 /\ (fun j => bR (ch4d j)) = ac ConvCaseG.ch4g.
Proof. split; [exact best_accurate|]. split; [exact tR|]. split; [exact PR|]. split; [exact xR|exact gxR]. Qed.
