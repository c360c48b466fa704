(* From amounts in any unit to the numbers of a C program, at line pressure. *)
From Coq Require Import Reals ZArith List Bool Lra Lia.
From Flocq Require Import Core BinarySingleNaN.
From Verif Require Import FArith Prelude Composition DetailModel GergModel Api Ffi ArithB64 SpecB64 SpecGerg SpecStd SpecGas SpecAcc SpecSession SpecMedState SpecMedStateG SpecRound SpecRoundC.
From Verif Require Session2 MedSession RoundC.
Import ListNotations.
Local Open Scope R_scope.

Section X.
Variable m : Libm.
Variable A : accurate m.
Local Notation B := (ArithB64 m).
Variable c : @Composition B.
Hypothesis Hc : gas_amounts m c.
Variable t : b64.
Hypothesis Ht : fin t /\ 270 <= bR t <= 350.
Lemma amounts_detail : exists c', comp_normalize (A := B) c = (c', ROk) /\ forall a h, a <> null ->
  (forall P, fin P /\ 1 / 10 <= bR P <= 1200 -> exists h' q t' p, ffi_run (A := B) (session (A := B) KDetail a c' t P) h = Ret (A := B) h' (no_error (A := B) a q t' p) /\ elsewhere a h h' /\
    medium_state (831451 / 100000) (bR t) (bR P) (bR p) (reported m q t' p)) /\
  (forall d, fin d /\ 1 / 10000 <= bR d <= 55 / 100 -> exists h' v d', ffi_run (A := B) (round_c (A := B) KDetail a c' t d v) h = Ret (A := B) h' (round_answers (A := B) a v d') /\ elsewhere a h h' /\
    fin v /\ fin d' /\ returns (bR d) (bR d')).
Proof.
  destruct (Session2.normalize_gas m c Hc) as (c' & E & G). exists c'. split; [exact E|]. intros a h N. split.
  - intros P HP. exact (MedSession.c_detail m A c' t P G Ht a h HP N).
  - intros d Hd. exact (RoundC.c_round_detail m A c' G t d Ht a h Hd N).
Qed.
Lemma amounts_gerg : exists c', comp_normalize (A := B) c = (c', ROk) /\ forall a h, a <> null ->
  (forall P, fin P /\ 1 / 10 <= bR P <= 1000 -> exists h' q t' p, ffi_run (A := B) (session (A := B) KGerg a c' t P) h = Ret (A := B) h' (no_error (A := B) a q t' p) /\ elsewhere a h h' /\
    medium_state_g Rg (bR t) (bR P) (bR p) (reported m q t' p)) /\
  (forall d, fin d /\ 1 / 10000 <= bR d <= 40 / 100 -> exists h' v d', ffi_run (A := B) (round_c (A := B) KGerg a c' t d v) h = Ret (A := B) h' (round_answers (A := B) a v d') /\ elsewhere a h h' /\
    fin v /\ fin d' /\ returns (bR d) (bR d')).
Proof.
  destruct (Session2.normalize_gas m c Hc) as (c' & E & G). exists c'. split; [exact E|]. intros a h N. split.
  - intros P HP. exact (MedSession.c_gerg m A c' t P G Ht a h HP N).
  - intros d Hd. exact (RoundC.c_round_gerg m A c' G t d Ht a h Hd N).
Qed.
End X.
