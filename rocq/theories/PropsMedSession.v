(* C75: C65 and C66 at line pressure.  A natural gas up to 1.2 MPa (DETAIL) or 1.0 MPa (GERG-2008): a Rust program, a C program, and one object used for one reading
   after another, in IEEE double precision.  Specification: SpecSession (gas_comp, session, reported), SpecLogger (evaluate), SpecMedLogger (readings_upto),
   SpecMedState (medium_state), SpecMedStateG (medium_state_g). *)
From Coq Require Import Reals ZArith List Lra Lia.
From Flocq Require Import Core BinarySingleNaN.
From Verif Require Import FArith Prelude Composition ArithB64 B64Lemmas ArithR SpecB64 SpecGeneric SpecHistory SpecGerg SpecStd SpecGas SpecAcc SpecSession SpecLogger SpecMedState SpecMedStateG SpecMedLogger
  DetailModel GergModel Api Ffi AccLibm AccAllCase AccDensProof MedSession.
From Verif Require PropsLogger.
Import ListNotations.
Local Open Scope R_scope.

Theorem C75_rust_detail : forall m, accurate m -> forall (c : @Composition (ArithB64 m)) (t P : b64), gas_comp m c -> fin t /\ 270 <= bR t <= 350 -> forall i, fin P /\ 1 / 10 <= bR P <= 1200 ->
  exists s, @dexec (ArithB64 m) Api.New [SetComp (A := ArithB64 m) c; Poke (A := ArithB64 m) PT t; Poke (A := ArithB64 m) PP P; Density (A := ArithB64 m) i; Properties (A := ArithB64 m)]
      = Some (s, [OComp (A := ArithB64 m) ROk; OUnit; OUnit; ODens (A := ArithB64 m) ROk; OUnit]) /\
    medium_state (831451 / 100000) (bR t) (bR P) (bR (dread (A := ArithB64 m) PP s)) (fun k => dread (A := ArithB64 m) k s).
Proof. exact rust_detail. Qed.
Print Assumptions C75_rust_detail.
Theorem C75_rust_gerg : forall m, accurate m -> forall (c : @Composition (ArithB64 m)) (t P : b64), gas_comp m c -> fin t /\ 270 <= bR t <= 350 -> forall i, fin P /\ 1 / 10 <= bR P <= 1000 -> (i <= 0)%Z ->
  exists s v, @gexec (ArithB64 m) Api.New [SetComp (A := ArithB64 m) c; Poke (A := ArithB64 m) PT t; Poke (A := ArithB64 m) PP P; Density (A := ArithB64 m) i; Properties (A := ArithB64 m)]
      = Some (s, [OComp (A := ArithB64 m) ROk; OUnit; OUnit; ODens (A := ArithB64 m) ROk; OVal (A := ArithB64 m) v]) /\ fin v /\
    medium_state_g Rg (bR t) (bR P) (bR v) (fun k => gread (A := ArithB64 m) k s).
Proof. exact rust_gerg. Qed.
Print Assumptions C75_rust_gerg.

(* C, from any state of memory: no panic, no undefined behaviour, both error codes 0, sensible numbers, and no other object touched *)
Theorem C75_c_detail : forall m, accurate m -> forall (c : @Composition (ArithB64 m)) (t P : b64), gas_comp m c -> fin t /\ 270 <= bR t <= 350 -> forall a h, fin P /\ 1 / 10 <= bR P <= 1200 -> a <> null ->
  exists h' q t' p, ffi_run (A := ArithB64 m) (session (A := ArithB64 m) KDetail a c t P) h = Ret (A := ArithB64 m) h' (no_error (A := ArithB64 m) a q t' p) /\ elsewhere a h h' /\
    medium_state (831451 / 100000) (bR t) (bR P) (bR p) (reported m q t' p).
Proof. exact c_detail. Qed.
Print Assumptions C75_c_detail.
Theorem C75_c_gerg : forall m, accurate m -> forall (c : @Composition (ArithB64 m)) (t P : b64), gas_comp m c -> fin t /\ 270 <= bR t <= 350 -> forall a h, fin P /\ 1 / 10 <= bR P <= 1000 -> a <> null ->
  exists h' q t' p, ffi_run (A := ArithB64 m) (session (A := ArithB64 m) KGerg a c t P) h = Ret (A := ArithB64 m) h' (no_error (A := ArithB64 m) a q t' p) /\ elsewhere a h h' /\
    medium_state_g Rg (bR t) (bR P) (bR p) (reported m q t' p).
Proof. exact c_gerg. Qed.
Print Assumptions C75_c_gerg.

(* any number of readings on one object: after the last one, as after each one before, sensible fields that are, bit for bit, those of a new object *)
Theorem C75_log_detail : forall m, accurate m -> forall i (l : list (reading m)) (r : reading m), readings_upto m 1200 (l ++ [r]) ->
  exists s o, @dexec (ArithB64 m) Api.New (evaluate_all m i (l ++ [r])) = Some (s, o ++ [OComp (A := ArithB64 m) ROk; OUnit; OUnit; ODens (A := ArithB64 m) ROk; OUnit]) /\
    medium_state (831451 / 100000) (bR (r_t r)) (bR (r_p r)) (bR (dread (A := ArithB64 m) PP s)) (fun k => dread (A := ArithB64 m) k s) /\
    exists s', @dexec (ArithB64 m) Api.New (evaluate (A := ArithB64 m) i (r_c r) (r_t r) (r_p r)) = Some (s', [OComp (A := ArithB64 m) ROk; OUnit; OUnit; ODens (A := ArithB64 m) ROk; OUnit]) /\
      dsame (A := ArithB64 m) s s'.
Proof. exact logger_detail. Qed.
Print Assumptions C75_log_detail.
Theorem C75_log_gerg : forall m, accurate m -> forall i, (i <= 0)%Z -> forall (l : list (reading m)) (r : reading m), readings_upto m 1000 (l ++ [r]) ->
  exists s o v, @gexec (ArithB64 m) Api.New (evaluate_all m i (l ++ [r])) = Some (s, o ++ [OComp (A := ArithB64 m) ROk; OUnit; OUnit; ODens (A := ArithB64 m) ROk; OVal (A := ArithB64 m) v]) /\ fin v /\
    medium_state_g Rg (bR (r_t r)) (bR (r_p r)) (bR v) (fun k => gread (A := ArithB64 m) k s) /\
    exists s', @gexec (ArithB64 m) Api.New (evaluate (A := ArithB64 m) i (r_c r) (r_t r) (r_p r)) = Some (s', [OComp (A := ArithB64 m) ROk; OUnit; OUnit; ODens (A := ArithB64 m) ROk; OVal (A := ArithB64 m) v]) /\
      gsame (A := ArithB64 m) s s'.
Proof. exact logger_gerg. Qed.
Print Assumptions C75_log_gerg.

(* three readings of the mixtures of C66: 700 kPa, 950 kPa one degree warmer, and 5 kPa of another gas *)
Example C75_case : accurate best /\ gas_comp best (PropsLogger.mix best 57 3) /\
  readings_upto best 1000 ([mkReading (PropsLogger.mix best 57 3) (bofZ 288) (bofZ 700); mkReading (PropsLogger.mix best 57 3) (bofZ 289) (bofZ 950)] ++ [mkReading (PropsLogger.mix best 58 2) (bofZ 288) (bofZ 5)]) /\
  forall l, readings_upto best 1000 l -> readings_upto best 1200 l.
Proof.
  split; [exact best_accurate|].
  assert (M1 : gas_comp best (PropsLogger.mix best 57 3)) by (apply PropsLogger.mix_ok; lia). assert (M2 : gas_comp best (PropsLogger.mix best 58 2)) by (apply PropsLogger.mix_ok; lia).
  assert (X1 : bR (nth 0 (bfractions best (PropsLogger.mix best 57 3)) B0) = 57 / 64) by exact (proj2 (PropsLogger.mix_R best 57 3 0 ltac:(lia) ltac:(lia))).
  assert (X2 : bR (nth 0 (bfractions best (PropsLogger.mix best 58 2)) B0) = 58 / 64) by exact (proj2 (PropsLogger.mix_R best 58 2 0 ltac:(lia) ltac:(lia))).
  assert (D : 2 / 10000000 < Rabs (57 / 64 - 58 / 64)) by (rewrite Rabs_left; lra). assert (D' : 2 / 10000000 < Rabs (58 / 64 - 57 / 64)) by (rewrite Rabs_right; lra).
  assert (T : 2 / 10000000 < Rabs (288 - 289)) by (rewrite Rabs_left; lra). assert (T' : 2 / 10000000 < Rabs (289 - 288)) by (rewrite Rabs_right; lra).
  split; [exact M1|]. split.
  - split.
    + assert (Q : forall c t p, gas_comp best c -> fin (bofZ t) -> fin (bofZ p) -> (Z.abs t < 1000)%Z -> (Z.abs p < 1000)%Z -> (270 <= t <= 350)%Z -> (1 <= p <= 1000)%Z -> reading_upto best 1000 (mkReading c (bofZ t) (bofZ p))).
      { intros c t p Hc Ft Fp At Ap Ht Hp. split; [exact Hc|]. cbn [r_t r_p]. rewrite !ofZ_R by lia. assert (270 <= IZR t <= 350) by (split; apply IZR_le; lia). assert (1 <= IZR p <= 1000) by (split; apply IZR_le; lia).
        split; (split; [assumption|lra]). }
      apply Forall_forall. intros r [<-|[<-|[<-|[]]]]; (apply Q; [assumption|reflexivity|reflexivity|lia|lia|lia|lia]).
    + intros a b [<-|[<-|[<-|[]]]] [<-|[<-|[<-|[]]]]; (split; [cbn [r_c]; first [now left|right; exists 0%nat; split; [lia|rewrite X1, X2; assumption]]|cbn [r_t]; first [now left|right; rewrite !ofZ_R by reflexivity; assumption]]).
  - intros l [H1 H2]. split; [|exact H2]. eapply Forall_impl; [|exact H1]. intros r (Hc & Ht & Fp & Hp). split; [exact Hc|]. split; [exact Ht|]. split; [exact Fp|lra].
Qed.
