(* C66: one object may be used for one reading after another.  Specification: SpecLogger (evaluate, readings_ok), SpecHistory (separated), SpecGasState (gas_state). *)
From Coq Require Import Reals ZArith List Lra Lia.
From Flocq Require Import Core BinarySingleNaN.
From Verif Require Import FArith Prelude Composition ArithB64 B64Lemmas ArithR SpecB64 SpecGeneric SpecHistory SpecGerg SpecStd SpecGas SpecAcc SpecGasState SpecSession SpecLogger
  DetailModel GergModel Api AccLibm AccAllCase DriftWit AccDensProof GasCase ReuseDetail ReuseGerg Logger.
Import ListNotations.
Local Open Scope R_scope.

(* any arithmetic, any earlier use of the object: composition, temperature and pressure set, density() and properties() give the answers and all the fields of a new object.
   Required: the composition is accepted, the density found before is not negative (a negative one is a guess), and the inputs of the history are equal or told apart by the code's 1e-7 comparison *)
Theorem C66_reuse_detail : forall A : Arith, flt (fneg EPSILON) f0 = true -> forall k l s r c t p i, dexec k l = Some (s, r) -> comp_check c = ROk -> flt (fneg EPSILON) (d_d s) = true ->
  separated 0 (dasked (l ++ evaluate i c t p)) ->
  exists s1 s2 r2, drun (evaluate i c t p) s = Some (s1, r2) /\ dexec k (evaluate i c t p) = Some (s2, r2) /\ dsame s1 s2.
Proof. exact (@dreuse). Qed.
Print Assumptions C66_reuse_detail.
Theorem C66_reuse_gerg : forall A : Arith, flt (fneg GEPSILON) f0 = true -> forall k l s r c t p i, gexec k l = Some (s, r) -> comp_check c = ROk -> flt (fneg GEPSILON) (g_d s) = true ->
  separated 1 (gasked (l ++ evaluate i c t p)) ->
  exists s1 s2 r2, grun (evaluate i c t p) s = Some (s1, r2) /\ gexec k (evaluate i c t p) = Some (s2, r2) /\ gsame s1 s2.
Proof. exact (@greuse). Qed.
Print Assumptions C66_reuse_gerg.

(* a list of readings of natural gas of any length in double precision: after the last one, as after each one before, the composition was accepted, density() succeeded,
   the fields are sensible for that reading and are, bit for bit, those of a new object *)
Theorem C66_log_detail : forall m, accurate m -> forall i (l : list (reading m)) (r : reading m), readings_ok m (l ++ [r]) ->
  exists s o, @dexec (ArithB64 m) Api.New (evaluate_all m i (l ++ [r])) = Some (s, o ++ [OComp (A := ArithB64 m) ROk; OUnit; OUnit; ODens (A := ArithB64 m) ROk; OUnit]) /\
    gas_state (831451 / 100000) (bR (r_t r)) (bR (r_p r)) (bR (dread (A := ArithB64 m) PP s)) (fun k => dread (A := ArithB64 m) k s) /\
    exists s', @dexec (ArithB64 m) Api.New (evaluate (A := ArithB64 m) i (r_c r) (r_t r) (r_p r)) = Some (s', [OComp (A := ArithB64 m) ROk; OUnit; OUnit; ODens (A := ArithB64 m) ROk; OUnit]) /\
      dsame (A := ArithB64 m) s s'.
Proof. exact logger_detail. Qed.
Print Assumptions C66_log_detail.
Theorem C66_log_gerg : forall m, accurate m -> forall i, (i <= 0)%Z -> forall (l : list (reading m)) (r : reading m), readings_ok m (l ++ [r]) ->
  exists s o v, @gexec (ArithB64 m) Api.New (evaluate_all m i (l ++ [r])) = Some (s, o ++ [OComp (A := ArithB64 m) ROk; OUnit; OUnit; ODens (A := ArithB64 m) ROk; OVal (A := ArithB64 m) v]) /\ fin v /\
    gas_state Rg (bR (r_t r)) (bR (r_p r)) (bR v) (fun k => gread (A := ArithB64 m) k s) /\
    exists s', @gexec (ArithB64 m) Api.New (evaluate (A := ArithB64 m) i (r_c r) (r_t r) (r_p r)) = Some (s', [OComp (A := ArithB64 m) ROk; OUnit; OUnit; ODens (A := ArithB64 m) ROk; OVal (A := ArithB64 m) v]) /\
      gsame (A := ArithB64 m) s s'.
Proof. exact logger_gerg. Qed.
Print Assumptions C66_log_gerg.

(* three readings: the second at another temperature and pressure, the third of another gas *)
Definition mix (m : Libm) (a d : Z) : @Composition (ArithB64 m) :=
  let z := B0 in @mkComposition (ArithB64 m) (bdy a (-6)) (bdy 2 (-6)) (bdy 1 (-6)) (bdy d (-6)) (bdy 1 (-6)) z z z z z z z z z z z z z z z z.
Lemma mix_R m a d i : (0 <= a < 100)%Z -> (0 <= d < 100)%Z -> fin (nth i (bfractions m (mix m a d)) B0) /\ bR (nth i (bfractions m (mix m a d)) B0) = nth i [IZR a; 2; 1; IZR d; 1] 0 / 64.
Proof.
  assert (H : forall z, (0 <= z < 100)%Z -> fin (bdy z (-6)) /\ bR (bdy z (-6)) = IZR z / 64).
  { intros z Hz. destruct (bdy_R z (-6) ltac:(lia) ltac:(lia)) as [F E]. split; [exact F|]. rewrite E. replace (bpow radix2 (-6)) with (/ 64) by (cbn; lra). reflexivity. }
  intros Ha Hd. destruct i as [|i]; [exact (H a Ha)|]. destruct i as [|i]; [exact (H 2%Z ltac:(lia))|]. destruct i as [|i]; [exact (H 1%Z ltac:(lia))|].
  destruct i as [|i]; [exact (H d Hd)|]. destruct i as [|i]; [exact (H 1%Z ltac:(lia))|].
  do 16 (destruct i as [|i]; [split; [reflexivity|cbn; lra]|]). split; [destruct i; reflexivity|]. destruct i; cbn; lra.
Qed.
Lemma mix_ok m a d : (29 <= a)%Z -> (1 <= d <= 5)%Z -> (a + d = 60)%Z -> gas_comp m (mix m a d).
Proof.
  intros Ha Hd Hs. assert (R := fun i => mix_R m a d i ltac:(lia) ltac:(lia)).
  assert (Ra : 55 <= IZR a <= 59) by (split; apply IZR_le; lia). assert (Rd : 1 <= IZR d <= 5) by (split; apply IZR_le; lia). assert (Rs : IZR a + IZR d = 60) by (rewrite <- plus_IZR, Hs; reflexivity).
  assert (B : bpow radix2 (-49) <= / 64) by (replace (/ 64) with (bpow radix2 (-6)) by (cbn; lra); apply bpow_le; lia).
  assert (T : exact_sum m (mix m a d) = 1).
  { rewrite <- Session.tot_exact. cbn [tot]. rewrite !(proj2 (R _)). cbn [nth]. lra. }
  assert (Z : 0 < / 10 ^ 14) by (apply Rinv_0_lt_compat; lra).
  assert (Z2 : / 10 ^ 14 <= / 100) by (apply Rinv_le; lra).
  split; [|split].
  - intros i _. destruct (R i) as [F E]. split; [exact F|]. rewrite E. do 5 (destruct i as [|i]; [right; cbn [nth]; lra|]). left. destruct i; cbn [nth]; lra.
  - split; [|split].
    + rewrite (proj2 (R 0%nat)). cbn [nth]. lra.
    + intros i _. rewrite (proj2 (R i)). unfold gas_limit. do 21 (destruct i as [|i]; [cbn; lra|]). cbn. destruct i; cbn; lra.
    + rewrite Session.tot_exact, T. lra.
  - rewrite T. lra.
Qed.
Example C66_case : accurate best /\ readings_ok best ([mkReading (mix best 57 3) (bofZ 288) (bofZ 101); mkReading (mix best 57 3) (bofZ 289) (bofZ 100)] ++ [mkReading (mix best 58 2) (bofZ 288) (bofZ 99)]).
Proof.
  split; [exact best_accurate|].
  assert (M1 : gas_comp best (mix best 57 3)) by (apply mix_ok; lia). assert (M2 : gas_comp best (mix best 58 2)) by (apply mix_ok; lia).
  assert (X1 : bR (nth 0 (bfractions best (mix best 57 3)) B0) = 57 / 64) by exact (proj2 (mix_R best 57 3 0 ltac:(lia) ltac:(lia))).
  assert (X2 : bR (nth 0 (bfractions best (mix best 58 2)) B0) = 58 / 64) by exact (proj2 (mix_R best 58 2 0 ltac:(lia) ltac:(lia))).
  assert (D : 2 / 10000000 < Rabs (57 / 64 - 58 / 64)) by (rewrite Rabs_left; lra). assert (D' : 2 / 10000000 < Rabs (58 / 64 - 57 / 64)) by (rewrite Rabs_right; lra).
  assert (T : 2 / 10000000 < Rabs (288 - 289)) by (rewrite Rabs_left; lra). assert (T' : 2 / 10000000 < Rabs (289 - 288)) by (rewrite Rabs_right; lra).
  split.
  - assert (Q : forall c t p, gas_comp best c -> fin (bofZ t) -> fin (bofZ p) -> (Z.abs t < 1000)%Z -> (Z.abs p < 1000)%Z -> (270 <= t <= 350)%Z -> (1 <= p <= 110)%Z -> reading_ok best (mkReading c (bofZ t) (bofZ p))).
    { intros c t p Hc Ft Fp At Ap Ht Hp. split; [exact Hc|]. cbn [r_t r_p]. rewrite !ofZ_R by lia. assert (270 <= IZR t <= 350) by (split; apply IZR_le; lia). assert (1 <= IZR p <= 110) by (split; apply IZR_le; lia).
      split; (split; [assumption|lra]). }
    apply Forall_forall. intros r [<-|[<-|[<-|[]]]]; (apply Q; [assumption|reflexivity|reflexivity|lia|lia|lia|lia]).
  - intros a b [<-|[<-|[<-|[]]]] [<-|[<-|[<-|[]]]]; (split; [cbn [r_c]; first [now left|right; exists 0%nat; split; [lia|rewrite X1, X2; assumption]]|cbn [r_t]; first [now left|right; rewrite !ofZ_R by reflexivity; assumption]]).
Qed.
