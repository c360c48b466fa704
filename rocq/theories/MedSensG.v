(* How the density that density() finds follows pressure and temperature, natural gas up to 1.0 MPa with GERG-2008. *)
From Coq Require Import Reals ZArith List Bool Lra Lia Psatz.
From Coquelicot Require Import Coquelicot.
From Flocq Require Import Core BinarySingleNaN.
From Verif Require Import FArith Prelude Composition ArithB64 B64Lemmas ArithR StdGerg GergTables StdGergProof GAccEos SpecB64 SpecStd SpecGas SpecAcc SpecConv SpecGerg SpecReal SpecGeneric SpecHistory SpecSession SpecSens SpecMedSensG GergEos GergModel Api AccLibm ConvDetail ConvGerg GDensProof GConvLow GasRed2 GasRed3 MedCaseG MedSlopeG Session SensCore SensDetail Sens MedSens.
Import ListNotations.
Local Open Scope R_scope.

Section P.
Variable x : nat -> b64.
Local Notation r := (fun j => bR (x j)).
Hypothesis Hx : forall j, (1 <= j < 22)%nat -> fin (x j) /\ (bR (x j) = 0 \/ bpow radix2 (-49) <= bR (x j)).
Hypothesis Hg : natural_gas (fun j => bR (x (S j))).
Lemma medg_sens T1 T2 d1 d2 : 270 <= T1 <= 350 -> 270 <= T2 <= 350 -> 0 < d1 <= 5569 / 10000 -> 0 < d2 <= 5569 / 10000 ->
  Rabs (ln d2 - ln d1 - (ln (gpres New r T2 d2) - ln (gpres New r T1 d1) - (ln T2 - ln T1))) <= 1521 / 10000 * Rabs (ln d2 - ln d1) + 3895 / 10000 * Rabs (ln T2 - ln T1).
Proof.
  intros H1 H2 G1 G2.
  assert (Q : forall T d, 270 <= T <= 350 -> 0 < d <= 5569 / 10000 -> 0 < gpres New r T d /\
    (exists q, is_derive (gpres New r T) d q /\ Rabs (d * q - gpres New r T d) <= 1521 / 10000 * gpres New r T d) /\
    (exists q, is_derive (fun T => gpres New r T d) T q /\ Rabs (T * q - gpres New r T d) <= 3895 / 10000 * gpres New r T d)).
  { intros T d HT Hd. destruct (gp_slopes x Hx Hg T d HT Hd) as (z & w & u & E & P1 & P2 & Z & W & U). assert (PRg : Rg = 8314472 / 1000000) by reflexivity.
    assert (G : 0 < d * Rg * T) by (apply Rmult_lt_0_compat; [apply Rmult_lt_0_compat; lra|lra]).
    assert (AW : Rabs w <= 1521 / 10000 * (868 / 1000)) by (apply Rabs_le; lra). assert (AV : Rabs (- u) <= 3895 / 10000 * (868 / 1000)) by (apply Rabs_le; lra).
    destruct (slope_le2 (d * Rg * T) z w (1521 / 10000) (868 / 1000) G) as [S1 S2]; [lra..|]. destruct (slope_le2 (d * Rg * T) z (- u) (3895 / 10000) (868 / 1000) G) as [_ S3]; [lra..|].
    rewrite E. split; [exact S1|]. split.
    - eexists. split; [exact P1|]. replace (d * (Rg * T * (1 + z + w))) with (d * Rg * T * (1 + z + w)) by ring. exact S2.
    - eexists. split; [exact P2|]. replace (T * (d * Rg * (1 + z - u))) with (d * Rg * T * (1 + z + - u)) by ring. exact S3. }
  exact (sens (gpres New r) 270 350 (5569 / 10000) (1521 / 10000) (3895 / 10000) ltac:(lra)
    (fun T d HT Hd => proj1 (Q T d HT Hd)) (fun T d HT Hd => proj1 (proj2 (Q T d HT Hd))) (fun T d HT Hd => proj2 (proj2 (Q T d HT Hd))) T1 T2 d1 d2 H1 H2 G1 G2).
Qed.
End P.

Section D.
Variable m : Libm.
Variable A : accurate m.
Local Notation B := (ArithB64 m).
Variable c : @Composition B.
Hypothesis Hc : gas_comp m c.
Local Notation xg := (fun j => match j with O => B0 | S k => nth k (bfractions m c) B0 end).
Lemma line_measure_g i t P : (i <= 0)%Z -> line_range_g t P -> exists s e, @gexec B Api.New (measure (A := B) i c t P) = Some (s, measured (A := B)) /\ fin (gread (A := B) PD s) /\
  0 < e <= 5569 / 10000 /\ gpres Api.New (fun j => bR (xg j)) (bR t) e = bR P /\ Rabs (bR (gread (A := B) PD s) - e) <= 1 / 10000000 * e.
Proof.
  intros Hi [Ht [FP HP]]. destruct Hc as (Hx & Hg & Hs). assert (PRg : Rg = 8314472 / 1000000) by reflexivity.
  destruct (medg_gerg m A xg t P i Hi) as (s & e & E & Fd & _ & N & Re & Pe & _); try assumption.
  { intros [|j] Hj; [lia|]. apply (Hx j). lia. }
  { split; [exact FP|lra]. }
  exists s, e. split; [apply (gset_comp (A := B) c xg); [exact (gas_check m c Hc)|reflexivity|exact E]|]. split; [exact Fd|]. split; [|split; [exact Pe|exact N]].
  destruct Ht as [_ Ht]. assert (S : bR P / Rg / bR t * (Rg * bR t) = bR P) by (field; lra). set (d0 := bR P / Rg / bR t) in *. clearbody d0. cbv zeta in Re. rewrite PRg in S. clear - S Re Ht HP. split; nra.
Qed.
Lemma line_follows_g i j t1 P1 t2 P2 : (i <= 0)%Z -> (j <= 0)%Z -> line_range_g t1 P1 -> line_range_g t2 P2 ->
  exists s1 s2, @gexec B Api.New (measure (A := B) i c t1 P1) = Some (s1, measured (A := B)) /\ @gexec B Api.New (measure (A := B) j c t2 P2) = Some (s2, measured (A := B)) /\
    let d1 := gread (A := B) PD s1 in let d2 := gread (A := B) PD s2 in fin d1 /\ fin d2 /\ 0 < bR d1 /\ 0 < bR d2 /\
    follows (180 / 1000) (640 / 1000) (bR t1) (bR P1) (bR d1) (bR t2) (bR P2) (bR d2) /\ (denser (bR t1) (bR P1) (bR t2) (bR P2) -> bR d1 < bR d2).
Proof.
  intros Hi Hj G1 G2. destruct (line_measure_g i t1 P1 Hi G1) as (s1 & e1 & E1 & F1 & R1 & Q1 & N1). destruct (line_measure_g j t2 P2 Hj G2) as (s2 & e2 & E2 & F2 & R2 & Q2 & N2).
  exists s1, s2. split; [exact E1|]. split; [exact E2|]. cbv zeta. split; [exact F1|]. split; [exact F2|]. clear E1 E2 F1 F2.
  set (d1 := gread PD s1) in *. set (d2 := gread PD s2) in *. clearbody d1 d2. destruct G1 as [[_ T1] [_ Pr1]]. destruct G2 as [[_ T2] [_ Pr2]].
  destruct Hc as (Hx & Hg & _).
  assert (Hx' : forall j, (1 <= j < 22)%nat -> fin (xg j) /\ (bR (xg j) = 0 \/ bpow radix2 (-49) <= bR (xg j))) by (intros [|k] Hk; [lia|]; apply (Hx k); lia).
  pose proof (medg_sens xg Hx' Hg (bR t1) (bR t2) e1 e2 T1 T2 R1 R2) as S. cbv beta in S. rewrite Q1, Q2 in S.
  destruct (follow_of2 (1521 / 10000) (3895 / 10000) (180 / 1000) (640 / 1000) (bR t1) (bR P1) (bR d1) e1 (bR t2) (bR P2) (bR d2) e2) as (D1 & D2 & Fo); trivial; [lra..|].
  split; [exact D1|]. split; [exact D2|]. split; [exact Fo|]. intros De. apply (follows_order2 (180 / 1000) (640 / 1000) (bR t1) (bR P1) (bR d1) (bR t2) (bR P2) (bR d2)); trivial; lra.
Qed.
End D.
