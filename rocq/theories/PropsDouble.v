(* properties() and density() of DETAIL in double precision.  Specifications: SpecAcc and SpecSlope over the printed table
   (SpecStd), SpecConv, SpecHistory. *)
From Coq Require Import Reals ZArith List Bool Lra Lia.
From Coquelicot Require Import Coquelicot.
From Flocq Require Import Core BinarySingleNaN.
From Verif Require Import FArith Prelude ArithB64 B64Lemmas ArithR SpecDetail StdDetail SpecStd SpecAcc SpecSlope SpecConv SpecHistory SpecGeneric DetailModel Api BasicProofs B64Err AccLibm
  AccDens AccDensProof AccProps ConvFin ConvFinLow ConvCase SlopeCase.
Import ListNotations.
Local Open Scope R_scope.
Local Notation RR := (831451 / 100000).

(* C53: after any history whose inputs are equal or told apart, properties() writes p, z and dp/dd that differ from the
   printed equation and its derivative by at most 1.5e-10 of the sum of the sizes of the terms *)
Theorem C53_detail : forall m, accurate m -> forall l (s : @Detail (ArithB64 m)) o,
  @dexec (ArithB64 m) New l = Some (s, o) -> separated (A := ArithB64 m) 0 (dasked (A := ArithB64 m) (l ++ [Properties (A := ArithB64 m)])) ->
  let r j := bR (nth j (d_x s) B0) in let t := dread (A := ArithB64 m) PT s in let d := dread (A := ArithB64 m) PD s in
  (forall j, (j < 21)%nat -> fin (nth j (d_x s) B0) /\ (r j = 0 \/ bpow radix2 (-50) <= r j)) ->
  99 / 100 <= tot 21 r <= 101 / 100 -> fin t /\ 32 <= bR t <= 2048 ->
  fin d /\ bpow radix2 (-20) <= bR d -> detail_D r (bR d) <= 3 ->
  exists s', dstep (A := ArithB64 m) Properties s = Some (s', OUnit (A := ArithB64 m)) /\
    let p := dread (A := ArithB64 m) PP s' in let z := dread (A := ArithB64 m) PZ s' in let q := dread (A := ArithB64 m) PDpDd s' in
    fin p /\ Rabs (bR p - detail_p r (bR t) (bR d)) <= 3 / 20000000000 * (bR d * RR * bR t * detail_size r (bR t) (bR d)) /\
    fin z /\ Rabs (bR z - detail_Z r (bR t) (bR d)) <= 3 / 20000000000 * detail_size r (bR t) (bR d) /\
    fin q /\ Rabs (bR q - Derive (detail_p r (bR t)) (bR d)) <= 3 / 20000000000 * (RR * bR t * slope_size r (bR t) (bR d)).
Proof. exact props_fields. Qed.
Print Assumptions C53_detail.

(* C54: when density() returns Ok, the pressure of the printed equation at the density found is the pressure asked for
   up to 3.1e-7 of the sum of the sizes of the terms of d * dp/dd, or is itself below 2.5e-7 of that sum (the false
   convergence of C52) *)
Theorem C54_detail : forall m, accurate m -> forall l i (s s' : @Detail (ArithB64 m)) o,
  @dexec (ArithB64 m) New l = Some (s, o) -> separated (A := ArithB64 m) 0 (dasked (A := ArithB64 m) (l ++ [Density (A := ArithB64 m) i])) ->
  dstep (A := ArithB64 m) (Density i) s = Some (s', ODens (A := ArithB64 m) ROk) ->
  let r j := bR (nth j (d_x s) B0) in
  let T := dread (A := ArithB64 m) PT s in let P := dread (A := ArithB64 m) PP s in let d := dread (A := ArithB64 m) PD s' in
  (forall j, (j < 21)%nat -> fin (nth j (d_x s) B0) /\ (r j = 0 \/ bpow radix2 (-50) <= r j)) ->
  99 / 100 <= tot 21 r <= 101 / 100 -> fin T /\ 32 <= bR T <= 2048 -> fin P /\ 0 < bR P ->
  bpow radix2 (-19) <= bR d -> detail_D r (bR d) <= 299 / 100 ->
  let S := bR d * RR * bR T * slope_size r (bR T) (bR d) in
  Rabs (detail_p r (bR T) (bR d) - bR P) <= 31 / 100000000 * S \/ detail_p r (bR T) (bR d) <= 25 / 100000000 * S.
Proof. exact density_double. Qed.
Print Assumptions C54_detail.

(* C55: density() returns Ok after any such history where the gas is nearly ideal around the density the search starts
   from (dguess: p/R/t unless the caller left a negative d) and rounding errors are small; the density is the one root
   nearby up to 1e-7 *)
Theorem C55_detail : forall m, accurate m -> forall l i (s : @Detail (ArithB64 m)) o,
  @dexec (ArithB64 m) New l = Some (s, o) -> separated (A := ArithB64 m) 0 (dasked (A := ArithB64 m) (l ++ [Density (A := ArithB64 m) i])) ->
  let r j := bR (nth j (d_x s) B0) in
  let T := dread (A := ArithB64 m) PT s in let P := dread (A := ArithB64 m) PP s in
  let g := @dguess (ArithB64 m) s in let d0 := bR g in let p := detail_p r (bR T) in
  (forall j, (j < 21)%nat -> fin (nth j (d_x s) B0) /\ (r j = 0 \/ bpow radix2 (-50) <= r j)) ->
  99 / 100 <= tot 21 r <= 101 / 100 -> fin T /\ 32 <= bR T <= 2048 -> fin P -> 0 < bR P ->
  fin g /\ bpow radix2 (-18) <= d0 <= 300 -> detail_D r (3 * d0) <= 3 -> nearly_ideal p d0 (bR P) ->
  (forall d, d0 / 3 <= d <= 3 * d0 -> d * RR * bR T * slope_size r (bR T) d <= 10 * p d) ->
  exists s' e, dstep (A := ArithB64 m) (Density i) s = Some (s', ODens (A := ArithB64 m) ROk) /\ dframe (A := ArithB64 m) [PD; PZ] s s' /\
    let d := dread (A := ArithB64 m) PD s' in
    fin d /\ Rabs (p (bR d) - bR P) <= 1 / 10000000 * bR P /\ Rabs (bR d - e) <= 1 / 10000000 * e /\
    d0 / 3 <= e <= 3 * d0 /\ p e = bR P /\ forall e', d0 / 3 <= e' <= 3 * d0 -> p e' = bR P -> e' = e.
Proof. exact density_converges. Qed.
Print Assumptions C55_detail.

(* the conditions in terms of the printed table, for a new object: x, t and p assigned, then density() *)
Theorem C55_detail_low : forall m, accurate m -> forall (x : nat -> b64) (t P : b64) i, let r j := bR (x j) in
  (forall j, (j < 21)%nat -> fin (x j) /\ (r j = 0 \/ bpow radix2 (-50) <= r j)) ->
  99 / 100 <= tot 21 r <= 101 / 100 -> fin t /\ 32 <= bR t <= 2048 -> fin P ->
  let T := bR t in let d0 := bR P / RR / T in
  bpow radix2 (-17) <= d0 <= 290 -> detail_D r (4 * d0) <= 1 -> spread r T (4 * d0) <= 1 / 7 -> slope_top r T (4 * d0) <= 8 ->
  exists s e, @dexec (ArithB64 m) New [SetX (A := ArithB64 m) x; Poke (A := ArithB64 m) PT t; Poke (A := ArithB64 m) PP P; Density (A := ArithB64 m) i]
      = Some (s, [OUnit; OUnit; OUnit; ODens (A := ArithB64 m) ROk]) /\
    let d := dread (A := ArithB64 m) PD s in
    fin d /\ Rabs (detail_p r T (bR d) - bR P) <= 1 / 10000000 * bR P /\ Rabs (bR d - e) <= 1 / 10000000 * e /\
    7 / 8 * d0 <= e <= 7 / 6 * d0 /\ detail_p r T e = bR P /\ forall e', 0 < e' <= 2 * d0 -> detail_p r T e' = bR P -> e' = e.
Proof. exact low_double. Qed.
Print Assumptions C55_detail_low.

(* methane at 300 K and 300 kPa *)
Lemma case_low : let r j := bR (ch4b j) in let T := bR (bofZ 300) in let d0 := bR (bofZ 300) / RR / T in
  (forall j, (j < 21)%nat -> fin (ch4b j) /\ (r j = 0 \/ bpow radix2 (-50) <= r j)) /\
  99 / 100 <= tot 21 r <= 101 / 100 /\ (fin (bofZ 300) /\ 32 <= bR (bofZ 300) <= 2048) /\ fin (bofZ 300) /\
  bpow radix2 (-17) <= d0 <= 290 /\ detail_D r (4 * d0) <= 1 /\ spread r T (4 * d0) <= 1 / 7 /\ slope_top r T (4 * d0) <= 8.
Proof.
  cbv zeta. rewrite (ofZ_R 300) by lia. split.
  { intros j _. split; [destruct j; reflexivity|]. destruct j; [right|now left]. unfold ch4b. rewrite (ofZ_R 1) by lia. change 1 with (bpow radix2 0). apply bpow_le. lia. }
  split. { cbn [tot]. unfold ch4b. rewrite (ofZ_R 1) by lia. change (bR B0) with 0. lra. }
  split; [split; [reflexivity|lra]|]. split; [reflexivity|]. change (300 / RR / 300) with e0.
  split. { change (bpow radix2 (-17)) with (/ 131072). unfold e0. lra. }
  pose proof e0_D. rewrite ch4b_R. split; [lra|]. split; [exact e0_S|exact top_T].
Qed.
Example C55_case : let r j := bR (ch4b j) in let T := bR (bofZ 300) in let d0 := bR (bofZ 300) / RR / T in
  (forall j, (j < 21)%nat -> fin (ch4b j) /\ (r j = 0 \/ bpow radix2 (-50) <= r j)) /\
  99 / 100 <= tot 21 r <= 101 / 100 /\ (fin (bofZ 300) /\ 32 <= bR (bofZ 300) <= 2048) /\ fin (bofZ 300) /\
  bpow radix2 (-17) <= d0 <= 290 /\ detail_D r (4 * d0) <= 1 /\ spread r T (4 * d0) <= 1 / 7 /\ slope_top r T (4 * d0) <= 8.
Proof. exact case_low. Qed.
(* the same run meets the hypotheses of C54 and, followed by properties(), those of C53 *)
Lemma case_ok : let B := ArithB64 best in exists s s',
  @dexec B New [SetX (A := B) ch4b; Poke (A := B) PT (bofZ 300); Poke (A := B) PP (bofZ 300)] = Some (s, [OUnit; OUnit; OUnit]) /\
  separated (A := B) 0 (dasked (A := B) ([SetX (A := B) ch4b; Poke (A := B) PT (bofZ 300); Poke (A := B) PP (bofZ 300)] ++ [Density (A := B) 0; Properties (A := B)])) /\
  dstep (A := B) (Density 0) s = Some (s', ODens (A := B) ROk) /\ d_x s = map ch4b (seq 0 21) /\ d_x s' = d_x s /\
  dread (A := B) PT s = bofZ 300 /\ dread (A := B) PP s = bofZ 300 /\ dread (A := B) PT s' = bofZ 300 /\
  bpow radix2 (-19) <= bR (dread (A := B) PD s') /\ detail_D (fun j => bR (ch4b j)) (bR (dread (A := B) PD s')) <= 299 / 100.
Proof.
  intros B. destruct case_low as (H1 & H2 & H3 & H4 & H5 & H6 & H7 & H8).
  destruct (low_bstep best best_accurate ch4b (bofZ 300) (bofZ 300) 0 H1 H2 H3 H4 H5 H6 H7 H8) as (s' & e & E & [Fx Ff] & Fd & _ & Ne & Re & _).
  pose proof (brun1 best ch4b (bofZ 300) (bofZ 300)) as E0. pose proof (bsep1 best ch4b (bofZ 300) (bofZ 300) 0 H1 H2 H3) as S0.
  eexists. exists s'. split; [exact E0|].
  split. { destruct S0 as [S1 S2]. split.
    - intros a b c f [[= <- <-]|[[= <- <-]|[]]] [[= <- <-]|[[= <- <-]|[]]]; split; now left.
    - intros a b [[= <- <-]|[[= <- <-]|[]]]; apply S2; now left. }
  split; [exact E|]. split; [reflexivity|]. split; [exact Fx|]. split; [reflexivity|]. split; [reflexivity|].
  split. { apply (Ff PT). intros [Q|[Q|[]]]; discriminate Q. }
  set (d := bR (dread (A := B) PD s')) in *. rewrite (ofZ_R 300) in Re, H5, H6 by lia. change (300 / RR / 300) with e0 in *.
  change (bR (dread PD s')) with d in Ne.
  assert (0 < e0) by (unfold e0; lra). assert (3 / 4 * e0 <= d <= 2 * e0) by (apply Rabs_le_inv in Ne; lra).
  split. { change (bpow radix2 (-17)) with (/ 131072) in H5. change (bpow radix2 (-19)) with (/ 524288). lra. }
  rewrite ch4b_R in H6 |- *. rewrite D_1 in H6 |- *. assert (0 < K1 ^ 3) by (apply pow_lt; unfold K1; lra). nra.
Qed.
Example C54_case : let B := ArithB64 best in exists s s',
  @dexec B New [SetX (A := B) ch4b; Poke (A := B) PT (bofZ 300); Poke (A := B) PP (bofZ 300)] = Some (s, [OUnit; OUnit; OUnit]) /\
  separated (A := B) 0 (dasked (A := B) ([SetX (A := B) ch4b; Poke (A := B) PT (bofZ 300); Poke (A := B) PP (bofZ 300)] ++ [Density (A := B) 0; Properties (A := B)])) /\
  dstep (A := B) (Density 0) s = Some (s', ODens (A := B) ROk) /\ d_x s = map ch4b (seq 0 21) /\ d_x s' = d_x s /\
  dread (A := B) PT s = bofZ 300 /\ dread (A := B) PP s = bofZ 300 /\ dread (A := B) PT s' = bofZ 300 /\
  bpow radix2 (-19) <= bR (dread (A := B) PD s') /\ detail_D (fun j => bR (ch4b j)) (bR (dread (A := B) PD s')) <= 299 / 100.
Proof. exact case_ok. Qed.
