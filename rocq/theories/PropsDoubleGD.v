(* C59 and C60: density() of GERG-2008 in IEEE double precision, after any history. *)
From Coq Require Import Reals ZArith List Lra Lia.
From Coquelicot Require Import Coquelicot.
From Flocq Require Import Core BinarySingleNaN.
From Verif Require Import FArith Prelude ArithB64 B64Lemmas ArithR GergModel SpecStd StdGerg SpecAcc AccLibm SpecGerg SpecAll SpecSlopeG SpecConv SpecHistory SpecGeneric Api SpecReal GDensProof GConvFin GConvLow GAllCase GConvCase.
Import ListNotations.
Local Open Scope R_scope.

(* C59: when density() returns Ok, the exact pressure gpres (C25, C37 say what it is) at the density found is the pressure asked for
   up to 3.1e-7 of S, or is itself below 2.5e-7 of S (the false convergence of C52).  S is d * dp/dd with every term counted by
   its size. *)
Theorem C59_gerg : exists gv gt bt : nat -> nat -> R,
  (forall i j, (1 <= i <= j)%nat -> (j < 22)%nat ->
    near (gv i j) (v_red i j) /\ near (gt i j) (t_red i j) /\ near (bt i j) (b_red i j)) /\
  forall m, accurate m -> forall l i (s s' : @Gerg (ArithB64 m)) o, @gexec (ArithB64 m) New l = Some (s, o) ->
  separated (A := ArithB64 m) 1 (gasked (A := ArithB64 m) (l ++ [Density (A := ArithB64 m) i])) ->
  gstep (A := ArithB64 m) (Density i) s = Some (s', ODens (A := ArithB64 m) ROk) ->
  let r j := bR (nth j (g_x s) B0) in let T := gread (A := ArithB64 m) PT s in let P := gread (A := ArithB64 m) PP s in let d := gread (A := ArithB64 m) PD s' in
  (forall i, (1 <= i < 22)%nat -> fin (nth i (g_x s) B0) /\ (r i = 0 \/ bpow radix2 (-49) <= r i)) ->
  99 / 100 <= tot 21 (fun i => r (S i)) <= 101 / 100 -> fin T /\ 32 <= bR T <= 2048 -> fin P /\ bpow radix2 (-50) <= bR P ->
  bpow radix2 (-19) <= bR d -> bR d * red_volume r v_red <= 248 / 100 ->
  let S := bR d * Rg * bR T * gerg_slope r (bR d * red_volume r gv) (red_temp r gt bt / bR T) in
  Rabs (gpres New r (bR T) (bR d) - bR P) <= 31 / 100000000 * S \/ gpres New r (bR T) (bR d) <= 25 / 100000000 * S.
Proof. exact gdensity_double. Qed.
Print Assumptions C59_gerg.

(* methane at 300 K and 150 kPa *)
Example C59_case : let B := ArithB64 best in exists s s',
  @gexec B New [SetX (A := B) ch4d; Poke (A := B) PT (bofZ 300); Poke (A := B) PP (bofZ 150)] = Some (s, [OUnit; OUnit; OUnit]) /\
  separated (A := B) 1 (gasked (A := B) ([SetX (A := B) ch4d; Poke (A := B) PT (bofZ 300); Poke (A := B) PP (bofZ 150)] ++ [Density (A := B) 0])) /\
  gstep (A := B) (Density 0) s = Some (s', ODens (A := B) ROk) /\ g_x s = map ch4d (seq 0 22) /\
  gread (A := B) PT s = bofZ 300 /\ gread (A := B) PP s = bofZ 150 /\
  bpow radix2 (-50) <= bR (bofZ 150) /\ bpow radix2 (-19) <= bR (gread (A := B) PD s') /\
  bR (gread (A := B) PD s') * red_volume (fun i => bR (ch4d i)) v_red <= 248 / 100.
Proof. exact gcase_ok. Qed.

(* C60: density(i), i <= 0, returns Ok after any such history where the gas is nearly ideal around the density the search
   starts from (gguess: p/R/t unless the caller left a negative d) and rounding errors are small; the density is the one
   root nearby up to 1e-7.  For i > 0 density() never returns Ok (C12). *)
Theorem C60_gerg : exists gv gt bt : nat -> nat -> R,
  (forall i j, (1 <= i <= j)%nat -> (j < 22)%nat ->
    near (gv i j) (v_red i j) /\ near (gt i j) (t_red i j) /\ near (bt i j) (b_red i j)) /\
  forall m, accurate m -> forall l i (s : @Gerg (ArithB64 m)) o, @gexec (ArithB64 m) New l = Some (s, o) ->
  separated (A := ArithB64 m) 1 (gasked (A := ArithB64 m) (l ++ [Density (A := ArithB64 m) i])) -> (i <= 0)%Z ->
  let r j := bR (nth j (g_x s) B0) in let T := gread (A := ArithB64 m) PT s in let P := gread (A := ArithB64 m) PP s in
  let g := @gguess (ArithB64 m) i s in let d0 := bR g in let p := gpres New r (bR T) in
  (forall j, (1 <= j < 22)%nat -> fin (nth j (g_x s) B0) /\ (r j = 0 \/ bpow radix2 (-49) <= r j)) ->
  99 / 100 <= tot 21 (fun j => r (S j)) <= 101 / 100 -> fin T /\ 32 <= bR T <= 2048 -> fin P -> 0 < bR P ->
  fin g /\ bpow radix2 (-18) <= d0 <= 300 -> 3 * d0 * red_volume r gv <= 5 / 2 -> nearly_ideal p d0 (bR P) ->
  (forall d, d0 / 3 <= d <= 3 * d0 -> d * Rg * bR T * gerg_slope r (d * red_volume r gv) (red_temp r gt bt / bR T) <= 10 * p d) ->
  exists s' e, gstep (A := ArithB64 m) (Density i) s = Some (s', ODens (A := ArithB64 m) ROk) /\ gframe (A := ArithB64 m) [PD; PZ] s s' /\
    let d := gread (A := ArithB64 m) PD s' in
    fin d /\ Rabs (p (bR d) - bR P) <= 1 / 10000000 * bR P /\ Rabs (bR d - e) <= 1 / 10000000 * e /\
    d0 / 3 <= e <= 3 * d0 /\ p e = bR P /\ forall e', d0 / 3 <= e' <= 3 * d0 -> p e' = bR P -> e' = e.
Proof. exact gdensity_converges. Qed.
Print Assumptions C60_gerg.

(* the conditions in terms of the printed tables, for a new object: x, t and p assigned, then density() *)
Theorem C60_gerg_low : exists gv gt bt : nat -> nat -> R,
  (forall i j, (1 <= i <= j)%nat -> (j < 22)%nat ->
    near (gv i j) (v_red i j) /\ near (gt i j) (t_red i j) /\ near (bt i j) (b_red i j)) /\
  forall m, accurate m -> forall (x : nat -> b64) (t P : b64) i, (i <= 0)%Z -> let r j := bR (x j) in
  (forall j, (1 <= j < 22)%nat -> fin (x j) /\ (r j = 0 \/ bpow radix2 (-49) <= r j)) ->
  99 / 100 <= tot 21 (fun j => r (S j)) <= 101 / 100 -> fin t /\ 32 <= bR t <= 2048 -> fin P ->
  let T := bR t in let d0 := bR P / Rg / T in let v := red_volume r gv in
  bpow radix2 (-17) <= d0 <= 290 -> 4 * d0 * v <= 1 -> gerg_spread r (4 * d0 * v) (red_temp r gt bt / T) <= 1 / 7 ->
  exists s e, @gexec (ArithB64 m) New [SetX (A := ArithB64 m) x; Poke (A := ArithB64 m) PT t; Poke (A := ArithB64 m) PP P; Density (A := ArithB64 m) i]
      = Some (s, [OUnit; OUnit; OUnit; ODens (A := ArithB64 m) ROk]) /\
    let d := gread (A := ArithB64 m) PD s in
    fin d /\ Rabs (gpres New r T (bR d) - bR P) <= 1 / 10000000 * bR P /\ Rabs (bR d - e) <= 1 / 10000000 * e /\
    7 / 8 * d0 <= e <= 7 / 6 * d0 /\ gpres New r T e = bR P /\ forall e', 0 < e' <= 2 * d0 -> gpres New r T e' = bR P -> e' = e.
Proof. exact gdensity_low. Qed.
Print Assumptions C60_gerg_low.

(* methane at 300 K and 150 kPa, whatever the constants gv, gt, bt of the theorem are *)
Example C60_case : forall gv gt bt : nat -> nat -> R, near (gv 1%nat 1%nat) (v_red 1 1) -> near (gt 1%nat 1%nat) (t_red 1 1) ->
  let r i := bR (ch4d i) in let T := bR (bofZ 300) in let d0 := bR (bofZ 150) / Rg / T in let v := red_volume r gv in
  (forall j, (1 <= j < 22)%nat -> fin (ch4d j) /\ (r j = 0 \/ bpow radix2 (-49) <= r j)) /\
  99 / 100 <= tot 21 (fun j => r (S j)) <= 101 / 100 /\ (fin (bofZ 300) /\ 32 <= bR (bofZ 300) <= 2048) /\ fin (bofZ 150) /\
  bpow radix2 (-17) <= d0 <= 290 /\ 4 * d0 * v <= 1 /\ gerg_spread r (4 * d0 * v) (red_temp r gt bt / T) <= 1 / 7.
Proof. exact gcase_low. Qed.
