(* C56: every field that properties() of GERG-2008 reports, in IEEE double precision, after any history; C57: relations between
   the reported fields in double precision, both variants. *)
From Coq Require Import Reals ZArith List Lra Lia.
From Flocq Require Import Core BinarySingleNaN.
From Verif Require Import FArith ArithB64 B64Lemmas ArithR DetailModel GergModel SpecStd StdGerg SpecAcc AccLibm SpecGerg SpecAll SpecAllF SpecRel SpecHistory Api SpecReal GAllMain RelDouble GAllCase.
Import ListNotations.
Local Open Scope R_scope.

(* gprop New f r t d and gpres New r t d are the exact values: field f after properties(), and pressure(), over the reals; what they
   are is the subject of C22 to C27 and C42 to C48.  field_size f is the formula for the field with every term replaced by its size
   (SpecAll, SpecAllF: over the printed tables).  gv, gt, bt are the constants of the reducing functions, printed values
   up to rounding. *)
Theorem C56_gerg : exists gv gt bt : nat -> nat -> R,
  (forall i j, (1 <= i <= j)%nat -> (j < 22)%nat ->
    near (gv i j) (v_red i j) /\ near (gt i j) (t_red i j) /\ near (bt i j) (b_red i j)) /\
  forall m, accurate m -> forall l (s : @Gerg (ArithB64 m)) o, @gexec (ArithB64 m) New l = Some (s, o) ->
  separated (A := ArithB64 m) 1 (gasked (A := ArithB64 m) (l ++ [Properties (A := ArithB64 m)])) ->
  let r j := bR (nth j (g_x s) B0) in let t := gread (A := ArithB64 m) PT s in let d := gread (A := ArithB64 m) PD s in
  (forall i, (1 <= i < 22)%nat -> fin (nth i (g_x s) B0) /\ (r i = 0 \/ bpow radix2 (-49) <= r i)) ->
  99 / 100 <= tot 21 (fun i => r (S i)) <= 101 / 100 -> fin t /\ 32 <= bR t <= 2048 ->
  fin d /\ bpow radix2 (-20) <= bR d -> bR d * red_volume r v_red <= 249 / 100 ->
  let size f := field_size f r (bR d * red_volume r gv) (red_temp r gt bt / bR t) (bR t) (bR d) in
  exists s' v, gstep (A := ArithB64 m) Properties s = Some (s', OVal (A := ArithB64 m) v) /\
    fin v /\ Rabs (bR v - gpres New r (bR t) (bR d)) <= 1 / 10000000000 * size PP /\
    (forall f, plain_field f -> let w := gread (A := ArithB64 m) f s' in
       fin w /\ Rabs (bR w - gprop New f r (bR t) (bR d)) <= 1 / 10000000000 * size f) /\
    let w := gread (A := ArithB64 m) PMM s' in let M := gprop New PMM r (bR t) (bR d) in
    fin w /\ Rabs (bR w - M) <= 1 / 100000000000000 * M.
Proof. exact gprops_all. Qed.
Print Assumptions C56_gerg.

(* methane at 300 K and 2^-10 mol/l: the hypotheses hold *)
Example C56_case : let B := ArithB64 best in
  exists s, @gexec B New [SetX (A := B) ch4d; Poke (A := B) PT (bofZ 300); Poke (A := B) PD dd] = Some (s, [OUnit (A := B); OUnit (A := B); OUnit (A := B)]) /\
  g_x s = map ch4d (seq 0 22) /\ gread (A := B) PT s = bofZ 300 /\ gread (A := B) PD s = dd /\
  separated (A := B) 1 (gasked (A := B) ([SetX (A := B) ch4d; Poke (A := B) PT (bofZ 300); Poke (A := B) PD dd] ++ [Properties (A := B)])).
Proof. exact (ch4_run best). Qed.
Example C56_case_range : let r i := bR (ch4d i) in
  (forall i, (1 <= i < 22)%nat -> fin (ch4d i) /\ (r i = 0 \/ bpow radix2 (-49) <= r i)) /\
  99 / 100 <= tot 21 (fun i => r (S i)) <= 101 / 100 /\ (fin (bofZ 300) /\ 32 <= bR (bofZ 300) <= 2048) /\
  (fin dd /\ bpow radix2 (-20) <= bR dd) /\ bR dd * red_volume r v_red <= 249 / 100.
Proof.
  cbv zeta. split; [exact Hx|]. split; [exact Hs|]. split; [exact HT|]. split; [exact Hd|]. rewrite ch4_vol, dd_R.
  unfold v_red. cbn [Nat.eqb]. unfold rho_c, CRIT. cbn [nth fst Rlit]. cbv [Z.pow Z.pow_pos Pos.iter Z.mul Pos.mul Pos.add Pos.succ Pos.add_carry]. lra.
Qed.

(* C57: cp, the Joule-Thomson coefficient, the speed of sound and the isentropic exponent agree with the fields they are defined
   by up to 1e-14 of the size of the terms; so do the pressure and, for DETAIL, the enthalpy.  Any reachable state, any
   composition; tame and positive exclude overflow, underflow and negative slopes. *)
Theorem C57_detail : forall m, accurate m -> forall (s s' : @Detail (ArithB64 m)) r,
  dreach (A := ArithB64 m) s -> dstep (A := ArithB64 m) Properties s = Some (s', r) ->
  let f k := dread (A := ArithB64 m) k s' in
  fin (f PT) /\ 32 <= bR (f PT) <= 2048 -> fin (f PD) /\ bpow radix2 (-20) <= bR (f PD) <= 1024 ->
  relations (831451 / 100000) f /\
  (tame (f PZ) -> within (f PP) (bR (f PD) * (831451 / 100000 * bR (f PT)) * bR (f PZ)) (bR (f PD) * (831451 / 100000 * bR (f PT)) * Rabs (bR (f PZ)))) /\
  (tame (f PU) -> tame (f PP) -> within (f PH) (bR (f PU) + bR (f PP) / bR (f PD)) (Rabs (bR (f PU)) + Rabs (bR (f PP)) / bR (f PD))).
Proof. exact drel. Qed.
Print Assumptions C57_detail.
Theorem C57_gerg : forall m, accurate m -> forall (s s' : @Gerg (ArithB64 m)) r,
  greach (A := ArithB64 m) s -> gstep (A := ArithB64 m) Properties s = Some (s', r) ->
  let f k := gread (A := ArithB64 m) k s' in
  fin (f PT) /\ 32 <= bR (f PT) <= 2048 -> fin (f PD) /\ bpow radix2 (-20) <= bR (f PD) <= 1024 ->
  relations Rg f /\
  (tame (f PZ) -> exists p, r = OVal (A := ArithB64 m) p /\ within p (bR (f PD) * (Rg * bR (f PT)) * bR (f PZ)) (bR (f PD) * (Rg * bR (f PT)) * Rabs (bR (f PZ)))).
Proof. exact grel. Qed.
Print Assumptions C57_gerg.

(* the same run meets every condition *)
Example C57_gerg_case : let B := ArithB64 best in exists s s' v,
  @gexec B New [SetX (A := B) ch4d; Poke (A := B) PT (bofZ 300); Poke (A := B) PD dd] = Some (s, [OUnit (A := B); OUnit (A := B); OUnit (A := B)]) /\
  gstep (A := B) Properties s = Some (s', OVal (A := B) v) /\
  let f k := gread (A := B) k s' in
  f PT = bofZ 300 /\ f PD = dd /\ positive (f PZ) /\ positive (f PMM) /\ positive (f PCv) /\ positive (f PCp) /\ tame (f PDpDt) /\ positive (f PDpDd).
Proof. exact ch4_fields. Qed.
