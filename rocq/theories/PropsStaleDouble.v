(* C20 in double precision: DETAIL for every accurate math library, GERG for every math library. *)
From Coq Require Import Reals ZArith List Bool.
From Flocq Require Import Core BinarySingleNaN.
From Verif Require Import FArith Prelude Composition ArithB64 B64Lemmas SpecAcc SpecHistory DetailModel GergModel Api SpecGeneric Drift StaleDouble.
Import ListNotations.
Local Open Scope R_scope.

(* C20: "the mixture terms an evaluation uses are those of a composition within 1e-7 of the one the
   object holds".  False in binary64 as well: after every pressure() the cached K^3 would have to be
   that of a new object given some composition asked for so far within 1e-7 of the present one. *)
Theorem C20_detail_double_refuted : forall m, accurate m ->
  ~ (forall l (s s' : @Detail (ArithB64 m)) r o, @dexec (ArithB64 m) New l = Some (s, r) -> @dstep (ArithB64 m) Pressure s = Some (s', o) ->
  exists y u s1 r1, In (y, u) (@dasked (ArithB64 m) (l ++ [Pressure])) /\
    (forall j, (j < 21)%nat -> Rabs (bR (nth j y B0) - bR (nth j (d_x s') B0)) <= 1 / 10000000) /\
    @dexec (ArithB64 m) New [SetX (A := ArithB64 m) (fun j => nth j y B0); Poke (A := ArithB64 m) PT u; Poke (A := ArithB64 m) PD (d_d s); Pressure] = Some (s1, r1)
    /\ d_k3 s' = d_k3 s1).
Proof. exact d_double_false. Qed.
Theorem C20_gerg_double_refuted : forall m,
  ~ (forall l (s s' : @Gerg (ArithB64 m)) r o, @gexec (ArithB64 m) New l = Some (s, r) -> @gstep (ArithB64 m) Pressure s = Some (s', o) ->
  exists y u s1 r1, In (y, u) (@gasked (ArithB64 m) (l ++ [Pressure])) /\
    (forall j, (1 <= j < 22)%nat -> Rabs (bR (nth j y B0) - bR (nth j (g_x s') B0)) <= 1 / 10000000) /\
    @gexec (ArithB64 m) New [SetX (A := ArithB64 m) (fun j => nth j y B0); Poke (A := ArithB64 m) PT u; Poke (A := ArithB64 m) PD (g_d s); Pressure] = Some (s1, r1)
    /\ g_trold s' = g_trold s1).
Proof. exact g_double_false. Qed.

(* The histories behind it: pure methane at 300 K, 1 mol/l, replaced by nitrogen in steps of 2^-24,
   every composition accepted by set_composition, pressure() after each.  At the end the DETAIL object
   holds pure nitrogen and returns, bit for bit, the pressure of a new object holding pure methane. *)
Theorem C20_detail_double_refuted_witness : forall m, accurate m ->
  exists n s r s' v s1 r1 s2, @dexec (ArithB64 m) New (dblend m n) = Some (s, r) /\
  (forall i, @comp_check (ArithB64 m) (cmix m i) = ROk) /\
  (forall i j, (j < 21)%nat -> Rabs (bR (nth j (@fractions (ArithB64 m) (cmix m (S i))) B0) - bR (nth j (@fractions (ArithB64 m) (cmix m i)) B0)) <= 1 / 10000000) /\
  (forall j, (j < 21)%nat -> bR (nth j (@fractions (ArithB64 m) (cmix m 0)) B0) = if Nat.eqb j 0 then 1 else 0) /\
  (forall j, (j < 21)%nat -> bR (nth j (d_x s) B0) = if Nat.eqb j 1 then 1 else 0) /\
  @dstep (ArithB64 m) Pressure s = Some (s', OVal (A := ArithB64 m) v) /\
  @dexec (ArithB64 m) New [SetComp (A := ArithB64 m) (cmix m 0); Poke (A := ArithB64 m) PT (d_t s); Poke (A := ArithB64 m) PD (d_d s)] = Some (s1, r1) /\
  @dstep (ArithB64 m) Pressure s1 = Some (s2, OVal (A := ArithB64 m) v) /\
  forall y u sy ry, In (y, u) (@dasked (ArithB64 m) (dblend m n ++ [Pressure])) ->
    (forall j, (j < 21)%nat -> Rabs (bR (nth j y B0) - bR (nth j (d_x s') B0)) <= 1 / 10000000) ->
    @dexec (ArithB64 m) New [SetX (A := ArithB64 m) (fun j => nth j y B0); Poke (A := ArithB64 m) PT u; Poke (A := ArithB64 m) PD (d_d s); Pressure] = Some (sy, ry) ->
    bR (d_k3 sy) < bR (d_k3 s').
Proof. exact d_double_witness. Qed.
Theorem C20_gerg_double_refuted_witness : forall m,
  exists n s r s' o, @gexec (ArithB64 m) New (dblend m n) = Some (s, r) /\
  (forall j, (1 <= j < 22)%nat -> bR (nth j (g_x s) B0) = if Nat.eqb j 2 then 1 else 0) /\
  @gstep (ArithB64 m) Pressure s = Some (s', o) /\
  forall y u sy ry, In (y, u) (@gasked (ArithB64 m) (dblend m n ++ [Pressure])) ->
    (forall j, (1 <= j < 22)%nat -> Rabs (bR (nth j y B0) - bR (nth j (g_x s') B0)) <= 1 / 10000000) ->
    @gexec (ArithB64 m) New [SetX (A := ArithB64 m) (fun j => nth j y B0); Poke (A := ArithB64 m) PT u; Poke (A := ArithB64 m) PD (g_d s); Pressure] = Some (sy, ry) ->
    bR (g_trold sy) < bR (g_trold s').
Proof. exact g_double_witness. Qed.

Print Assumptions C20_detail_double_refuted.
Print Assumptions C20_gerg_double_refuted.
Print Assumptions C20_detail_double_refuted_witness.
Print Assumptions C20_gerg_double_refuted_witness.
