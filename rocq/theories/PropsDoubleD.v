(* C58: every field that properties() of DETAIL computes from the equation of state, in IEEE double precision, after any history. *)
From Coq Require Import Reals ZArith List Lra Lia.
From Flocq Require Import Core BinarySingleNaN.
From Verif Require Import FArith ArithB64 B64Lemmas ArithR DetailModel SpecStd SpecAcc AccLibm SpecAllF SpecAllD SpecRel SpecHistory Api SpecReal AccAllM RelDouble GAllCase AccAllCase.
Import ListNotations.
Local Open Scope R_scope.

(* dprop New f r t d is the exact value: field f after properties() over the reals; what it is is the subject of C22 to C27
   and C42 to C48.  dfield_size f is the formula for the field with every term replaced by its size (SpecAllD: over
   the printed tables). *)
Theorem C58_detail : forall m, accurate m -> forall l (s : @Detail (ArithB64 m)) o, @dexec (ArithB64 m) New l = Some (s, o) ->
  separated (A := ArithB64 m) 0 (dasked (A := ArithB64 m) (l ++ [Properties (A := ArithB64 m)])) ->
  let r j := bR (nth j (d_x s) B0) in let t := dread (A := ArithB64 m) PT s in let d := dread (A := ArithB64 m) PD s in
  (forall i, (i < 21)%nat -> fin (nth i (d_x s) B0) /\ (r i = 0 \/ bpow radix2 (-50) <= r i)) ->
  99 / 100 <= tot 21 r <= 101 / 100 -> fin t /\ 32 <= bR t <= 2048 ->
  fin d /\ bpow radix2 (-20) <= bR d -> detail_D r (bR d) <= 3 ->
  exists s', dstep (A := ArithB64 m) Properties s = Some (s', OUnit (A := ArithB64 m)) /\
    (forall f, detail_field f -> let w := dread (A := ArithB64 m) f s' in
       fin w /\ Rabs (bR w - dprop New f r (bR t) (bR d)) <= 3 / 20000000000 * dfield_size f r (bR t) (bR d)) /\
    let w := dread (A := ArithB64 m) PMM s' in let M := dprop New PMM r (bR t) (bR d) in
    fin w /\ Rabs (bR w - M) <= 1 / 100000000000000 * M.
Proof. exact dprops_all. Qed.
Print Assumptions C58_detail.

(* methane at 300 K and 2^-10 mol/l: the hypotheses hold *)
Example C58_case : let B := ArithB64 best in
  exists s, @dexec B New [SetX (A := B) me; Poke (A := B) PT (bofZ 300); Poke (A := B) PD dd] = Some (s, [OUnit (A := B); OUnit (A := B); OUnit (A := B)]) /\
  d_x s = map me (seq 0 21) /\ dread (A := B) PT s = bofZ 300 /\ dread (A := B) PD s = dd /\
  separated (A := B) 0 (dasked (A := B) ([SetX (A := B) me; Poke (A := B) PT (bofZ 300); Poke (A := B) PD dd] ++ [Properties (A := B)])).
Proof. exact (me_run best). Qed.
Example C58_case_range : let r i := bR (me i) in
  (forall i, (i < 21)%nat -> fin (me i) /\ (r i = 0 \/ bpow radix2 (-50) <= r i)) /\
  99 / 100 <= tot 21 r <= 101 / 100 /\ (fin (bofZ 300) /\ 32 <= bR (bofZ 300) <= 2048) /\
  (fin dd /\ bpow radix2 (-20) <= bR dd) /\ detail_D r (bR dd) <= 3.
Proof. exact (conj AccAllCase.Hx (conj AccAllCase.Hs (conj HT (conj Hd HDm)))). Qed.

(* the same run meets every condition of C57_detail *)
Example C57_detail_case : let B := ArithB64 best in exists s s',
  @dexec B New [SetX (A := B) me; Poke (A := B) PT (bofZ 300); Poke (A := B) PD dd] = Some (s, [OUnit (A := B); OUnit (A := B); OUnit (A := B)]) /\
  dstep (A := B) Properties s = Some (s', OUnit (A := B)) /\
  let f k := dread (A := B) k s' in
  f PT = bofZ 300 /\ f PD = dd /\ positive (f PZ) /\ positive (f PMM) /\ positive (f PCv) /\ positive (f PCp) /\ tame (f PDpDt) /\ positive (f PDpDd).
Proof. exact me_fields. Qed.
