(* C69: set_composition() accepts fractions whose sum is up to 1 % off 1 and does not normalize them.  The claim that the results are those of the
   normalized composition is false: the molar mass is off by the factor sum.  Specification: SpecB64 (bfractions, exact_sum); the program is in terms of the API. *)
From Coq Require Import Reals ZArith List Lra Lia.
From Flocq Require Import Core BinarySingleNaN.
From Verif Require Import FArith Prelude Composition ArithB64 SpecB64 DetailModel GergModel Api Scale.
Import ListNotations.
Local Open Scope R_scope.

(* there is an accepted composition for which the molar mass is more than 0.3 % smaller than that of its normalization *)
Theorem C69_detail_refuted : forall m, exists (c c' : @Composition (ArithB64 m)) s s' v v',
  comp_check (A := ArithB64 m) c = ROk /\ comp_normalize (A := ArithB64 m) c = (c', ROk) /\
  dexec (A := ArithB64 m) Api.New [SetComp (A := ArithB64 m) c; MolarMass (A := ArithB64 m)] = Some (s, [OComp (A := ArithB64 m) ROk; OVal (A := ArithB64 m) v]) /\
  dexec (A := ArithB64 m) Api.New [SetComp (A := ArithB64 m) c'; MolarMass (A := ArithB64 m)] = Some (s', [OComp (A := ArithB64 m) ROk; OVal (A := ArithB64 m) v']) /\
  fin v /\ fin v' /\ 0 < bR v <= 997 / 1000 * bR v'.
Proof.
  intros m. destruct (scale_detail m (thin m) (thin_x m) ltac:(rewrite thin_sum; lra) (thin_check m)) as (c' & s & s' & v & v' & En & E & E' & F & F' & P & N). rewrite thin_sum in N.
  exists (thin m), c', s, s', v, v'. exact (conj (thin_check m) (conj En (conj E (conj E' (conj F (conj F' (conj P (light _ _ N P)))))))).
Qed.
Print Assumptions C69_detail_refuted.
Theorem C69_gerg_refuted : forall m, exists (c c' : @Composition (ArithB64 m)) s s',
  comp_check (A := ArithB64 m) c = ROk /\ comp_normalize (A := ArithB64 m) c = (c', ROk) /\
  gexec (A := ArithB64 m) Api.New [SetComp (A := ArithB64 m) c; MolarMass (A := ArithB64 m)] = Some (s, [OComp (A := ArithB64 m) ROk; OUnit (A := ArithB64 m)]) /\
  gexec (A := ArithB64 m) Api.New [SetComp (A := ArithB64 m) c'; MolarMass (A := ArithB64 m)] = Some (s', [OComp (A := ArithB64 m) ROk; OUnit (A := ArithB64 m)]) /\
  let v := gread (A := ArithB64 m) PMM s in let v' := gread (A := ArithB64 m) PMM s' in fin v /\ fin v' /\ 0 < bR v <= 997 / 1000 * bR v'.
Proof.
  intros m. destruct (scale_gerg m (thin m) (thin_x m) ltac:(rewrite thin_sum; lra) (thin_check m)) as (c' & s & s' & En & E & E' & F & F' & P & N). rewrite thin_sum in N.
  exists (thin m), c', s, s'. exact (conj (thin_check m) (conj En (conj E (conj E' (conj F (conj F' (conj P (light _ _ N P)))))))).
Qed.
Print Assumptions C69_gerg_refuted.

(* what holds: for every accepted composition the molar mass is that of the normalization times the sum of the fractions, to 2e-14; so it is at most about 1 % off *)
Theorem C69_detail_partial : forall m (c : @Composition (ArithB64 m)),
  (forall i, (i < 21)%nat -> fin (nth i (bfractions m c) B0) /\ (bR (nth i (bfractions m c) B0) = 0 \/ bpow radix2 (-47) <= bR (nth i (bfractions m c) B0))) ->
  exact_sum m c <= 2 -> comp_check (A := ArithB64 m) c = ROk ->
  exists c' s s' v v', comp_normalize (A := ArithB64 m) c = (c', ROk) /\
    dexec (A := ArithB64 m) Api.New [SetComp (A := ArithB64 m) c; MolarMass (A := ArithB64 m)] = Some (s, [OComp (A := ArithB64 m) ROk; OVal (A := ArithB64 m) v]) /\
    dexec (A := ArithB64 m) Api.New [SetComp (A := ArithB64 m) c'; MolarMass (A := ArithB64 m)] = Some (s', [OComp (A := ArithB64 m) ROk; OVal (A := ArithB64 m) v']) /\
    fin v /\ fin v' /\ 0 < bR v /\ Rabs (bR v - exact_sum m c * bR v') <= 1 / 50000000000000 * bR v.
Proof. exact scale_detail. Qed.
Print Assumptions C69_detail_partial.
Theorem C69_gerg_partial : forall m (c : @Composition (ArithB64 m)),
  (forall i, (i < 21)%nat -> fin (nth i (bfractions m c) B0) /\ (bR (nth i (bfractions m c) B0) = 0 \/ bpow radix2 (-47) <= bR (nth i (bfractions m c) B0))) ->
  exact_sum m c <= 2 -> comp_check (A := ArithB64 m) c = ROk ->
  exists c' s s', comp_normalize (A := ArithB64 m) c = (c', ROk) /\
    gexec (A := ArithB64 m) Api.New [SetComp (A := ArithB64 m) c; MolarMass (A := ArithB64 m)] = Some (s, [OComp (A := ArithB64 m) ROk; OUnit (A := ArithB64 m)]) /\
    gexec (A := ArithB64 m) Api.New [SetComp (A := ArithB64 m) c'; MolarMass (A := ArithB64 m)] = Some (s', [OComp (A := ArithB64 m) ROk; OUnit (A := ArithB64 m)]) /\
    let v := gread (A := ArithB64 m) PMM s in let v' := gread (A := ArithB64 m) PMM s' in
    fin v /\ fin v' /\ 0 < bR v /\ Rabs (bR v - exact_sum m c * bR v') <= 1 / 50000000000000 * bR v.
Proof. exact scale_gerg. Qed.
Print Assumptions C69_gerg_partial.

(* methane at 255/256 and nothing else meets the hypotheses *)
Example C69_case : forall m, (forall i, (i < 21)%nat -> fin (nth i (bfractions m (thin m)) B0) /\ (bR (nth i (bfractions m (thin m)) B0) = 0 \/ bpow radix2 (-47) <= bR (nth i (bfractions m (thin m)) B0))) /\
  exact_sum m (thin m) = 255 / 256 /\ comp_check (A := ArithB64 m) (thin m) = ROk.
Proof. intros m. exact (conj (thin_x m) (conj (thin_sum m) (thin_check m))). Qed.
