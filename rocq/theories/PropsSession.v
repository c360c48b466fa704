(* C65: end to end.  A natural gas near base conditions, from the composition a user types to the numbers a Rust or C program reads back, in IEEE double precision.
   Specification: SpecSession (gas_comp, gas_amounts, session, reported), SpecGasState (gas_state). *)
From Coq Require Import Reals ZArith List Lra Lia.
From Flocq Require Import Core BinarySingleNaN.
From Verif Require Import FArith Prelude Composition ArithB64 B64Lemmas ArithR SpecB64 SpecGeneric SpecGerg SpecStd SpecGas SpecAcc SpecGasState SpecSession DetailModel GergModel Api Ffi AccLibm AccAllCase AccDensProof GasCase Session Session2.
Import ListNotations.
Local Open Scope R_scope.

(* amounts in any unit: normalize() succeeds and gives a composition as required below *)
Theorem C65_normalize : forall m (c : @Composition (ArithB64 m)), gas_amounts m c -> exists c', comp_normalize (A := ArithB64 m) c = (c', ROk) /\ gas_comp m c'.
Proof. exact normalize_gas. Qed.
Print Assumptions C65_normalize.

(* Rust, DETAIL: set_composition() accepts, density() succeeds, and the fields are sensible *)
Theorem C65_rust_detail : forall m, accurate m -> forall (c : @Composition (ArithB64 m)) (t P : b64), gas_comp m c -> fin t /\ 270 <= bR t <= 350 -> fin P /\ 1 / 10 <= bR P <= 110 -> forall i,
  exists s, @dexec (ArithB64 m) Api.New [SetComp (A := ArithB64 m) c; Poke (A := ArithB64 m) PT t; Poke (A := ArithB64 m) PP P; Density (A := ArithB64 m) i; Properties (A := ArithB64 m)]
      = Some (s, [OComp (A := ArithB64 m) ROk; OUnit; OUnit; ODens (A := ArithB64 m) ROk; OUnit]) /\
    gas_state (831451 / 100000) (bR t) (bR P) (bR (dread (A := ArithB64 m) PP s)) (fun k => dread (A := ArithB64 m) k s).
Proof. exact rust_detail. Qed.
Print Assumptions C65_rust_detail.
Theorem C65_rust_gerg : forall m, accurate m -> forall (c : @Composition (ArithB64 m)) (t P : b64), gas_comp m c -> fin t /\ 270 <= bR t <= 350 -> fin P /\ 1 / 10 <= bR P <= 110 -> forall i, (i <= 0)%Z ->
  exists s v, @gexec (ArithB64 m) Api.New [SetComp (A := ArithB64 m) c; Poke (A := ArithB64 m) PT t; Poke (A := ArithB64 m) PP P; Density (A := ArithB64 m) i; Properties (A := ArithB64 m)]
      = Some (s, [OComp (A := ArithB64 m) ROk; OUnit; OUnit; ODens (A := ArithB64 m) ROk; OVal (A := ArithB64 m) v]) /\ fin v /\
    gas_state Rg (bR t) (bR P) (bR v) (fun k => gread (A := ArithB64 m) k s).
Proof. exact rust_gerg. Qed.
Print Assumptions C65_rust_gerg.

(* C, from any state of memory: no panic, no undefined behaviour, both error codes 0, sensible numbers, and no other object touched *)
Theorem C65_c_detail : forall m, accurate m -> forall (c : @Composition (ArithB64 m)) (t P : b64), gas_comp m c -> fin t /\ 270 <= bR t <= 350 -> fin P /\ 1 / 10 <= bR P <= 110 -> forall a h, a <> null ->
  exists h' q t' p, ffi_run (A := ArithB64 m) (session (A := ArithB64 m) KDetail a c t P) h = Ret (A := ArithB64 m) h' (no_error (A := ArithB64 m) a q t' p) /\ elsewhere a h h' /\
    gas_state (831451 / 100000) (bR t) (bR P) (bR p) (reported m q t' p).
Proof. exact c_detail. Qed.
Print Assumptions C65_c_detail.
Theorem C65_c_gerg : forall m, accurate m -> forall (c : @Composition (ArithB64 m)) (t P : b64), gas_comp m c -> fin t /\ 270 <= bR t <= 350 -> fin P /\ 1 / 10 <= bR P <= 110 -> forall a h, a <> null ->
  exists h' q t' p, ffi_run (A := ArithB64 m) (session (A := ArithB64 m) KGerg a c t P) h = Ret (A := ArithB64 m) h' (no_error (A := ArithB64 m) a q t' p) /\ elsewhere a h h' /\
    gas_state Rg (bR t) (bR P) (bR p) (reported m q t' p).
Proof. exact c_gerg. Qed.
Print Assumptions C65_c_gerg.

(* in percent: 93 methane, 2 nitrogen, 1 carbon dioxide, 3 ethane, 1 propane *)
Definition percent (m : Libm) : @Composition (ArithB64 m) :=
  let z := B0 in @mkComposition (ArithB64 m) (bofZ 93) (bofZ 2) (bofZ 1) (bofZ 3) (bofZ 1) z z z z z z z z z z z z z z z z.
Lemma percent_R m : map bR (bfractions m (percent m)) = [93; 2; 1; 3; 1; 0; 0; 0; 0; 0; 0; 0; 0; 0; 0; 0; 0; 0; 0; 0; 0].
Proof. unfold bfractions, fractions, percent. cbn [map methane nitrogen carbon_dioxide ethane propane isobutane n_butane isopentane n_pentane hexane heptane octane nonane decane hydrogen oxygen carbon_monoxide water hydrogen_sulfide helium argon]. rewrite !ofZ_R by reflexivity. reflexivity. Qed.
Example C65_case : accurate best /\ gas_amounts best (percent best) /\ (exists c, comp_normalize (A := ArithB64 best) (percent best) = (c, ROk) /\ gas_comp best c) /\
  (fin (bofZ 288) /\ 270 <= bR (bofZ 288) <= 350) /\ (fin (bofZ 101) /\ 1 / 10 <= bR (bofZ 101) <= 110).
Proof.
  assert (G : gas_amounts best (percent best)).
  { assert (S : exact_sum best (percent best) = 100) by (unfold exact_sum; rewrite percent_R; cbn; lra).
    assert (X : forall i, bR (nth i (bfractions best (percent best)) B0) = nth i [93; 2; 1; 3; 1; 0; 0; 0; 0; 0; 0; 0; 0; 0; 0; 0; 0; 0; 0; 0; 0] 0) by (intros i; rewrite <- (percent_R best); symmetry; exact (map_nth bR _ B0 i)).
    unfold gas_amounts. rewrite S. split; [|split].
    - split; [apply Rle_trans with (bpow radix2 0); [apply bpow_le; lia|cbn; lra]|apply Rle_trans with (bpow radix2 7); [cbn; lra|apply bpow_le; lia]].
    - intros i Hi. rewrite X. assert (B : bpow radix2 (-48) <= / 128) by (apply Rle_trans with (bpow radix2 (-7)); [apply bpow_le; lia|cbn; lra]). unfold gas_limit.
      do 5 (destruct i as [|i]; [split; [reflexivity|right; cbn; lra]|]). split; [|left; do 16 (destruct i as [|i]; [reflexivity|]); lia].
      do 16 (destruct i as [|i]; [reflexivity|]). lia.
    - rewrite X. cbn. lra. }
  split; [exact best_accurate|]. split; [exact G|]. split; [exact (normalize_gas best _ G)|exact base_ok].
Qed.
