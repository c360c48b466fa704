(* C68: two platforms whose exp, ln, powf and powi differ (each within 2^-50 of the exact value): how far the results of the crate can differ.
   Specification: SpecAcc (accurate), SpecSens (measure), SpecAllD, SpecAllF (the sizes of the fields). *)
From Coq Require Import Reals ZArith List Lra Lia.
From Flocq Require Import Core BinarySingleNaN.
From Verif Require Import FArith Prelude Composition ArithB64 B64Lemmas ArithR SpecB64 SpecGeneric SpecHistory SpecGerg SpecStd StdGerg SpecGas SpecAcc SpecReal SpecAll SpecAllD SpecAllF SpecSession SpecSens
  DetailModel GergModel Api AccLibm AccAllCase AccDensProof PropsLogger Platform.
Import ListNotations.
Local Open Scope R_scope.

(* composition checks and molar masses: not at all, whatever the two platforms do *)
Theorem C68_check : forall m n (c : @Composition (ArithB64 m)) (d : @Composition (ArithB64 n)), bfractions m c = bfractions n d -> @comp_check (ArithB64 m) c = @comp_check (ArithB64 n) d.
Proof. exact check_same. Qed.
Print Assumptions C68_check.
Theorem C68_normalize : forall m n (c : @Composition (ArithB64 m)) (d : @Composition (ArithB64 n)), bfractions m c = bfractions n d ->
  bfractions m (fst (@comp_normalize (ArithB64 m) c)) = bfractions n (fst (@comp_normalize (ArithB64 n) d)) /\ snd (@comp_normalize (ArithB64 m) c) = snd (@comp_normalize (ArithB64 n) d).
Proof. exact normalize_same. Qed.
Print Assumptions C68_normalize.
Theorem C68_mass_detail : forall m n (s : @Detail (ArithB64 m)) (s' : @Detail (ArithB64 n)), dreach (A := ArithB64 m) s -> dreach (A := ArithB64 n) s' -> d_x s' = d_x s ->
  exists q q' v, dstep (A := ArithB64 m) MolarMass s = Some (q, OVal (A := ArithB64 m) v) /\ dstep (A := ArithB64 n) MolarMass s' = Some (q', OVal (A := ArithB64 n) v) /\
    dread (A := ArithB64 m) PMM q = v /\ dread (A := ArithB64 n) PMM q' = v.
Proof. exact dmm_same. Qed.
Print Assumptions C68_mass_detail.
Theorem C68_mass_gerg : forall m n (s : @Gerg (ArithB64 m)) (s' : @Gerg (ArithB64 n)), greach (A := ArithB64 m) s -> greach (A := ArithB64 n) s' -> g_x s' = g_x s ->
  exists q q', gstep (A := ArithB64 m) MolarMass s = Some (q, OUnit (A := ArithB64 m)) /\ gstep (A := ArithB64 n) MolarMass s' = Some (q', OUnit (A := ArithB64 n)) /\
    gread (A := ArithB64 m) PMM q = gread (A := ArithB64 n) PMM q'.
Proof. exact gmm_same. Qed.
Print Assumptions C68_mass_gerg.

(* natural gas near base conditions: both find a density, and the two differ by at most 2.1e-7 of the smaller *)
Theorem C68_density_detail : forall m n, accurate m -> accurate n -> forall i (c : @Composition (ArithB64 m)) (d : @Composition (ArithB64 n)) t P, bfractions m c = bfractions n d -> gas_comp m c -> gas_range t P ->
  exists s s', @dexec (ArithB64 m) Api.New (measure (A := ArithB64 m) i c t P) = Some (s, measured (A := ArithB64 m)) /\ @dexec (ArithB64 n) Api.New (measure (A := ArithB64 n) i d t P) = Some (s', measured (A := ArithB64 n)) /\
    let u := dread (A := ArithB64 m) PD s in let v := dread (A := ArithB64 n) PD s' in fin u /\ fin v /\ Rabs (bR u - bR v) <= 21 / 100000000 * Rmin (bR u) (bR v).
Proof. exact ddens_same. Qed.
Print Assumptions C68_density_detail.
Theorem C68_density_gerg : forall m n, accurate m -> accurate n -> forall i (c : @Composition (ArithB64 m)) (d : @Composition (ArithB64 n)) t P, (i <= 0)%Z -> bfractions m c = bfractions n d -> gas_comp m c -> gas_range t P ->
  exists s s', @gexec (ArithB64 m) Api.New (measure (A := ArithB64 m) i c t P) = Some (s, measured (A := ArithB64 m)) /\ @gexec (ArithB64 n) Api.New (measure (A := ArithB64 n) i d t P) = Some (s', measured (A := ArithB64 n)) /\
    let u := gread (A := ArithB64 m) PD s in let v := gread (A := ArithB64 n) PD s' in fin u /\ fin v /\ Rabs (bR u - bR v) <= 21 / 100000000 * Rmin (bR u) (bR v).
Proof. exact gdens_same. Qed.
Print Assumptions C68_density_gerg.

(* properties() at the same composition, temperature and density, after any two histories: 3e-10 (DETAIL) and 2e-10 (GERG-2008) of the size of the field.
   The composition may be any with fractions that sum to 1 within 1 %; temperature 32 K to 2048 K *)
Theorem C68_detail : forall m n, accurate m -> accurate n -> forall l (s : @Detail (ArithB64 m)) o l' (s' : @Detail (ArithB64 n)) o',
  @dexec (ArithB64 m) Api.New l = Some (s, o) -> @dexec (ArithB64 n) Api.New l' = Some (s', o') ->
  separated (A := ArithB64 m) 0 (dasked (A := ArithB64 m) (l ++ [Properties (A := ArithB64 m)])) -> separated (A := ArithB64 n) 0 (dasked (A := ArithB64 n) (l' ++ [Properties (A := ArithB64 n)])) ->
  d_x s' = d_x s -> dread (A := ArithB64 n) PT s' = dread (A := ArithB64 m) PT s -> dread (A := ArithB64 n) PD s' = dread (A := ArithB64 m) PD s ->
  let r j := bR (nth j (d_x s) B0) in let t := dread (A := ArithB64 m) PT s in let d := dread (A := ArithB64 m) PD s in
  (forall i, (i < 21)%nat -> fin (nth i (d_x s) B0) /\ (r i = 0 \/ bpow radix2 (-50) <= r i)) ->
  99 / 100 <= tot 21 r <= 101 / 100 -> fin t /\ 32 <= bR t <= 2048 ->
  fin d /\ bpow radix2 (-20) <= bR d -> detail_D r (bR d) <= 3 ->
  exists q q', dstep (A := ArithB64 m) Properties s = Some (q, OUnit (A := ArithB64 m)) /\ dstep (A := ArithB64 n) Properties s' = Some (q', OUnit (A := ArithB64 n)) /\
    forall f, detail_field f -> let w := dread (A := ArithB64 m) f q in let w' := dread (A := ArithB64 n) f q' in
       fin w /\ fin w' /\ Rabs (bR w - bR w') <= 3 / 10000000000 * dfield_size f r (bR t) (bR d).
Proof. exact dprops_same. Qed.
Print Assumptions C68_detail.
Theorem C68_gerg : exists gv gt bt : nat -> nat -> R,
  (forall i j, (1 <= i <= j)%nat -> (j < 22)%nat ->
    near (gv i j) (v_red i j) /\ near (gt i j) (t_red i j) /\ near (bt i j) (b_red i j)) /\
  forall m n, accurate m -> accurate n -> forall l (s : @Gerg (ArithB64 m)) o l' (s' : @Gerg (ArithB64 n)) o',
  @gexec (ArithB64 m) Api.New l = Some (s, o) -> @gexec (ArithB64 n) Api.New l' = Some (s', o') ->
  separated (A := ArithB64 m) 1 (gasked (A := ArithB64 m) (l ++ [Properties (A := ArithB64 m)])) -> separated (A := ArithB64 n) 1 (gasked (A := ArithB64 n) (l' ++ [Properties (A := ArithB64 n)])) ->
  g_x s' = g_x s -> gread (A := ArithB64 n) PT s' = gread (A := ArithB64 m) PT s -> gread (A := ArithB64 n) PD s' = gread (A := ArithB64 m) PD s ->
  let r j := bR (nth j (g_x s) B0) in let t := gread (A := ArithB64 m) PT s in let d := gread (A := ArithB64 m) PD s in
  (forall i, (1 <= i < 22)%nat -> fin (nth i (g_x s) B0) /\ (r i = 0 \/ bpow radix2 (-49) <= r i)) ->
  99 / 100 <= tot 21 (fun i => r (S i)) <= 101 / 100 -> fin t /\ 32 <= bR t <= 2048 ->
  fin d /\ bpow radix2 (-20) <= bR d -> bR d * red_volume r v_red <= 249 / 100 ->
  let size f := field_size f r (bR d * red_volume r gv) (red_temp r gt bt / bR t) (bR t) (bR d) in
  exists q v q' v', gstep (A := ArithB64 m) Properties s = Some (q, OVal (A := ArithB64 m) v) /\ gstep (A := ArithB64 n) Properties s' = Some (q', OVal (A := ArithB64 n) v') /\
    fin v /\ fin v' /\ Rabs (bR v - bR v') <= 1 / 5000000000 * size PP /\
    forall f, plain_field f -> let w := gread (A := ArithB64 m) f q in let w' := gread (A := ArithB64 n) f q' in
       fin w /\ fin w' /\ Rabs (bR w - bR w') <= 1 / 5000000000 * size f.
Proof. exact gprops_same. Qed.
Print Assumptions C68_gerg.

(* two different accurate platforms exist: best rounds every elementary function correctly, coarse has an exp that is off (exp(0) is not 1); a natural gas and a state for both; the states of
   C56_case and C58_case (for any platform) meet the rest of the hypotheses *)
Example C68_platforms : accurate best /\ accurate coarse /\ lm_exp coarse B0 <> lm_exp best B0.
Proof. exact (conj best_accurate (conj coarse_accurate coarse_differs)). Qed.
Example C68_case : bfractions best (mix best 57 3) = bfractions coarse (mix coarse 57 3) /\ gas_comp best (mix best 57 3) /\ gas_range (bofZ 288) (bofZ 101).
Proof. split; [reflexivity|]. split; [apply mix_ok; lia|]. unfold gas_range. rewrite !ofZ_R by reflexivity. split; (split; [reflexivity|lra]). Qed.
Example C68_case_state : forall m, let B := ArithB64 m in
  exists s, @dexec B New [SetX (A := B) me; Poke (A := B) PT (bofZ 300); Poke (A := B) PD GAllCase.dd] = Some (s, [OUnit (A := B); OUnit (A := B); OUnit (A := B)]) /\
  d_x s = map me (seq 0 21) /\ dread (A := B) PT s = bofZ 300 /\ dread (A := B) PD s = GAllCase.dd /\
  separated (A := B) 0 (dasked (A := B) ([SetX (A := B) me; Poke (A := B) PT (bofZ 300); Poke (A := B) PD GAllCase.dd] ++ [Properties (A := B)])).
Proof. exact me_run. Qed.
