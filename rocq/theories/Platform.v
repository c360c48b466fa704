(* Two platforms, that is two libraries of elementary functions: how far their results can differ. *)
From Coq Require Import Reals ZArith List Lra Lia.
From Coquelicot Require Import Coquelicot.
From Flocq Require Import Core BinarySingleNaN.
From Interval Require Import Tactic.
From Verif Require Import FArith Prelude Composition ArithB64 B64Lemmas ArithR GergModel SpecB64 SpecDetail StdDetail StdGerg SpecStd SpecGas SpecAcc SpecSlope SpecConv SpecHistory SpecGeneric DetailModel Api SpecReal SpecAccG SpecAll SpecAllD SpecAllF SpecGerg SpecSession SpecSens B64Err AccLibm B64Comp DetailPure GergPure DetailEval GergEval GenericLemmas
  AccAllM GAllMain SensDetail SensGerg Sens.
Import ListNotations.
Local Open Scope R_scope.
Local Opaque badd bmul blit.

Lemma apart2 a b v e : Rabs (a - v) <= e -> Rabs (b - v) <= e -> Rabs (a - b) <= 2 * e.
Proof. intros H1 H2. apply Raux.Rabs_le_inv in H1, H2. apply Rabs_le. lra. Qed.

Section P.
Variables m n : Libm.
Local Notation B := (ArithB64 m). Local Notation C := (ArithB64 n).
(* check() and normalize() use no elementary function *)
Lemma check_same (c : @Composition B) (d : @Composition C) : bfractions m c = bfractions n d -> @comp_check B c = @comp_check C d.
Proof. intros H. rewrite !check_eq, !sum_fold, H. reflexivity. Qed.
Lemma normalize_err (k : Libm) (c : @Composition (ArithB64 k)) : Bltb B0 (comp_sum (A := ArithB64 k) c) = false -> @comp_normalize (ArithB64 k) c = (c, RErr Empty).
Proof. intros H. unfold comp_normalize. cbn [flt ArithB64]. change (@f0 (ArithB64 k)) with B0. rewrite H. reflexivity. Qed.
Lemma normalize_same (c : @Composition B) (d : @Composition C) : bfractions m c = bfractions n d ->
  bfractions m (fst (@comp_normalize B c)) = bfractions n (fst (@comp_normalize C d)) /\ snd (@comp_normalize B c) = snd (@comp_normalize C d).
Proof.
  intros H. assert (S : comp_sum (A := B) c = comp_sum (A := C) d) by (rewrite !sum_fold, H; reflexivity).
  destruct (Bltb B0 (comp_sum (A := B) c)) eqn:E.
  - destruct (normalize_eq m c E) as (c' & E1 & F1). assert (E' := E). rewrite S in E'. destruct (normalize_eq n d E') as (d' & E2 & F2).
    rewrite E1, E2. cbn [fst snd]. rewrite F1, F2, S, H. split; reflexivity.
  - assert (E' := E). rewrite S in E'. rewrite (normalize_err m c E), (normalize_err n d E'). cbn [fst snd]. split; [exact H|reflexivity].
Qed.
Lemma gas_comp_same (c : @Composition B) (d : @Composition C) : bfractions m c = bfractions n d -> gas_comp m c -> gas_comp n d.
Proof. intros H G. unfold gas_comp, exact_sum in *. rewrite <- H. exact G. Qed.
Lemma sol_one k e1 e2 : k < 1 -> 0 < e1 -> 0 < e2 -> Rabs (ln e2 - ln e1) <= k * Rabs (ln e2 - ln e1) -> e1 = e2.
Proof.
  intros K A1 A2 H. pose proof (Rabs_pos (ln e2 - ln e1)). assert (Z : ln e2 - ln e1 = 0).
  { destruct (Req_dec (ln e2 - ln e1) 0) as [Z|Z]; [exact Z|]. apply Rabs_pos_lt in Z. nra. }
  apply ln_inv; lra.
Qed.
Lemma near2 u v e : 0 < e -> Rabs (u - e) <= 1 / 10000000 * e -> Rabs (v - e) <= 1 / 10000000 * e -> Rabs (u - v) <= 21 / 100000000 * Rmin u v.
Proof. intros P H1 H2. apply Raux.Rabs_le_inv in H1, H2. apply Rabs_le. unfold Rmin. destruct (Rle_dec u v); lra. Qed.
Lemma dmm_same (s : @Detail B) (s' : @Detail C) : dreach (A := B) s -> dreach (A := C) s' -> d_x s' = d_x s ->
  exists q q' v, dstep (A := B) MolarMass s = Some (q, OVal (A := B) v) /\ dstep (A := C) MolarMass s' = Some (q', OVal (A := C) v) /\ dread (A := B) PMM q = v /\ dread (A := C) PMM q' = v.
Proof.
  intros H H' X. cbn [dstep]. rewrite (molar_mass_ok (A := B) s (dreach_x s H)), (molar_mass_ok (A := C) s' (dreach_x s' H')), X. cbn [bind].
  do 2 eexists. exists (pmm (A := B) (xf (A := B) (d_x s))). split; [reflexivity|]. split; [|split]; reflexivity.
Qed.
Lemma gmm_same (s : @Gerg B) (s' : @Gerg C) : greach (A := B) s -> greach (A := C) s' -> g_x s' = g_x s ->
  exists q q', gstep (A := B) MolarMass s = Some (q, OUnit (A := B)) /\ gstep (A := C) MolarMass s' = Some (q', OUnit (A := C)) /\ gread (A := B) PMM q = gread (A := C) PMM q'.
Proof.
  intros H H' X. cbn [gstep]. rewrite (gmm_ok (A := B) s (greach_x s H)), (gmm_ok (A := C) s' (greach_x s' H')), X. cbn [bind].
  do 2 eexists. split; [reflexivity|]. split; reflexivity.
Qed.
Variable A : accurate m.
Variable A' : accurate n.
Lemma ddens_same i (c : @Composition B) (d : @Composition C) t P : bfractions m c = bfractions n d -> gas_comp m c -> gas_range t P ->
  exists s s', @dexec B Api.New (measure (A := B) i c t P) = Some (s, measured (A := B)) /\ @dexec C Api.New (measure (A := C) i d t P) = Some (s', measured (A := C)) /\
    let u := dread (A := B) PD s in let v := dread (A := C) PD s' in fin u /\ fin v /\ Rabs (bR u - bR v) <= 21 / 100000000 * Rmin (bR u) (bR v).
Proof.
  intros H G R. destruct (dmeasure m A c G i t P R) as (s & e & E & F & I & Q & N). destruct (dmeasure n A' d (gas_comp_same c d H G) i t P R) as (s' & e' & E' & F' & I' & Q' & N').
  exists s, s'. split; [exact E|]. split; [exact E'|]. cbv zeta. split; [exact F|]. split; [exact F'|]. clear E E' F F'. set (u := dread PD s) in *. set (v := dread PD s') in *. clearbody u v.
  rewrite <- H in Q'. destruct R as [[_ T] _]. pose proof (detail_sens (fun j => bR (nth j (bfractions m c) B0)) (bR t) (bR t) e e' (proj1 (proj2 G)) T T I I') as (_ & _ & S). rewrite Q, Q' in S.
  assert (X : e = e').
  { apply (sol_one (348 / 10000)); try lra. rewrite !Rminus_eq_0, !Rminus_0_r, Rabs_R0, Rmult_0_r, Rplus_0_r in S. exact S. }
  rewrite <- X in N'. apply (near2 _ _ e); [apply I|exact N|exact N'].
Qed.
Lemma gdens_same i (c : @Composition B) (d : @Composition C) t P : (i <= 0)%Z -> bfractions m c = bfractions n d -> gas_comp m c -> gas_range t P ->
  exists s s', @gexec B Api.New (measure (A := B) i c t P) = Some (s, measured (A := B)) /\ @gexec C Api.New (measure (A := C) i d t P) = Some (s', measured (A := C)) /\
    let u := gread (A := B) PD s in let v := gread (A := C) PD s' in fin u /\ fin v /\ Rabs (bR u - bR v) <= 21 / 100000000 * Rmin (bR u) (bR v).
Proof.
  intros Hi H G R. destruct (gmeasure m A c G i t P Hi R) as (s & e & E & F & I & Q & N). destruct (gmeasure n A' d (gas_comp_same c d H G) i t P Hi R) as (s' & e' & E' & F' & I' & Q' & N').
  exists s, s'. split; [exact E|]. split; [exact E'|]. cbv zeta. split; [exact F|]. split; [exact F'|]. clear E E' F F'. set (u := gread PD s) in *. set (v := gread PD s') in *. clearbody u v.
  rewrite <- H in Q'. destruct R as [[_ T] _]. destruct G as (Hx & Hg & _).
  assert (Hx' : forall j, (1 <= j < 22)%nat -> fin (match j with O => B0 | S k => nth k (bfractions m c) B0 end) /\ (bR (match j with O => B0 | S k => nth k (bfractions m c) B0 end) = 0 \/ bpow radix2 (-49) <= bR (match j with O => B0 | S k => nth k (bfractions m c) B0 end))) by (intros [|k] Hk; [lia|]; apply (Hx k); lia).
  pose proof (gerg_sens (fun j => match j with O => B0 | S k => nth k (bfractions m c) B0 end) Hx' Hg (bR t) (bR t) e e' T T I I') as (_ & _ & S). rewrite Q, Q' in S.
  assert (X : e = e').
  { apply (sol_one (396 / 10000)); try lra. rewrite !Rminus_eq_0, !Rminus_0_r, Rabs_R0, Rmult_0_r, Rplus_0_r in S. exact S. }
  rewrite <- X in N'. apply (near2 _ _ e); [apply I|exact N|exact N'].
Qed.
Lemma dprops_same l (s : @Detail B) o l' (s' : @Detail C) o' :
  @dexec B Api.New l = Some (s, o) -> @dexec C Api.New l' = Some (s', o') ->
  separated (A := B) 0 (dasked (A := B) (l ++ [Properties (A := B)])) -> separated (A := C) 0 (dasked (A := C) (l' ++ [Properties (A := C)])) ->
  d_x s' = d_x s -> dread (A := C) PT s' = dread (A := B) PT s -> dread (A := C) PD s' = dread (A := B) PD s ->
  let r j := bR (nth j (d_x s) B0) in let t := dread (A := B) PT s in let d := dread (A := B) PD s in
  (forall i, (i < 21)%nat -> fin (nth i (d_x s) B0) /\ (r i = 0 \/ bpow radix2 (-50) <= r i)) ->
  99 / 100 <= tot 21 r <= 101 / 100 -> fin t /\ 32 <= bR t <= 2048 ->
  fin d /\ bpow radix2 (-20) <= bR d -> detail_D r (bR d) <= 3 ->
  exists q q', dstep (A := B) Properties s = Some (q, OUnit (A := B)) /\ dstep (A := C) Properties s' = Some (q', OUnit (A := C)) /\
    forall f, detail_field f -> let w := dread (A := B) f q in let w' := dread (A := C) f q' in
       fin w /\ fin w' /\ Rabs (bR w - bR w') <= 3 / 10000000000 * dfield_size f r (bR t) (bR d).
Proof.
  intros E E' S S' X T D r t d H1 H2 H3 H4 H5. pose proof (dprops_all m A l s o E S H1 H2 H3 H4 H5) as (q & Eq & Hq & _).
  pose proof (dprops_all n A' l' s' o' E' S') as Z. cbv zeta in Z. rewrite T, D, X in Z. specialize (Z H1 H2 H3 H4 H5). destruct Z as (q' & Eq' & Hq' & _).
  exists q, q'. split; [exact Eq|]. split; [exact Eq'|]. intros f Hf. cbv zeta. destruct (Hq f Hf) as [F1 G1]. destruct (Hq' f Hf) as [F2 G2].
  split; [exact F1|]. split; [exact F2|]. replace (3 / 10000000000 * dfield_size f r (bR t) (bR d)) with (2 * (3 / 20000000000 * dfield_size f r (bR t) (bR d))) by lra.
  exact (apart2 _ _ _ _ G1 G2).
Qed.
End P.
Lemma gprops_same : exists gv gt bt : nat -> nat -> R,
  (forall i j, (1 <= i <= j)%nat -> (j < 22)%nat ->
    near (gv i j) (v_red i j) /\ near (gt i j) (t_red i j) /\ near (bt i j) (b_red i j)) /\
  forall m n, accurate m -> accurate n -> forall l (s : @Gerg (ArithB64 m)) o l' (s' : @Gerg (ArithB64 n)) o',
  @gexec (ArithB64 m) Api.New l = Some (s, o) -> @gexec (ArithB64 n) Api.New l' = Some (s', o') ->
  separated (A := ArithB64 m) 1 (gasked (A := ArithB64 m) (l ++ [Properties (A := ArithB64 m)])) -> separated (A := ArithB64 n) 1 (gasked (A := ArithB64 n) (l' ++ [Properties (A := ArithB64 n)])) ->
  g_x s' = g_x s -> gread (A := ArithB64 n) PT s' = gread (A := ArithB64 m) PT s -> gread (A := ArithB64 n) PD s' = gread (A := ArithB64 m) PD s ->
  let r j := bR (nth j (g_x s) B0) in let t := gread (A := ArithB64 m) PT s in let d := gread (A := ArithB64 m) PD s in
  (forall i, (1 <= i < 22)%nat -> fin (nth i (g_x s) B0) /\ (r i = 0 \/ bpow radix2 (-49) <= r i)) ->
  99 / 100 <= tot 21 (fun i => r (S i)) <= 101 / 100 -> fin t /\ 32 <= bR t <= 2048 ->
  fin d /\ bpow radix2 (-20) <= bR d -> bR d * red_volume r v_red <= 249 / 100 ->
  let size f := field_size f r (bR d * red_volume r gv) (red_temp r gt bt / bR t) (bR t) (bR d) in
  exists q v q' v', gstep (A := ArithB64 m) Properties s = Some (q, OVal (A := ArithB64 m) v) /\ gstep (A := ArithB64 n) Properties s' = Some (q', OVal (A := ArithB64 n) v') /\
    fin v /\ fin v' /\ Rabs (bR v - bR v') <= 1 / 5000000000 * size PP /\
    forall f, plain_field f -> let w := gread (A := ArithB64 m) f q in let w' := gread (A := ArithB64 n) f q' in
       fin w /\ fin w' /\ Rabs (bR w - bR w') <= 1 / 5000000000 * size f.
Proof.
  destruct gprops_all as (gv & gt & bt & K & G). exists gv, gt, bt. split; [exact K|]. intros m n A A' l s o l' s' o' E E' S S' X T D r t d H1 H2 H3 H4 H5 size.
  pose proof (G m A l s o E S H1 H2 H3 H4 H5) as (q & v & Eq & Fv & Nv & Hq & _).
  pose proof (G n A' l' s' o' E' S') as Z. cbv zeta in Z. rewrite T, D, X in Z. specialize (Z H1 H2 H3 H4 H5). destruct Z as (q' & v' & Eq' & Fv' & Nv' & Hq' & _).
  exists q, v, q', v'. split; [exact Eq|]. split; [exact Eq'|]. split; [exact Fv|]. split; [exact Fv'|].
  assert (D2 : forall f, 1 / 5000000000 * size f = 2 * (1 / 10000000000 * size f)) by (intros; lra).
  split; [rewrite D2; exact (apart2 _ _ _ _ Nv Nv')|].
  intros f Hf. cbv zeta. destruct (Hq f Hf) as [F1 G1]. destruct (Hq' f Hf) as [F2 G2].
  split; [exact F1|]. split; [exact F2|]. rewrite D2. exact (apart2 _ _ _ _ G1 G2).
Qed.

(* A second accurate library, so that two different platforms exist: exp is off by one unit in the last place or more. *)
Definition coarse : Libm := {|
  lm_exp := fun v => nearest (exp (bR v) * (1 + bpow radix2 (-51))); lm_ln := lm_ln best; lm_powf := lm_powf best; lm_powi := lm_powi best |}.
Lemma nearest_close2 r : middle r -> fin (nearest r) /\ Rabs (bR (nearest r) - r) <= bpow radix2 (-52) * Rabs r.
Proof.
  intros H. assert (ap (0 + 2) (-1000) 1000 (nearest r) r (Rabs r)) as Q.
  { apply (ap_round 0 _ _ r); [unfold KM; lia|split; lia| |apply Rle_refl| |apply nearest_ok].
    - replace (r - r) with 0 by ring. rewrite Rabs_R0. lra.
    - right; exact H. }
  destruct Q as (F & E & _). split; [exact F|]. eapply Rle_trans; [exact E|]. apply Rmult_le_compat_r; [apply Rabs_pos|].
  unfold u64. change (IZR (0 + 2)) with (bpow radix2 1). rewrite <- bpow_plus. apply bpow_le. lia.
Qed.
Lemma coarse_accurate : accurate coarse.
Proof.
  destruct best_accurate as (H1 & H2 & _ & H4). split; [exact H1|]. split; [exact H2|]. split; [|exact H4].
  intros v _ H. cbn [lm_exp coarse]. set (y := bR v) in *. clearbody y. assert (P : 0 < exp y) by apply exp_pos.
  assert (E51 : bpow radix2 (-51) = 1 / 2251799813685248) by (cbn; lra). assert (E52 : bpow radix2 (-52) = 1 / 4503599627370496) by (cbn; lra). assert (E50 : bpow radix2 (-50) = 1 / 1125899906842624) by (cbn; lra).
  assert (M : middle (exp y * (1 + bpow radix2 (-51)))).
  { destruct (exp_middle y H) as [A _]. rewrite Rabs_pos_eq in A by lra. unfold middle. rewrite Rabs_pos_eq by (apply Rmult_le_pos; [lra|rewrite E51; lra]). split; [eapply Rle_trans; [exact A|]; rewrite E51; lra|].
    assert (U : exp y <= bpow radix2 999). { apply Raux.Rabs_le_inv in H. assert (69 / 100 <= ln 2) as L2 by interval. rewrite bpow_exp. apply Raux.exp_le. change (ln (IZR radix2)) with (ln 2). lra. }
    change 1000%Z with (999 + 1)%Z. rewrite bpow_plus. change (bpow radix2 1) with 2. apply Rmult_le_compat; [lra|rewrite E51; lra|exact U|rewrite E51; lra]. }
  destruct (nearest_close2 _ M) as [F N]. split; [exact F|]. set (w := bR (nearest _)) in *. clearbody w. rewrite E51, E52 in N. rewrite E50. clear E50 E51 E52 M.
  rewrite (Rabs_pos_eq (exp y * _)) in N by lra. rewrite (Rabs_pos_eq (exp y)) by lra. apply Raux.Rabs_le_inv in N. apply Rabs_le. lra.
Qed.
Lemma coarse_differs : lm_exp coarse B0 <> lm_exp best B0.
Proof.
  cbn [lm_exp coarse best]. assert (Z : bR B0 = 0) by reflexivity. rewrite Z, exp_0. intros X. apply (f_equal bR) in X.
  assert (E51 : bpow radix2 (-51) = 1 / 2251799813685248) by (cbn; lra). assert (E52 : bpow radix2 (-52) = 1 / 4503599627370496) by (cbn; lra).
  assert (I : bpow radix2 (-1000) <= bpow radix2 0 /\ bpow radix2 1 <= bpow radix2 1000) by (split; apply bpow_le; lia). change (bpow radix2 0) with 1 in I. change (bpow radix2 1) with 2 in I.
  destruct (nearest_close2 (1 * (1 + bpow radix2 (-51)))) as [_ N1]; [unfold middle; rewrite Rabs_pos_eq; rewrite E51; lra|].
  assert (N2 : bR (nearest 1) = 1).
  { assert (R1 : rnd 1 = 1) by (apply round_generic; [apply valid_rnd_N|apply (generic_format_bpow radix2 fexp64 0); cbv; discriminate]).
    destruct (nearest_ok 1) as [N _]; [rewrite R1, Rabs_R1; apply (bpow_lt radix2 0 1024); lia|]. now rewrite N. }
  rewrite X, N2 in N1. rewrite E51, E52 in N1. rewrite (Rabs_pos_eq (1 * _)) in N1 by lra. apply Raux.Rabs_le_inv in N1. lra.
Qed.
