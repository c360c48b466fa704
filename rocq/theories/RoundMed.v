(* Round trip at line pressure: pressure() at a density, then density() at the pressure it gave. *)
From Coq Require Import Reals ZArith List Bool Lra Lia Psatz.
From Coquelicot Require Import Coquelicot.
From Flocq Require Import Core BinarySingleNaN.
From Verif Require Import FArith Prelude Composition ArithB64 B64Lemmas ArithR SpecB64 SpecDetail SpecGerg StdDetail StdGerg SpecStd SpecGas SpecAcc SpecAccG SpecAll SpecAllD SpecReal SpecGeneric SpecHistory SpecSession SpecSens SpecRound GergModel DetailModel Api AccLibm
  RSum GergEos StdGergProof ConvDetail MedCase MedCaseG Session.
From Verif Require Converge AccProof AccAll2 GAccProof GDensProof MedProps MedPropsG MedSumG MedSlopeG GasPropsG.
Import ListNotations.
Local Open Scope R_scope.
Local Notation RR := (831451 / 100000).

(* a pressure near that of d, and a density e that has it *)
Lemma back (p : R -> R) g lo top d e d' v : 0 < g -> 1 / 2 <= lo -> 0 < d <= top -> 0 < e <= top ->
  (forall a b, 0 < a -> a < b -> b <= top -> lo * g * (b - a) <= p b - p a) ->
  p e = v -> Rabs (v - p d) <= 3 / 10000000000 * (d * g) -> Rabs (d' - e) <= 1 / 10000000 * e -> returns d d'.
Proof.
  intros G L D E S Pe V N. apply Converge.Rabs_le_inv in V, N. unfold returns.
  assert (Q : Rabs (e - d) <= 6 / 10000000000 * d).
  { apply Rabs_le. destruct (Rtotal_order e d) as [H|[H|H]].
    - pose proof (S e d ltac:(lra) H ltac:(lra)) as K. assert (1 / 2 * (g * (d - e)) <= lo * (g * (d - e))) by (apply Rmult_le_compat_r; [apply Rmult_le_pos; lra|exact L]).
      assert (K2 : g * (d - e) <= g * (6 / 10000000000 * d)) by lra. apply Rmult_le_reg_l in K2; [lra|exact G].
    - subst e. lra.
    - pose proof (S d e ltac:(lra) H ltac:(lra)) as K. assert (1 / 2 * (g * (e - d)) <= lo * (g * (e - d))) by (apply Rmult_le_compat_r; [apply Rmult_le_pos; lra|exact L]).
      assert (K2 : g * (e - d) <= g * (6 / 10000000000 * d)) by lra. apply Rmult_le_reg_l in K2; [lra|exact G]. }
  apply Converge.Rabs_le_inv in Q. apply Rabs_le. lra.
Qed.

Section X.
Variable m : Libm.
Variable A : accurate m.
Local Notation B := (ArithB64 m).
Variable c : @Composition B.
Hypothesis Hc : gas_comp m c.
Variables t d : b64.
Hypothesis Ht : fin t /\ 270 <= bR t <= 350.
Local Notation T := (bR t).
Local Notation xd := (fun j => nth j (bfractions m c) B0).
Local Notation xg := (fun j => match j with O => B0 | S k => nth k (bfractions m c) B0 end).
Lemma xd_ok : forall j, (j < 21)%nat -> fin (xd j) /\ (bR (xd j) = 0 \/ bpow radix2 (-50) <= bR (xd j)).
Proof. destruct Hc as (Hx & _). intros j Hj. destruct (Hx j Hj) as [F [Z|Z]]; split; try exact F; [now left|right]. apply Rle_trans with (2 := Z). apply bpow_le. lia. Qed.
Lemma xg_ok : forall j, (1 <= j < 22)%nat -> fin (xg j) /\ (bR (xg j) = 0 \/ bpow radix2 (-49) <= bR (xg j)).
Proof. destruct Hc as (Hx & _). intros [|j] Hj; [lia|]. apply (Hx j). lia. Qed.

Lemma gauge_detail : fin d /\ 1 / 10000 <= bR d <= 55 / 100 -> exists s v, @dexec B Api.New (gauge (A := B) c t d) = Some (s, gauged (A := B) v) /\ fin v /\ 1 / 10 <= bR v <= 1750 /\
  Rabs (bR v - detail_p (fun j => bR (xd j)) T (bR d)) <= 3 / 10000000000 * (bR d * (RR * T)).
Proof.
  intros [Fd Hd]. destruct Ht as [Ft RT]. pose proof xd_ok as Hx. destruct Hc as (_ & Hg & _). set (x := xd) in *. set (r := fun j => bR (x j)) in *. change (natural_gas r) in Hg.
  assert (D0 : 0 < bR d <= 669 / 1000) by lra.
  assert (D3 : detail_D r (bR d) <= 3) by (pose proof (MedProps.D1' r Hg (bR d) D0); lra).
  destruct (AccProof.pressure_accurate m A x t d Hx) as (s & v & E & Fv & V & _).
  { apply Hg. }
  { split; [exact Ft|lra]. }
  { split; [exact Fd|right]. apply Rle_trans with (/ 1048576); [cbn; lra|lra]. }
  { exact D3. }
  change (fun j => bR (x j)) with r in V. exists s, v. split; [apply (dset_comp (A := B) c x); [exact (gas_check m c Hc)|reflexivity|exact E]|]. split; [exact Fv|].
  destruct (MedProps.zq_range r Hg T (bR d) RT D0) as [Z _]. pose proof (MedProps.S01_le r Hg T (bR d) RT D0) as S.
  assert (SZ : detail_size r T (bR d) = 1 + dsum 0 1 r T (bR d)) by (unfold r; now rewrite (AccAll2.S01 m x t d), (AccProof.s_eq m x t d)). rewrite SZ in V. clear SZ.
  unfold detail_p in *. set (z := detail_Z _ _ _) in *. set (q := dsum 0 1 _ _ _) in *. set (w := bR v) in *. clearbody z q w.
  assert (G : 2 / 10 < bR d * (RR * T) <= 55 / 100 * (2911)) by (split; nra). replace (bR d * RR * T * (1 + q)) with (bR d * (RR * T) * (1 + q)) in V by ring. replace (bR d * RR * T * z) with (bR d * (RR * T) * z) in * by ring.
  set (g := bR d * (RR * T)) in *. clearbody g. assert (V2 : Rabs (w - g * z) <= 3 / 10000000000 * g) by (apply Rle_trans with (1 := V); nra).
  split; [|exact V2]. apply Converge.Rabs_le_inv in V2. assert (902 / 1000 * g <= g * z <= 1022 / 1000 * g) by (split; nra). lra.
Qed.
Lemma round_detail i : fin d /\ 1 / 10000 <= bR d <= 55 / 100 -> exists s v s', @dexec B Api.New (gauge (A := B) c t d) = Some (s, gauged (A := B) v) /\ fin v /\
  @dexec B Api.New (measure (A := B) i c t v) = Some (s', measured (A := B)) /\ fin (dread (A := B) PD s') /\ returns (bR d) (bR (dread (A := B) PD s')).
Proof.
  intros Hd. destruct (gauge_detail Hd) as (s & v & E & Fv & Rv & V). destruct (med_detail m A xd t v i xd_ok) as (s' & e & E' & Fd' & _ & N & Re & Pe & _); try assumption.
  { apply Hc. }
  { now split. }
  exists s, v, s'. split; [exact E|]. split; [exact Fv|]. split; [apply (dset_comp (A := B) c xd); [exact (gas_check m c Hc)|reflexivity|exact E']|]. split; [exact Fd'|].
  destruct Ht as [_ RT]. destruct Hd as [_ Hd]. pose proof (med_start (bR v) T Rv RT) as Q0. pose proof (bpow_gt_0 radix2 (-17)) as B0'. cbv zeta in Re. set (d0 := bR v / RR / T) in *.
  refine (back (detail_p (fun j => bR (xd j)) T) (RR * T) (63 / 100) (1120 / 1000) (bR d) e _ (bR v) _ _ _ _ _ Pe V N); try lra.
  intros a b H1 H2 H3. apply (slope_box _ T a b (proj1 (proj2 Hc)) RT H1 H2 H3).
Qed.

Lemma size_sum y delta tau : gerg_size y delta tau = 1 + gerg_sum 1 y delta tau.
Proof.
  unfold gerg_size, gerg_sum. rewrite Rplus_assoc. f_equal. f_equal.
  - apply tot_ext. intros i Hi. f_equal. apply lsum_ext. intros [[[n k] u] e] _. unfold pure_weight, SpecAll.pure_w, pure_factor. cbv zeta. destruct e; [cbn [INR]; ring|ring].
  - apply lsum_ext. intros [[[i j] f] k] _. f_equal. apply lsum_ext. intros [[[n a] u] w] _. unfold dep_weight, SpecAll.dep_w, dep_factor. cbv zeta. ring.
Qed.
Lemma gauge_gerg : fin d /\ 1 / 10000 <= bR d <= 40 / 100 -> exists s v, @gexec B Api.New (gauge (A := B) c t d) = Some (s, gauged (A := B) v) /\ fin v /\ 1 / 10 <= bR v <= 1200 /\
  Rabs (bR v - gpres Api.New (fun j => bR (xg j)) T (bR d)) <= 3 / 10000000000 * (bR d * (Rg * T)).
Proof.
  intros [Fd Hd]. destruct Ht as [Ft RT]. assert (PRg : Rg = 8314472 / 1000000) by reflexivity. pose proof xg_ok as Hx. destruct Hc as (_ & Hg & _). set (x := xg) in *. change (natural_gas (fun j => bR (x (S j)))) in Hg. set (r := fun j => bR (x j)) in *.
  assert (D1 : / 262144 <= bR d <= 5569 / 10000) by lra. assert (Hs : 99 / 100 <= tot 21 (fun j => bR (x (S j))) <= 101 / 100) by apply Hg.
  pose proof (MedPropsG.dl x d Hg D1) as DL. change (fun j => bR (x j)) with r in DL.
  destruct (GAccProof.gpressure_accurate m A x t d Hx Hs) as (a & s & v & Ha & E & Fv & V & _).
  { split; [exact Ft|lra]. }
  { split; [exact Fd|right]. apply Rle_trans with (/ 1048576); [cbn; lra|lra]. }
  { change (fun j => bR (x j)) with r. lra. }
  change (fun j => bR (x j)) with r in V, Ha. exists s, v. split; [apply (gset_comp (A := B) c x); [exact (gas_check m c Hc)|reflexivity|exact E]|]. split; [exact Fv|].
  assert (PE : gpres Api.New r T (bR d) = bR d * Rg * T * (1 + bR d * vred r * a)).
  { destruct (gpres_alphar r (GAccProof.somer x Hs) T ltac:(lra) (bR d)) as (b & Hb & Hp & _). rewrite (vred_ext (ac r) r), (tred_ext (ac r) r) in * by (exact (GAccProof.ac_r x Hx)). rewrite Hp. do 3 f_equal.
    rewrite <- (is_derive_unique _ _ _ Ha). symmetry. apply is_derive_unique. eapply is_derive_ext; [|exact Hb]. intros e. apply alphar_ext. exact (GAccProof.ac_r x Hx). }
  rewrite <- PE in V. rewrite size_sum in V. pose proof (MedPropsG.S1 x t d Hg RT D1) as S. change (fun j => bR (x j)) with r in S.
  destruct (MedSlopeG.gp_slopes x Hx Hg T (bR d) RT ltac:(lra)) as (z & _ & _ & PZ & _ & _ & Z & _). change (fun j => bR (x j)) with r in PZ. clear PE Ha. change (gpres Api.New _ T (bR d)) with (gpres Api.New r T (bR d)). rewrite PZ in *. clear PZ.
  set (q := gerg_sum 1 _ _ _) in *. set (w := bR v) in *. clearbody q w. replace (bR d * Rg * T * (1 + q)) with (bR d * (Rg * T) * (1 + q)) in V by ring. replace (bR d * Rg * T * (1 + z)) with (bR d * (Rg * T) * (1 + z)) in * by ring.
  assert (G : 2 / 10 < bR d * (Rg * T) <= 40 / 100 * (29101 / 10)) by (rewrite PRg; split; nra).
  set (g := bR d * (Rg * T)) in *. clearbody g. assert (V2 : Rabs (w - g * (1 + z)) <= 3 / 10000000000 * g) by (apply Rle_trans with (1 := V); nra).
  split; [|exact V2]. apply Converge.Rabs_le_inv in V2. assert (868 / 1000 * g <= g * (1 + z) <= 10285 / 10000 * g) by (split; nra). lra.
Qed.
Lemma round_gerg i : (i <= 0)%Z -> fin d /\ 1 / 10000 <= bR d <= 40 / 100 -> exists s v s', @gexec B Api.New (gauge (A := B) c t d) = Some (s, gauged (A := B) v) /\ fin v /\
  @gexec B Api.New (measure (A := B) i c t v) = Some (s', measured (A := B)) /\ fin (gread (A := B) PD s') /\ returns (bR d) (bR (gread (A := B) PD s')).
Proof.
  intros Hi Hd. destruct (gauge_gerg Hd) as (s & v & E & Fv & Rv & V). destruct (medg_gerg m A xg t v i Hi xg_ok) as (s' & e & E' & Fd' & _ & N & Re & Pe & _); try assumption.
  { apply Hc. }
  { now split. }
  exists s, v, s'. split; [exact E|]. split; [exact Fv|]. split; [apply (gset_comp (A := B) c xg); [exact (gas_check m c Hc)|reflexivity|exact E']|]. split; [exact Fd'|].
  assert (PRg : Rg = 8314472 / 1000000) by reflexivity. pose proof Ht as [_ RT]. destruct Hd as [_ Hd]. pose proof (medg_start (bR v) T Rv RT) as Q0. pose proof (bpow_gt_0 radix2 (-17)) as B0'. cbv zeta in Re. set (d0 := bR v / Rg / T) in *.
  refine (back (gpres Api.New (fun j => bR (xg j)) T) (Rg * T) (64 / 100) (7 / 5 * (534545 / 1000000)) (bR d) e _ (bR v) _ _ _ _ _ Pe V N); try lra.
  - rewrite PRg. lra.
  - intros a b H1 H2 H3. apply (slope_box_g xg t a b xg_ok (proj1 (proj2 Hc)) Ht H1 H2 H3).
Qed.
End X.
