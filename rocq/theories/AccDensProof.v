(* What an Ok from density() means in double precision (DETAIL). *)
From Coq Require Import Reals ZArith List Bool Lra Lia Psatz.
From Coquelicot Require Import Coquelicot.
From Flocq Require Import Core BinarySingleNaN.
From Interval Require Import Tactic.
From Verif Require Import FArith Prelude Tab ArithB64 B64Lemmas ArithR RSum SpecDetail SpecStd SpecAcc SpecSlope SpecHistory DetailTables DetailModel DetailPure DetailRefine DetailEval
  DetailEos Api ApiSafe BasicProofs GenericLemmas SpecGeneric HistoryDetail NewtonReal DetailThermo  Drift StdDetailProof B64Err AccFold AccMix AccMix2 AccMix3 AccMix4 AccEos AccProof AccSlope AccSlopeProof ConvDetail SlopeReal AccDens.
Import ListNotations.
Local Open Scope R_scope.

Lemma ln_diff a b : 0 < a -> 0 < b -> Rabs (a - b) <= Rmax a b * Rabs (ln a - ln b).
Proof.
  intros Ha Hb. assert (G : forall a b, 0 < a -> 0 < b -> b - a <= b * (ln b - ln a)).
  { clear. intros a b Ha Hb. pose proof (ln_le1 (a / b) ltac:(apply Rdiv_lt_0_compat; lra)) as L. unfold Rdiv in L. rewrite ln_mult, ln_Rinv in L by (try apply Rinv_0_lt_compat; lra).
    assert (b * (ln a - ln b) <= b * (a * / b - 1)) by (apply Rmult_le_compat_l; lra). replace (b * (a * / b - 1)) with (a - b) in H by (field; lra). lra. }
  destruct (Rle_lt_dec a b) as [L|L].
  - rewrite Rmax_right by exact L. rewrite (Rabs_minus_sym a b), (Rabs_minus_sym (ln a)), !Rabs_pos_eq; [now apply G| |lra]. apply ln_mono in L; lra.
  - rewrite Rmax_left by lra. apply Rlt_le in L. rewrite !Rabs_pos_eq; [now apply G| |lra]. apply ln_mono in L; lra.
Qed.
(* the arithmetic of the two cases *)
Lemma two_cases (P p p0 p1 S0 S : R) : 0 < P -> 0 < p -> 0 < S0 -> Rabs (p - p0) <= 3 / 20000000000 * S0 ->
  Rabs (ln p - ln P) * p <= (1 + 2 / 10000) / 10000000 * S0 -> Rabs (p1 - p0) <= 1 / 9900000 * (1 + 1 / 1000) * S0 -> S0 <= (1 + 2 / 10000) * S ->
  Rabs (p1 - P) <= 31 / 100000000 * S \/ p1 <= 25 / 100000000 * S.
Proof.
  intros HP Hp HS E1 E2 E3 E4. apply Rabs_le_inv in E1, E3.
  destruct (Rle_lt_dec P (2 * p)) as [L|L].
  - left. pose proof (ln_diff p P Hp HP) as G. pose proof (Rabs_pos (ln p - ln P)) as A0.
    assert (Rmax p P * Rabs (ln p - ln P) <= 2 * (Rabs (ln p - ln P) * p)) as G2.
    { replace (2 * (Rabs (ln p - ln P) * p)) with (2 * p * Rabs (ln p - ln P)) by ring. apply Rmult_le_compat_r; [exact A0|]. apply Rmax_lub; lra. }
    assert (G3 : Rabs (p - P) <= 2 * ((1 + 2 / 10000) / 10000000 * S0)) by lra. apply Rabs_le_inv in G3. apply Rabs_le. lra.
  - right. assert (ln 2 <= Rabs (ln p - ln P)) as G.
    { rewrite Rabs_minus_sym. eapply Rle_trans; [|apply Rle_abs]. assert (ln (2 * p) <= ln P) by (apply ln_mono; lra). rewrite ln_mult in H by lra. lra. }
    assert (69 / 100 <= ln 2) by interval. assert (69 / 100 * p <= Rabs (ln p - ln P) * p) by (apply Rmult_le_compat_r; lra). lra.
Qed.

Lemma ofZ_R z : (Z.abs z < 2 ^ 53)%Z -> bR (bofZ z) = IZR z.
Proof.
  intros H. pose proof (binary_normalize_correct 53 1024 _ _ mode_NE z 0 false) as C. cbv zeta in C. fold (bofZ z) in C.
  replace (F2R {| Fnum := z; Fexp := 0 |}) with (IZR z) in C by (unfold F2R; cbn; ring).
  change (SpecFloat.fexp 53 1024) with fexp64 in C. cbn [round_mode] in C. rewrite round_generic in C; [|apply valid_rnd_N|].
  2: { apply generic_format_FLT. exists (Float radix2 z 0); [unfold F2R; cbn; ring|exact H|cbn; lia]. }
  rewrite Rlt_bool_true in C; [apply C|]. rewrite <- abs_IZR. apply Rlt_trans with (bpow radix2 53); [|apply bpow_lt; lia].
  change (bpow radix2 53) with (IZR (2 ^ 53)). now apply IZR_lt.
Qed.

Section Final.
Variable m : Libm.
Hypothesis A : accurate m.
Local Notation B := (ArithB64 m).
Local Notation RR := (831451 / 100000).
Lemma nth21 (l : list b64) : length l = 21%nat -> map (fun j => nth j l B0) (seq 0 21) = l.
Proof. intros H. do 21 (destruct l as [|? l]; [discriminate H|]). destruct l; [reflexivity|discriminate H]. Qed.
Lemma eps_R : fin (blit (L 1 (-15))) /\ p2 (-50) <= bR (blit (L 1 (-15))).
Proof.
  destruct (lit_err (L 1 (-15)) (-50) (-49) eq_refl ltac:(zc)) as [L1 L2]. split; [exact L1|]. change (Rlit (L 1 (-15))) with (@EPSILON ArithR) in L2. rewrite lit15 in L2.
  rewrite (Rabs_pos_eq (1 / 1000000000000000)) in L2 by lra. apply Rabs_le_inv in L2. rewrite u64_val in L2. change (p2 (-50)) with (/ 1125899906842624). lra.
Qed.
Lemma above v : fin v -> Bltb v (blit (L 1 (-15))) = false -> p2 (-50) <= bR v.
Proof.
  intros F H. destruct eps_R as [L1 L2]. rewrite lt_fin in H by assumption. destruct (Rlt_bool_spec (bR v) (bR (blit (L 1 (-15))))) as [G|G]; [discriminate H|lra].
Qed.
Lemma v_range v : Bleb (blit (L (-7) 0)) v && Bleb v (blit (L 100 0)) = true -> fin v /\ -7 <= bR v <= 100.
Proof.
  intros H. apply andb_true_iff in H. destruct H as [H1 H2].
  assert (F7 : fin (blit (L (-7) 0)) /\ bR (blit (L (-7) 0)) = -7) by (split; [reflexivity|exact (ofZ_R (-7) ltac:(lia))]).
  assert (F100 : fin (blit (L 100 0)) /\ bR (blit (L 100 0)) = 100) by (split; [reflexivity|exact (ofZ_R 100 ltac:(lia))]).
  destruct F7 as [F7 E7]. destruct F100 as [F100 E100].
  assert (F : fin v). { unfold fin. destruct v as [b|b| |b mm e hh]; try reflexivity; exfalso; destruct b || idtac; try (cbv in H1; discriminate H1); cbv in H2; discriminate H2. }
  split; [exact F|]. rewrite le_fin, E7 in H1 by assumption. rewrite le_fin, E100 in H2 by assumption.
  split; [destruct (Rle_bool_spec (-7) (bR v)); [assumption|discriminate]|destruct (Rle_bool_spec (bR v) 100); [assumption|discriminate]].
Qed.
Lemma density_double l i (s s' : @Detail B) o : @dexec B New l = Some (s, o) -> separated 0 (dasked (l ++ [Density (A := B) i])) ->
  dstep (A := B) (Density i) s = Some (s', ODens (A := B) ROk) ->
  let r j := bR (nth j (d_x s) B0) in let T := dread (A := B) PT s in let P := dread (A := B) PP s in let d := dread (A := B) PD s' in
  (forall j, (j < 21)%nat -> fin (nth j (d_x s) B0) /\ (r j = 0 \/ p2 (-50) <= r j)) ->
  99 / 100 <= tot 21 r <= 101 / 100 -> fin T /\ 32 <= bR T <= 2048 -> fin P /\ 0 < bR P ->
  p2 (-19) <= bR d -> detail_D r (bR d) <= 299 / 100 ->
  let S := bR d * RR * bR T * slope_size r (bR T) (bR d) in
  Rabs (detail_p r (bR T) (bR d) - bR P) <= 31 / 100000000 * S \/ detail_p r (bR T) (bR d) <= 25 / 100000000 * S.
Proof.
  intros E HV ED r T P d Hx Hs HT [FP HP] Hd HD S.
  destruct (@d_hinv B New l [Density (A := B) i] s o E HV) as (Hh & Hin & HL).
  specialize (Hin _ (or_introl eq_refl)). pose proof (HL _ _ Hin) as Lx.
  apply (@ddens_step B) in ED. destruct ED as [(ED & _)|(EP & n & _ & SS)]; [discriminate ED|].
  destruct (@dsearch_hist B dp_new _ HV HL _ _ _ _ _ _ _ SS eq_refl (@HistoryDetail.hinv_poke B dp_new _ PD (@dguess B s) s Hh) Hin)
    as (v0 & w & Hv & Hq & Hp & Hw & Hc & Hd'). cbv zeta beta in *.
  change (d_x (set_d_d (@dguess B s) s)) with (d_x s) in *. change (d_t (set_d_d (@dguess B s) s)) with T in *.
  change (DetailModel.d_p s) with P in *.
  set (xs := fun j => nth j (d_x s) B0) in *. assert (X21 : d_x s = map xs (seq 0 21)) by (symmetry; apply nth21, Lx).
  rewrite X21 in Hp, Hq, Hw. clear SS Hin Hh HL HV E.
  change (@fexp B (@fneg B v0)) with (lm_exp m (Bopp v0)) in *.
  set (d0 := lm_exp m (Bopp v0)) in *.
  set (K := @cache_of B dp_new (Some (map xs (seq 0 21))) (Some T)) in *.
  set (p := @pp B K T d0) in *. set (q := @pdpdd B K T d0) in *.
  change (Bleb (blit (L (-7) 0)) v0 && Bleb v0 (blit (L 100 0)) = true) in Hv.
  change (Bltb q (blit (L 1 (-15))) = false) in Hq. change (Bltb p (blit (L 1 (-15))) = false) in Hp.
  change (w = wN m P p q d0) in Hw. change (Bltb (Babs w) (blit (L 1 (-7))) = true) in Hc.
  change (d_d s') with d in Hd'. change (d = lm_exp m (Bopp (bsub v0 w))) in Hd'.
  change (Bltb (Babs P) (blit (L 1 (-15))) = false) in EP.
  assert (HP' : p2 (-50) <= bR P).
  { apply above in EP; [|unfold fin; rewrite is_finite_Babs; exact FP]. unfold bR in EP at 1. rewrite B2R_Babs in EP. fold (bR P) in EP. rewrite Rabs_pos_eq in EP; lra. }
  destruct (v_range v0 Hv) as [Fv Hv'].
  assert (Fw : fin w /\ Rabs (bR w) <= 1 / 10000000 * (1 + 1 / 1000000000)).
  { destruct tol_R as [L1 L2]. assert (F : fin w). { unfold fin. destruct w; try reflexivity; cbv in Hc; discriminate Hc. }
    split; [exact F|]. rewrite lt_fin in Hc; [|unfold fin; rewrite is_finite_Babs; exact F|exact L1]. unfold bR in Hc at 1. rewrite B2R_Babs in Hc. fold (bR w) in Hc.
    destruct (Rlt_bool_spec (Rabs (bR w)) (bR (blit (L 1 (-7))))) as [G|G]; [lra|discriminate Hc]. }
  destruct Fw as [Fw Bw]. destruct (step_d m A v0 w Fv Hv' Fw Bw) as (Fd0 & Fd & Rd0 & Pd & S1 & S2). fold d0 in Fd0, Rd0, S1, S2. rewrite <- Hd' in Fd, Pd, S1, S2.
  set (z := bR d0) in *. set (y := bR d) in *. set (t := bR T) in *.
  assert (Z20 : p2 (-20) <= z). { replace (-19)%Z with (-20 + 1)%Z in Hd by lia. rewrite bpow_plus in Hd. change (bpow radix2 1) with 2 in Hd. pose proof (p2_pos (-20)). lra. }
  assert (Z0 : 0 < z) by (pose proof (p2_pos (-20)); lra).
  assert (DZ : detail_D r z <= 3).
  { unfold detail_D in *. set (kap := Rpower (sizeK5 r) (1 / 5) ^ 3) in *. assert (0 < kap) by apply (kap_pos r). assert (kap * z <= (1 + 1 / 9900000) * (kap * y)) by nra. lra. }
  assert (AP : ap 1202380 (-20) 600 p (detail_p r t z) (z * RR * t * detail_size r t z)) by exact (press_ap m A xs T d0 Hx Hs HT (conj Fd0 (or_intror Z20)) DZ).
  assert (AQ : exists dp, ap 1210660 8 500 q dp (RR * t * slope_size r t z)) by (eexists; exact (slope_ap m A xs T d0 Hx Hs HT (conj Fd0 (or_intror Z20)) DZ)).
  destruct AP as (Fp & E1 & B1 & R1). destruct AQ as (dp & Fq & E2 & B2 & R2).
  pose proof (size_le_slope r t z ltac:(lra)) as SL. pose proof (slope_ge1 r t z ltac:(lra)) as SG.
  set (p0 := detail_p r t z) in *.
  set (sz := detail_size r t z) in *. set (sl := slope_size r t z) in *.
  assert (T0 : 32 <= t <= 2048) by apply HT.
  assert (zt : 0 < z * RR * t) by (apply Rmult_lt_0_compat; lra).
  assert (M1 : z * RR * t * sz <= z * RR * t * sl) by (apply Rmult_le_compat_l; lra).
  assert (M0 : 0 <= z * RR * t * sz) by (exact (rng_ge0 _ _ _ R1)).
  assert (Q0 : 0 < RR * t * sl) by (apply Rmult_lt_0_compat; lra).
  set (S0 := z * RR * t * sl) in *. assert (S0p : 0 < S0) by (unfold S0; apply Rmult_lt_0_compat; lra).
  assert (E1' : Rabs (bR p - p0) <= 3 / 20000000000 * S0).
  { eapply Rle_trans; [exact E1|]. rewrite u64_val. lra. }
  assert (Pp : bR p <= (1 + 3 / 20000000000) * S0) by (apply Rabs_le_inv in E1', B1; lra).
  assert (Qq : bR q <= (1 + 3 / 20000000000) * (RR * t * sl)) by (apply Rabs_le_inv in E2, B2; rewrite u64_val in E2; lra).
  assert (Pt : bR p <= p2 650).
  { pose proof (rng_le _ _ _ R1) as G. apply Rabs_le_inv in E1, B1. rewrite u64_val in E1. apply Rle_trans with (2 * p2 600); [lra|].
    replace (2 * p2 600) with (p2 601); [apply bpow_le; lia|]. replace 601%Z with (1 + 600)%Z by lia. rewrite bpow_plus. reflexivity. }
  assert (Qt : bR q <= p2 550).
  { pose proof (rng_le _ _ _ R2) as G. apply Rabs_le_inv in E2, B2. rewrite u64_val in E2. apply Rle_trans with (2 * p2 500); [lra|].
    replace (2 * p2 500) with (p2 501); [apply bpow_le; lia|]. replace 501%Z with (1 + 500)%Z by lia. rewrite bpow_plus. reflexivity. }
  pose proof (above p Fp Hp) as Pl. pose proof (above q Fq Hq) as Ql.
  rewrite Hw in Hc. destruct (accepted m A P p q d0 FP HP' Fp (conj Pl Pt) Fq (conj Ql Qt) Fd0 Rd0 Hc) as (_ & _ & AC). fold z in AC.
  assert (PC : Rabs (detail_p r t y - p0) <= (1 + 1 / 9900000 - 1) * (1 + 1 / 1000) * S0).
  { apply p_close; try lra; exact DZ. }
  pose proof (slope_ratio r t (1 + 1 / 9900000) z y ltac:(lra) ltac:(lra) ltac:(lra) S2 S1 ltac:(lra)) as SR. fold sl in SR.
  pose proof (slope_ge1 r t y ltac:(lra)) as SY.
  apply (two_cases (bR P) (bR p) p0 (detail_p r t y) S0 S); try lra.
  - pose proof (p2_pos (-50)). lra.
  - eapply Rle_trans; [exact AC|]. assert (z * bR q <= (1 + 3 / 20000000000) * S0). { replace ((1 + 3 / 20000000000) * S0) with (z * ((1 + 3 / 20000000000) * (RR * t * sl))) by (unfold S0; ring). apply Rmult_le_compat_l; lra. } lra.
  - unfold S0, S. fold y t. set (sy := slope_size r t y) in *.
    apply Rle_trans with ((1 + 1 / 9900000) * y * RR * t * ((1 + 1 / 10000) * sy)).
    + apply Rmult_le_compat; [lra|lra| |exact SR]. apply Rmult_le_compat_r; [lra|]. apply Rmult_le_compat_r; lra.
    + assert (0 <= y * RR * t * sy) by (repeat apply Rmult_le_pos; lra).
      replace ((1 + 1 / 9900000) * y * RR * t * ((1 + 1 / 10000) * sy)) with ((1 + 1 / 9900000) * (1 + 1 / 10000) * (y * RR * t * sy)) by ring. apply Rmult_le_compat_r; lra.
Qed.
End Final.
