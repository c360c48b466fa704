(* The pressure, the compressibility factor and dp/dd as properties() of DETAIL computes them in double precision. *)
From Coq Require Import Reals ZArith List Bool Lra Lia Psatz.
From Coquelicot Require Import Coquelicot.
From Flocq Require Import Core BinarySingleNaN.
From Verif Require Import FArith Prelude Tab ArithB64 B64Lemmas ArithR RSum SpecDetail SpecStd SpecAcc SpecSlope SpecHistory SpecGeneric DetailTables DetailModel DetailPure DetailRefine DetailEval
  DetailEos Api ApiSafe BasicProofs GenericLemmas HistoryDetail NewtonReal Drift StdDetailProof B64Err AccFold AccMix AccMix2 AccMix3 AccMix4 AccEos AccProof AccSlope AccSlopeProof SlopeReal AccDens AccDensProof.
Import ListNotations.
Local Open Scope R_scope.
Local Notation RR := (831451 / 100000).

Section T.
Variable m : Libm.
Hypothesis A : accurate m.
Local Notation B := (ArithB64 m).
Variable X : nat -> b64.
Hypothesis HX : forall i, (i < 21)%nat -> fin (X i) /\ rng (-50) 1 (bR (X i)).
Hypothesis Hs : 99 / 100 <= sum 21 (xr X) <= 101 / 100.
Variables T d : b64.
Hypothesis HT : fin T /\ p2 5 <= bR T <= p2 11.
Hypothesis Hd : fin d /\ (bR d = 0 \/ p2 (-20) <= bR d).
Local Notation t := (bR T).
Local Notation D := (sizeK (xr X) ^ 3 * bR d).
Hypothesis HD : D <= 3.
Local Notation kB := (AccEos.kB m X T).
Local Notation tx := (AccEos.tx X T d).
Local Notation tM := (AccEos.tM X T d).
Lemma aqz : ap 1202370 0 470 (@qz B kB T d) (1 + sum 58 tx) (1 + sum 58 tM).
Proof.
  unfold qz, qrt. cbn [fadd fdiv fmul ArithB64]. pose proof (t_pos T HT) as H0.
  assert (ap 1202368 (-942) 463 (bdiv (@ar01 B kB T d) (bmul (@RDETAIL B) T)) (sum 58 tx) (sum 58 tM)) as Q.
  { eapply ap_eq; [eapply ap_weak; [eapply ap_div; [exact (aar1 m A X HX Hs T d HT Hd HD)|exact (aRT1 m T HT)|apply Rmult_lt_0_compat; lra|zc|zc|zc|zc]|zc|zc|zc]| |];
    field; lra. }
  change 1202370%Z with (Z.max 1 1202368 + 2)%Z. eapply ap_add; [exact (a1 m)|exact Q|zc|zc|zc|].
  assert (R : rng (-942) 463 (sum 58 tM)) by apply Q. pose proof (rng_ge0 _ _ _ R). pose proof (rng_le _ _ _ R) as R1. right.
  change (p2 0) with 1. split; [lra|]. change 470%Z with (7 + 463)%Z. rewrite bpow_plus. change (p2 7) with 128.
  assert (1 <= p2 463) by (change 1 with (p2 0); apply bpow_le; lia). lra.
Qed.
Lemma aqp : ap 1202380 (-20) 600 (@qp B kB T d) (bR d * RR * t * (1 + sum 58 tx)) (bR d * RR * t * (1 + sum 58 tM)).
Proof.
  unfold qp, qrt. cbn [fmul ArithB64].
  eapply ap_eq; [eapply ap_weak; [eapply ap_mul; [eapply ap_mul; [exact (ad m A X HX Hs d Hd HD)|exact (aRT1 m T HT)|zc|zc|zc|zc]|exact aqz|zc|zc|zc|zc]|zc|zc|zc]|ring|ring].
Qed.
End T.

Section F.
Variable m : Libm.
Hypothesis A : accurate m.
Let B := ArithB64 m.
Lemma props_fields l (s : @Detail B) o : @dexec B New l = Some (s, o) -> separated 0 (dasked (l ++ [Properties (A := B)])) ->
  let r j := bR (nth j (d_x s) B0) in let t := dread (A := B) PT s in let d := dread (A := B) PD s in
  (forall j, (j < 21)%nat -> fin (nth j (d_x s) B0) /\ (r j = 0 \/ p2 (-50) <= r j)) ->
  99 / 100 <= tot 21 r <= 101 / 100 -> fin t /\ 32 <= bR t <= 2048 ->
  fin d /\ p2 (-20) <= bR d -> detail_D r (bR d) <= 3 ->
  exists s', dstep (A := B) Properties s = Some (s', OUnit (A := B)) /\
    let p := dread (A := B) PP s' in let z := dread (A := B) PZ s' in let q := dread (A := B) PDpDd s' in
    fin p /\ Rabs (bR p - detail_p r (bR t) (bR d)) <= 3 / 20000000000 * (bR d * RR * bR t * detail_size r (bR t) (bR d)) /\
    fin z /\ Rabs (bR z - detail_Z r (bR t) (bR d)) <= 3 / 20000000000 * detail_size r (bR t) (bR d) /\
    fin q /\ Rabs (bR q - Derive (detail_p r (bR t)) (bR d)) <= 3 / 20000000000 * (RR * bR t * slope_size r (bR t) (bR d)).
Proof.
  intros E HV r t d Hx Hs HT [Fd Hd] HD.
  destruct (@d_hinv B New l [Properties (A := B)] s o E HV) as (Hh & Hin & HL).
  specialize (Hin _ (or_introl eq_refl)). pose proof (HL _ _ Hin) as Lx.
  destruct (@HistoryDetail.props_hist B dp_new _ HV HL s Hh Hin) as (s' & E' & _ & _ & Hf).
  exists s'. split. { cbn [dstep]. rewrite E'. reflexivity. }
  cbv zeta. rewrite !Hf. clear Hf E'.
  set (xs := fun j => nth j (d_x s) B0) in *. assert (X21 : d_x s = map xs (seq 0 21)) by (symmetry; apply nth21, Lx).
  assert (Hd' : fin d /\ (bR d = 0 \/ p2 (-20) <= bR d)) by (split; [exact Fd|now right]).
  change (d_t s) with t in *. change (d_d s) with d in *. rewrite X21.
  set (X := @xf B (map xs (seq 0 21))).
  match goal with |- fin (dread PP (res_st ?k _ _ _ _)) /\ _ => set (K := k) end.
  assert (AP : ap 1202380 (-20) 600 (@qp B K t d) (detail_p r (bR t) (bR d)) (bR d * RR * bR t * detail_size r (bR t) (bR d))).
  { pose proof (aqp m A X (HX' m xs Hx Hs) (Hs' m xs Hs) t d HT Hd' (HD' m xs d HD)) as Q1.
    eapply ap_eq; [exact Q1|exact (p_eq m xs t d)|]. apply (f_equal (fun y => bR d * RR * bR t * y)). exact (s_eq m xs t d). }
  assert (AZ : ap 1202370 0 470 (@qz B K t d) (detail_Z r (bR t) (bR d)) (detail_size r (bR t) (bR d))).
  { pose proof (aqz m A X (HX' m xs Hx Hs) (Hs' m xs Hs) t d HT Hd' (HD' m xs d HD)) as Q1.
    eapply ap_eq; [exact Q1|exact (z_eq m xs t d)|exact (s_eq m xs t d)]. }
  pose proof (slope_accurate m A xs t d Hx Hs HT Hd' HD Hd) as [F3 E3].
  destruct AP as (F1 & E1 & _ & R1). destruct AZ as (F2 & E2 & _ & R2). pose proof (rng_ge0 _ _ _ R1) as G1. pose proof (rng_ge0 _ _ _ R2) as G2.
  rewrite u64_val in E1, E2.
  split; [exact F1|]. split; [|split; [exact F2|split; [|split; [exact F3|exact E3]]]].
  - eapply Rle_trans; [exact E1|]. apply Rmult_le_compat_r; lra.
  - eapply Rle_trans; [exact E2|]. apply Rmult_le_compat_r; lra.
Qed.
End F.
