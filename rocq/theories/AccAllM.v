(* properties() of DETAIL in double precision after any history. *)
From Coq Require Import Reals ZArith List Bool Lra Lia Psatz FunctionalExtensionality.
From Coquelicot Require Import Coquelicot.
From Flocq Require Import Core BinarySingleNaN.
From Verif Require Import FArith Prelude Tab ArithB64 B64Lemmas ArithR RSum SpecDetail SpecIdeal SpecStd SpecAcc SpecAll SpecAllF SpecAllD SpecHistory DetailTables DetailModel DetailPure DetailRefine DetailEval Api ApiSafe BasicProofs HistoryDetail SpecReal Thermo DetailReal DetailThermo
  DetailEos Drift StdDetailProof NewtonReal B64Err AccFold AccMix AccMix2 AccEos AccProof AccSlope AccDensProof GAllIdeal GAllIdeal2 GAllProps GAllFin AccAll1 AccAll2 AccAllI AccAllF.
Import ListNotations.
Local Open Scope R_scope.

Section MM.
Variable m : Libm.
Local Notation B := (ArithB64 m).
Variable X : nat -> b64.
Hypothesis HX : forall i, (i < 21)%nat -> fin (X i) /\ rng (-50) 1 (bR (X i)).
Lemma dmm_chk : forallb (inok 1 8) D_MMI = true. Proof. reflexivity. Qed.
Lemma dmm : ap 50 (-60) 20 (@pmm B X) (@pmm ArithR (fun i => bR (X i))) (@pmm ArithR (fun i => bR (X i))).
Proof.
  assert (E : @pmm ArithR (fun i => bR (X i)) = 0 + rsum (fun i => bR (X i) * Rlit (nth i D_MMI (L 0 0))) (seq 0 21)).
  { exact (rsum_fold (fun i => bR (X i) * @lv ArithR D_MMI i) (seq 0 21) 0). }
  rewrite E. unfold pmm. change (@f0 B) with B0.
  eapply ap_weak; [apply (ap_fold (fun _ => true) (fun i => bmul (X i) (blit (nth i D_MMI (L 0 0)))) (fun i => bR (X i) * Rlit (nth i D_MMI (L 0 0))) (fun i => bR (X i) * Rlit (nth i D_MMI (L 0 0))) 4 (-49) 9 5 (seq 0 21) B0 0 0 4 0); try zc|cbn; lia|lia|lia].
  - intros i Hi _. apply in_seq in Hi. destruct (HX i ltac:(lia)) as [F Rx]. pose proof (rng_ge0 _ _ _ Rx).
    assert (ap 0 (-50) 1 (X i) (bR (X i)) (bR (X i))) as Q.
    { eapply ap_eq; [apply ap_exact; [exact F|]|reflexivity|]; rewrite Rabs_pos_eq by lra; [exact Rx|reflexivity]. }
    eapply ap_weak; [eapply ap_mul; [exact Q|apply (ap_inok _ 1 8); [apply inok_nth; exact dmm_chk|zc]|zc|zc|zc|zc]|zc|zc|zc].
  - eapply ap_weak; [apply (ap_0 (-49) (9 + 5))|lia|lia|lia].
  - rewrite Rmult_0_l. apply Rle_refl.
  - rewrite seq_length. zc.
  - rewrite seq_length. zc.
Qed.
End MM.

Definition dfield {A : Arith} {P : DParams} (k : cache) (X : nat -> F) (t d : F) (f : pfield) : F := match f with
  | PP => qp k t d | PZ => qz k t d | PMM => pmm X
  | PDpDd => qdpdd k t d | PD2pDd2 => qd2pdd2 k t d
  | PDpDt => qdpdt k d | PU => qu k X t d
  | PH => qh k X t d | PS => qs k X t d
  | PCv => qcv k X t d | PCp => qcp k X t d
  | PW => qw k X t d | PG => qg k X t d
  | PJt => qjt k X t d | PKappa => qkappa k X t d
  | _ => f0
  end.
Lemma dfield_ok {A : Arith} {P : DParams} k X t d s f : match f with PT | PD | PD2pDtd => False | _ => True end ->
  dread f (res_st k X t d (set_d_mm (pmm X) s)) = dfield k X t d f.
Proof. destruct f; intros H; try contradiction H; reflexivity. Qed.

Section Final.
Variable m : Libm.
Hypothesis A : accurate m.
Local Notation B := (ArithB64 m).
Variables (x : nat -> b64) (t d : b64).
Local Notation r := (fun i => bR (x i)).
Hypothesis Hx : forall i, (i < 21)%nat -> fin (x i) /\ (r i = 0 \/ p2 (-50) <= r i).
Hypothesis Hs : 99 / 100 <= tot 21 r <= 101 / 100.
Hypothesis HT : fin t /\ 32 <= bR t <= 2048.
Hypothesis Hd : fin d /\ p2 (-20) <= bR d.
Hypothesis HD : detail_D r (bR d) <= 3.
Local Notation X := (@xf B (map x (seq 0 21))).
Local Notation Y := (fun i => bR (X i)).
Local Notation kB := (AccEos.kB m X t).
Local Notation kR := (DetailThermo.dk New r (bR t)).
Local Notation S w e := (dsum w e r (bR t) (bR d)).
Lemma Hd' : fin d /\ (bR d = 0 \/ p2 (-20) <= bR d). Proof. split; [apply Hd|right; apply Hd]. Qed.
Lemma Hdd : fin d /\ p2 (-20) <= bR d <= p2 10.
Proof.
  split; [apply Hd|]. split; [apply Hd|]. destruct (ad m A X (AccProof.HX' m x Hx Hs) (AccProof.Hs' m x Hs) d Hd' (AccProof.HD' m x d HD)) as (_ & _ & _ & R). exact (rng_le _ _ _ R).
Qed.
Lemma dX_Y : dX r = Y.
Proof.
  apply functional_extensionality. intros i. destruct (Nat.lt_ge_cases i 21) as [H|H].
  - rewrite dX_i by exact H. now rewrite (X_i m).
  - unfold dX, xf, xl. rewrite !nth_overflow by (rewrite map_length, seq_length; exact H). reflexivity.
Qed.
Local Notation HX2 := (AccProof.HX' m x Hx Hs). Local Notation Hs2 := (AccProof.Hs' m x Hs). Local Notation HD2 := (AccProof.HD' m x d HD).
Lemma K00 : ap 1194071 (-927) 454 (@ar00 B kB t d) (@ar00 ArithR kR (bR t) (bR d)) (RD * bR t * S 0%nat 0%nat).
Proof. rewrite (R00 m x t d Hx Hs HT), (S00 m x t d). exact (aar0 m A X HX2 Hs2 t d HT Hd' HD2). Qed.
Lemma K01 : ap 1202361 (-927) 471 (@ar01 B kB t d) (@ar01 ArithR kR (bR t) (bR d)) (RD * bR t * S 0%nat 1%nat).
Proof. rewrite (R01 m x t d Hx Hs HT), (S01 m x t d). exact (aar1 m A X HX2 Hs2 t d HT Hd' HD2). Qed.
Lemma K02 : ap 1210653 (-927) 489 (@ar02 B kB t d) (@ar02 ArithR kR (bR t) (bR d)) (RD * bR t * S 0%nat 2%nat).
Proof. rewrite (R02 m x t d Hx Hs HT), (S02 m x t d). exact (aar2 m A X HX2 Hs2 t d HT Hd' HD2). Qed.
Lemma K03 : ap 1218953 (-927) 509 (@ar03 B kB t d) (@ar03 ArithR kR (bR t) (bR d)) (RD * bR t * S 0%nat 3%nat).
Proof. rewrite (R03 m x t d Hx Hs HT), (S03 m x t d). exact (aar3 m A X HX2 Hs2 t d HT Hd' HD2). Qed.
Lemma K10 : ap 1194074 (-932) 449 (@ar10 B kB d) (@ar10 ArithR kR (bR d)) (RD * S 1%nat 0%nat).
Proof. rewrite (R10 m x t d Hx Hs HT), (S10 m x t d). exact (aar10 m A X HX2 Hs2 t d HT Hd' HD2). Qed.
Lemma K11 : ap 1202364 (-932) 466 (@ar11 B kB d) (@ar11 ArithR kR (bR d)) (RD * S 1%nat 1%nat).
Proof. rewrite (R11 m x t d Hx Hs HT), (S11 m x t d). exact (aar11 m A X HX2 Hs2 t d HT Hd' HD2). Qed.
Lemma K20 : ap 1194078 (-934) 454 (@ar20 B kB d) (@ar20 ArithR kR (bR d)) (RD * S 2%nat 0%nat).
Proof. rewrite (R20 m x t d Hx Hs HT), (S20 m x t d). exact (aar20 m A X HX2 Hs2 t d HT Hd' HD2). Qed.
Lemma isum_ext e : dideal_sum e Y (bR t) (bR d) = dideal_sum e r (bR t) (bR d).
Proof. unfold dideal_sum. change (tot 21) with (sum 21). apply sum_ext. intros i Hi. now rewrite (X_i m) by exact Hi. Qed.
Local Notation I e := (dideal_sum e r (bR t) (bR d)).
Lemma J : ap 18500 (-700) 390 (@xf B (@pa0 B dp_new X t d) 0) (@xf ArithR (@pa0 ArithR dp_new Y (bR t) (bR d)) 0) (RD * bR t * I 0%nat) /\
  ap 18500 (-700) 390 (@xf B (@pa0 B dp_new X t d) 1) (@xf ArithR (@pa0 ArithR dp_new Y (bR t) (bR d)) 1) (RD * I 1%nat) /\
  ap 18500 (-700) 390 (@xf B (@pa0 B dp_new X t d) 2) (@xf ArithR (@pa0 ArithR dp_new Y (bR t) (bR d)) 2) (RD * I 2%nat).
Proof. rewrite <- !isum_ext. exact (dpa0 m A t HT X HX2 d Hdd). Qed.
Lemma epsD : IZR 1218990 * u64 <= 3 / 20000000000.
Proof. rewrite u64_val. lra. Qed.
Lemma goodD k a b v y M : ap k a b v y M -> (0 <= k <= 1218990)%Z -> fin v /\ Rabs (bR v - y) <= 3 / 20000000000 * M.
Proof.
  intros (F & E & _ & R) Hk. split; [exact F|]. eapply Rle_trans; [exact E|]. apply Rmult_le_compat_r; [exact (rng_ge0 _ _ _ R)|].
  eapply Rle_trans; [|exact epsD]. apply Rmult_le_compat_r; [apply Rlt_le, u_pos|apply IZR_le; lia].
Qed.
Lemma T7 : 1 / 10000000 < bR t. Proof. lra. Qed.
Local Notation fB f := (@dfield B dp_new kB X t d f).
Lemma fields f : detail_field f -> fin (fB f) /\ Rabs (bR (fB f) - dprop New f r (bR t) (bR d)) <= 3 / 20000000000 * dfield_size f r (bR t) (bR d).
Proof.
  intros Hf. rewrite (dprop_ok New r f (bR t) (bR d) T7).
  pose proof K00 as H00. pose proof K01 as H01. pose proof K02 as H02. pose proof K03 as H03. pose proof K10 as H10. pose proof K11 as H11. pose proof K20 as H20.
  destruct J as (J0 & J1 & J2). pose proof Hdd as D. pose proof dX_Y as EX.
  destruct f; try contradiction Hf; clear Hf; cbn [dfield dvals dfield_size]; rewrite ?EX.
  1: eapply goodD; [exact (fp m kB kR (fun w e => S w e) t d H01 HT D)|lia].
  1: eapply goodD; [exact (fz m kB kR (fun w e => S w e) t d H01 HT)|lia].
  1: eapply goodD; [exact (fdpdd m kB kR (fun w e => S w e) t d H01 H02 HT)|lia].
  1: eapply goodD; [exact (fd2 m kB kR (fun w e => S w e) t d H01 H02 H03 D)|lia].
  1: eapply goodD; [exact (fdpdt m kB kR (fun w e => S w e) d H11 D)|lia].
  1: eapply goodD; [exact (fu m kB kR (fun w e => S w e) t d H00 H10 X (fun e => I e) HT J0 J1)|lia].
  1: eapply goodD; [exact (fh m kB kR (fun w e => S w e) t d H00 H01 H10 X (fun e => I e) HT D J0 J1)|lia].
  1: eapply goodD; [exact (fs m kB kR (fun w e => S w e) t d H10 X (fun e => I e) J1)|lia].
  1: eapply goodD; [exact (fcv m kB kR (fun w e => S w e) t d H20 X (fun e => I e) J2)|lia].
  1: eapply goodD; [exact (fg m kB kR (fun w e => S w e) t d H00 H01 X (fun e => I e) HT D J0)|lia].
Qed.
Lemma mvalue : fin (fB PMM) /\ Rabs (bR (fB PMM) - dprop New PMM r (bR t) (bR d)) <= 1 / 100000000000000 * dprop New PMM r (bR t) (bR d).
Proof.
  rewrite (dprop_ok New r PMM (bR t) (bR d) T7). cbn [dvals dfield]. rewrite dX_Y.
  eapply few; [exact (dmm m X HX2)|lia].
Qed.
End Final.

Lemma dprops_run m l (s : @Detail (ArithB64 m)) o (x : nat -> b64) : @dexec (ArithB64 m) New l = Some (s, o) ->
  separated (A := ArithB64 m) 0 (dasked (A := ArithB64 m) (l ++ [Properties (A := ArithB64 m)])) -> d_x s = map x (seq 0 21) ->
  let t := dread (A := ArithB64 m) PT s in let d := dread (A := ArithB64 m) PD s in
  let X := @xf (ArithB64 m) (map x (seq 0 21)) in
  exists s', dstep (A := ArithB64 m) Properties s = Some (s', OUnit (A := ArithB64 m)) /\
    dread (A := ArithB64 m) PT s' = t /\ dread (A := ArithB64 m) PD s' = d /\
    forall f, match f with PT | PD | PD2pDtd => False | _ => True end ->
      dread (A := ArithB64 m) f s' = @dfield (ArithB64 m) dp_new (AccEos.kB m X t) X t d f.
Proof.
  intros E HV X21. cbv zeta.
  destruct (@d_hinv (ArithB64 m) New l [Properties (A := ArithB64 m)] s o E HV) as (Hh & Hin & HL).
  specialize (Hin _ (or_introl eq_refl)).
  destruct (@HistoryDetail.props_hist (ArithB64 m) dp_new _ HV HL s Hh Hin) as (s' & E' & _ & _ & Hf).
  exists s'. cbv zeta in Hf. split. { cbn [dstep]. rewrite E'. reflexivity. }
  rewrite X21 in Hf. split; [exact (Hf PT)|]. split; [exact (Hf PD)|].
  intros f Pf. rewrite Hf. now rewrite dfield_ok.
Qed.
Lemma dprops_all : forall m, accurate m -> forall l (s : @Detail (ArithB64 m)) o, @dexec (ArithB64 m) New l = Some (s, o) ->
  separated (A := ArithB64 m) 0 (dasked (A := ArithB64 m) (l ++ [Properties (A := ArithB64 m)])) ->
  let r j := bR (nth j (d_x s) B0) in let t := dread (A := ArithB64 m) PT s in let d := dread (A := ArithB64 m) PD s in
  (forall i, (i < 21)%nat -> fin (nth i (d_x s) B0) /\ (r i = 0 \/ bpow radix2 (-50) <= r i)) ->
  99 / 100 <= tot 21 r <= 101 / 100 -> fin t /\ 32 <= bR t <= 2048 ->
  fin d /\ bpow radix2 (-20) <= bR d -> detail_D r (bR d) <= 3 ->
  exists s', dstep (A := ArithB64 m) Properties s = Some (s', OUnit (A := ArithB64 m)) /\
    (forall f, detail_field f -> let w := dread (A := ArithB64 m) f s' in
       fin w /\ Rabs (bR w - dprop New f r (bR t) (bR d)) <= 3 / 20000000000 * dfield_size f r (bR t) (bR d)) /\
    let w := dread (A := ArithB64 m) PMM s' in let M := dprop New PMM r (bR t) (bR d) in
    fin w /\ Rabs (bR w - M) <= 1 / 100000000000000 * M.
Proof.
  intros m A l s o E HV r t d Hx Hs HT Hd HD. cbv zeta.
  destruct (@d_hinv (ArithB64 m) New l [Properties (A := ArithB64 m)] s o E HV) as (_ & Hin & HL).
  specialize (Hin _ (or_introl eq_refl)). pose proof (HL _ _ Hin) as Lx. clear Hin HL.
  set (xs := fun j => nth j (d_x s) B0) in *. assert (X21 : d_x s = map xs (seq 0 21)) by (symmetry; apply nth21, Lx).
  destruct (dprops_run m l s o xs E HV X21) as (s' & E' & _ & _ & Hf).
  exists s'. split; [exact E'|]. split.
  - intros f Pf. rewrite Hf by (destruct f; try contradiction Pf; exact I). exact (fields m A xs t d Hx Hs HT Hd HD f Pf).
  - rewrite Hf by exact I. exact (mvalue m xs t d Hx Hs HT).
Qed.
