(* Error analysis of the DETAIL pressure in double precision. *)
From Coq Require Import Reals ZArith List Bool Lra Lia Psatz.
From Flocq Require Import Core BinarySingleNaN.
From Verif Require Import FArith Prelude ArithB64 B64Lemmas ArithR RSum SpecDetail SpecAcc DetailTables DetailModel DetailPure DetailEos B64Err AccFold AccMix AccMix2 AccMix3 AccMix4.
Import ListNotations.
Local Open Scope R_scope.

Lemma ap_rng k a b a' b' v x M : ap k a b v x M -> rng a' b' M -> ap k a' b' v x M.
Proof. intros (F & E & L & _) R. repeat split; assumption. Qed.

Section T.
Variable m : Libm.
Hypothesis A : accurate m.
Local Notation B := (ArithB64 m).
Variable X : nat -> b64.
Hypothesis HX : forall i, (i < 21)%nat -> fin (X i) /\ rng (-50) 1 (bR (X i)).
Local Notation x := (xr X).
Hypothesis Hs : 99 / 100 <= sum 21 x <= 101 / 100.
Let P : @DParams B := dp_new.
Local Existing Instance P.
Variables T d : b64.
Hypothesis HT : fin T /\ p2 5 <= bR T <= p2 11.
Hypothesis Hd : fin d /\ (bR d = 0 \/ p2 (-20) <= bR d).
Local Notation t := (bR T).
Local Notation D := (sizeK x ^ 3 * bR d).
Hypothesis HD : D <= 3.
Local Notation tu n := (Rpower t (- tb D_UN n)).
Definition kB : @cache B := @mkCache B (@pK3 B P X) (@pBs B P X) (@pCsn B P X) (@cTun B (Some T)).

Lemma K3_rng : rng (-8) 1 (sizeK x ^ 3). Proof. apply (aK3 m A X HX Hs). Qed.
Lemma K3_pos : 0 < sizeK x ^ 3. Proof. apply pow_lt, Rpower_gt0. Qed.
Lemma d_rng : rng (-20) 10 (bR d).
Proof.
  destruct Hd as [_ [E|E]]; [left; exact E|right]. split; [exact E|].
  destruct (rng_pos _ _ _ K3_rng (Rgt_not_eq _ _ K3_pos)) as [K _]. change (p2 (-8)) with (/ 256) in K. change (p2 10) with 1024.
  pose proof (bpow_gt_0 radix2 (-20)). nra.
Qed.
Lemma d_ge0 : 0 <= bR d. Proof. exact (rng_ge0 _ _ _ d_rng). Qed.
Lemma ad : ap 0 (-20) 10 d (bR d) (bR d).
Proof.
  eapply ap_eq; [apply ap_exact; [apply Hd|]|reflexivity|]; rewrite Rabs_pos_eq by exact d_ge0; [exact d_rng|reflexivity].
Qed.
Lemma t_pos : 0 < t. Proof. destruct HT as [_ [H _]]. eapply Rlt_le_trans; [apply bpow_gt_0|exact H]. Qed.
Lemma aT : ap 0 5 11 T t t.
Proof.
  eapply ap_eq; [apply ap_exact; [apply HT|]|reflexivity|]; rewrite Rabs_pos_eq by (apply Rlt_le, t_pos); [right; apply HT|reflexivity].
Qed.
Lemma D_rng : rng (-28) 2 D.
Proof.
  pose proof (rng_mul _ _ _ _ _ _ K3_rng d_rng) as [E|[H1 _]]; [now left|right]. split; [exact H1|]. change (p2 2) with 4. lra.
Qed.
Lemma D_ge0 : 0 <= D. Proof. exact (rng_ge0 _ _ _ D_rng). Qed.
Lemma aD : ap 2067 (-28) 2 (bmul (@pK3 B P X) d) D D.
Proof.
  eapply ap_rng; [|exact D_rng]. change 2067%Z with (2064 + 0 + 3)%Z. 
  eapply ap_mul; [exact (aK3 m A X HX Hs)|exact ad|zc|zc|zc|zc].
Qed.
Lemma atun n : ap 309 (-253) 143 (@cTun B (Some T) n) (tu n) (tu n).
Proof.
  destruct (UN_err m n) as [F1 F2]. pose proof (UN_rng n) as UR. change 309%Z with (299 + 10)%Z. cbn [cTun].
  assert (R : rng 5 11 t) by apply aT.
  eapply (ap_powf m A) with (Y := 23) (Lx := 11); try exact aT; try exact t_pos; try zc.
  - cbn [fneg ArithB64]. unfold fin. rewrite is_finite_Bopp. exact F1.
  - cbn [fneg ArithB64]. unfold bR. rewrite B2R_Bopp, Rabs_Ropp. fold (bR (@lv B D_UN n)).
    replace (- bR (@lv B D_UN n) - - tb D_UN n) with (- (bR (@lv B D_UN n) - tb D_UN n)) by ring. rewrite Rabs_Ropp. exact F2.
  - apply Rabs_le. lra.
  - apply (ln_rng1 5 11); [exact t_pos|exact R|lia|lia|lia].
  - lra.
  - apply (rpow_rng2 5 11 _ _ (-23) 13); [exact t_pos|exact R|lra|lra|lra|lra|lra|lra|lra|lra|lra].
Qed.
Lemma afpw n : (n <= 9)%nat -> ap (1 + 2070 * Z.of_nat n) (-28 * Z.of_nat n) (2 * Z.of_nat n) (@fpw B (bmul (@pK3 B P X) d) n) (D ^ n) (D ^ n).
Proof.
  induction n as [|n IH]; intros Hn.
  - eapply ap_weak; [exact (a1 m)|zc|zc|zc].
  - specialize (IH ltac:(lia)). cbn [fpw pow]. eapply ap_weak; [eapply ap_mul; [exact aD|exact IH|zc|zc|zc|zc]|lia|lia|lia].
Qed.
Lemma Dk4 k : (k <= 4)%nat -> 0 <= D ^ k <= 81.
Proof.
  intros Hk. pose proof D_ge0. split; [now apply pow_le|].
  apply Rle_trans with (3 ^ k); [apply pow_incr; lra|]. replace 81 with (3 ^ 4) by ring. apply Rle_pow; [lra|exact Hk].
Qed.
Lemma exp81 y : 0 <= y <= 81 -> rng (-130) 0 (exp (- y)).
Proof.
  intros H. assert (EM : forall u v, u <= v -> exp u <= exp v).
  { intros u v [L| ->]; [left; now apply exp_increasing|right; reflexivity]. }
  right. split.
  - apply Rle_trans with (exp (- (INR 81 * 1))).
    + rewrite exp_Ropp. apply Rle_trans with (/ 3 ^ 81).
      * change (p2 (-130)) with (/ IZR (2 ^ 130)). rewrite pow_IZR. apply Rinv_le_contravar; [apply (IZR_lt 0); reflexivity|].
        apply IZR_le. now apply Z.leb_le.
      * apply Rinv_le_contravar; [apply exp_pos|].
        replace (exp (INR 81 * 1)) with (exp 1 ^ 81).
        -- apply pow_incr. split; [apply Rlt_le, exp_pos|exact exp_le_3].
        -- rewrite <- Rpower_pow by apply exp_pos. unfold Rpower. now rewrite ln_exp.
    + apply EM. replace (INR 81) with 81 by (rewrite INR_IZR_INZ; reflexivity). lra.
  - change (p2 0) with 1. rewrite <- exp_0. apply EM. lra.
Qed.
Lemma aexp k : (k <= 4)%nat -> ap 670771 (-130) 0 (@pexpn B (bmul (@pK3 B P X) d) k)
  (match k with O => 1 | _ => exp (- D ^ k) end) (match k with O => 1 | _ => exp (- D ^ k) end).
Proof.
  intros Hk. destruct k as [|k]; [eapply ap_weak; [exact (a1 m)|zc|zc|zc]|]. unfold pexpn.
  pose proof (Dk4 _ Hk) as HK. pose proof (afpw (S k) ltac:(lia)) as Q. cbn [fexp fneg ArithB64].
  change 670771%Z with (670761 + 10)%Z. apply (ap_neg) in Q. eapply (ap_exp m A).
  - exact (ap_fin _ _ _ _ _ _ Q).
  - destruct Q as (_ & E & _). eapply Rle_trans; [exact E|]. 
    apply Rle_trans with (IZR 8281 * u64 * 81).
    + apply Rmult_le_compat; [apply Rmult_le_pos; [apply IZR_le; lia|apply Rlt_le, u_pos]|apply HK| |apply HK].
      apply Rmult_le_compat_r; [apply Rlt_le, u_pos|]. apply IZR_le. lia.
    + right. ring.
  - zc.
  - rewrite Rabs_Ropp, Rabs_pos_eq; lra.
  - apply exp81, HK.
Qed.
Lemma bk_chk : forallb (fun n => (Nat.leb 1 (bn n) && Nat.leb (bn n) 9 && Nat.leb (kn n) 4)%bool) (seq 0 58) = true.
Proof. reflexivity. Qed.
Lemma bk n : (n < 58)%nat -> (1 <= bn n <= 9)%nat /\ (kn n <= 4)%nat.
Proof.
  intros H. pose proof (proj1 (forallb_forall _ _) bk_chk n ltac:(apply in_seq; lia)) as E. cbv beta in E.
  apply andb_true_iff in E. destruct E as [E E3]. apply andb_true_iff in E. destruct E as [E1 E2].
  apply Nat.leb_le in E1, E2, E3. lia.
Qed.
Lemma anat n : (n < 256)%nat -> ap 1 0 8 (bofZ (Z.of_nat n)) (INR n) (INR n).
Proof.
  intros H. destruct n as [|n]; [|apply ap_nat; lia]. eapply ap_weak; [apply (ap_0 0 8)|lia|lia|lia].
Qed.
Lemma abkd n : (n < 58)%nat -> ap 8287 0 17 (@bkd B (bmul (@pK3 B P X) d) n) (INR (bn n) - INR (kn n) * D ^ kn n) (INR (bn n) + INR (kn n) * D ^ kn n).
Proof.
  intros H. destruct (bk n H) as [Hb Hk]. unfold bkd. cbn [fsub fmul fofnat ArithB64].
  pose proof (anat (bn n) ltac:(lia)) as Q1. pose proof (anat (kn n) ltac:(lia)) as Q2.
  assert (ap 8281 (-112) 8 (@fpw B (bmul (@pK3 B P X) d) (kn n)) (D ^ kn n) (D ^ kn n)) as Q3.
  { eapply ap_weak; [apply afpw; lia|lia|lia|lia]. }
  assert (ap 8285 (-112) 16 (bmul (bofZ (Z.of_nat (kn n))) (@fpw B (bmul (@pK3 B P X) d) (kn n))) (INR (kn n) * D ^ kn n) (INR (kn n) * D ^ kn n)) as Q4.
  { eapply ap_weak; [eapply ap_mul; [exact Q2|exact Q3|zc|zc|zc|zc]|zc|zc|zc]. }
  change 8287%Z with (Z.max 1 8285 + 2)%Z. eapply ap_sub; [exact Q1|exact Q4|zc|zc|zc|].
  assert (R4 : rng (-112) 16 (INR (kn n) * D ^ kn n)) by apply Q4. pose proof (rng_ge0 _ _ _ R4). pose proof (rng_le _ _ _ R4).
  right. split.
  - change (p2 0) with (INR 1). pose proof (le_INR 1 (bn n) ltac:(lia)). lra.
  - assert (INR (bn n) <= p2 8) by (apply (rng_le 0 8); apply Q1). change (p2 17) with (p2 (1 + 16)). rewrite bpow_plus. change (p2 1) with 2.
    change (p2 8) with 256 in *. change (p2 16) with 65536 in *. lra.
Qed.
(* the terms of the compressibility factor *)
Definition e_ n := match kn n with O => 1 | _ => exp (- D ^ kn n) end.
Definition t0x n := if Nat.leb 12 n then Cstar x n * D ^ bn n * tu n * e_ n * (INR (bn n) - INR (kn n) * D ^ kn n) else 0.
Definition t0M n := if Nat.leb 12 n then Rabs (Cstar x n) * D ^ bn n * tu n * e_ n * (INR (bn n) + INR (kn n) * D ^ kn n) else 0.
Definition tbx n := if Nat.leb n 17 then (if Nat.leb 12 n then Bterm x n * bR d + - Cstar x n * D else Bterm x n * bR d) * tu n else 0.
Definition tbM n := if Nat.leb n 17 then (if Nat.leb 12 n then Rabs (Bterm x n) * bR d + Rabs (Cstar x n) * D else Rabs (Bterm x n) * bR d) * tu n else 0.
Local Notation Dv := (bmul (@pK3 B P X) d).
Lemma at0 n : (n < 58)%nat -> ap 1202236 (-935) 449 (bmul (@tsum0 B kB Dv n) (@cd1 B Dv n)) (t0x n) (t0M n).
Proof.
  intros H. destruct (bk n H) as [Hb Hk]. unfold tsum0, cd1, t0x, t0M, kB. cbn [ca_csn ca_tun].
  destruct (Nat.leb 12 n) eqn:E.
  - apply Nat.leb_le in E. cbn [fmul ArithB64].
    assert (ap 18631 (-252) 18 (@fpw B Dv (bn n)) (D ^ bn n) (D ^ bn n)) as Q3.
    { eapply ap_weak; [apply afpw; lia|lia|lia|lia]. }
    eapply ap_weak; [eapply ap_mul; [eapply ap_mul; [eapply ap_mul; [eapply ap_mul; [apply (aC m A X HX Hs); lia|exact Q3|zc|zc|zc|zc]|apply atun|zc|zc|zc|zc]|
      apply aexp; lia|zc|zc|zc|zc]|apply abkd; lia|zc|zc|zc|zc]|zc|zc|zc].
  - change (@fmul B (@f0 B) (@f0 B)) with B0. eapply ap_weak; [apply (ap_0 0 0)|zc|zc|zc].
Qed.
Lemma atb n : (n < 58)%nat -> ap 506610 (-592) 430 (@tsumb B kB Dv d n) (tbx n) (tbM n).
Proof.
  intros H. unfold tsumb, tbx, tbM, kB. cbn [ca_csn ca_tun ca_bs].
  destruct (Nat.leb n 17) eqn:E17; [|eapply ap_weak; [apply (ap_0 0 0)|zc|zc|zc]].
  assert (ap 1122 (-339) 286 (bmul (@pBs B P X n) d) (Bterm x n * bR d) (Rabs (Bterm x n) * bR d)) as Q1.
  { eapply ap_weak; [eapply ap_mul; [exact (aBs m A X HX n)|exact ad|zc|zc|zc|zc]|zc|zc|zc]. }
  destruct (Nat.leb 12 n) eqn:E12.
  - apply Nat.leb_le in E12. pose proof (aC m A X HX Hs n ltac:(lia)) as QC. pose proof (ap_neg _ _ _ _ _ _ QC) as QN.
    assert (ap 506296 (-328) 273 (bmul (Bopp (@pCsn B P X n)) Dv) (- Cstar x n * D) (Rabs (Cstar x n) * D)) as Q2.
    { eapply ap_weak; [eapply ap_mul; [exact QN|exact aD|zc|zc|zc|zc]|zc|zc|zc]. }
    assert (ap 506298 (-339) 287 (badd (bmul (@pBs B P X n) d) (bmul (Bopp (@pCsn B P X n)) Dv)) (Bterm x n * bR d + - Cstar x n * D)
      (Rabs (Bterm x n) * bR d + Rabs (Cstar x n) * D)) as Q3.
    { change 506298%Z with (Z.max 1122 506296 + 2)%Z. eapply ap_add; [exact Q1|exact Q2|zc|zc|zc|].
      eapply rng_weak; [eapply rng_add; [apply Q1|apply Q2]|lia|lia]. }
    eapply ap_weak; [eapply ap_mul; [exact Q3|apply atun|zc|zc|zc|zc]|zc|zc|zc].
  - eapply ap_weak; [eapply ap_mul; [exact Q1|apply atun|zc|zc|zc|zc]|zc|zc|zc].
Qed.
Definition tx n := t0x n + tbx n.
Definition tM n := t0M n + tbM n.
Lemma at1 n : (n < 58)%nat -> ap 1202238 (-935) 450 (@ts1 B kB Dv d n) (tx n) (tM n).
Proof.
  intros H. pose proof (at0 n H) as Q1. pose proof (atb n H) as Q2. unfold ts1, tx, tM.
  change 1202238%Z with (Z.max 1202236 506610 + 2)%Z. eapply ap_add; [exact Q1|exact Q2|zc|zc|zc|].
  eapply rng_weak; [eapply rng_add; [apply Q1|apply Q2]|lia|lia].
Qed.
Lemma aR : ap 1 3 4 (@RDETAIL B) (831451 / 100000) (831451 / 100000).
Proof. eapply ap_eq; [apply (ap_inok (L 831451 (-5)) 3 4); [reflexivity|zc]| |]; cbn; lra. Qed.
(* the evaluation may be made at another temperature than the powers were cached for *)
Variable T2 : b64.
Hypothesis HT2 : fin T2 /\ p2 5 <= bR T2 <= p2 11.
Local Notation t2 := (bR T2).
Lemma t2_pos : 0 < t2. Proof. destruct HT2 as [_ [H _]]. eapply Rlt_le_trans; [apply bpow_gt_0|exact H]. Qed.
Lemma aT2 : ap 0 5 11 T2 t2 t2.
Proof.
  eapply ap_eq; [apply ap_exact; [apply HT2|]|reflexivity|]; rewrite Rabs_pos_eq by (apply Rlt_le, t2_pos); [right; apply HT2|reflexivity].
Qed.
Lemma aRT : ap 4 8 15 (bmul (@RDETAIL B) T2) (831451 / 100000 * t2) (831451 / 100000 * t2).
Proof. eapply ap_weak; [eapply ap_mul; [exact aR|exact aT2|zc|zc|zc|zc]|zc|zc|zc]. Qed.
Lemma aar : ap 1202361 (-927) 471 (@ar01 B kB T2 d) (831451 / 100000 * t2 * sum 58 tx) (831451 / 100000 * t2 * sum 58 tM).
Proof.
  unfold ar01, facc. change (@dr B kB d) with Dv. cbn [fadd fmul ArithB64]. rewrite <- !sum_scal, !sum_rsum.
  change 1202361%Z with (1202245 + 2 * Z.of_nat (length (seq 0 58)))%Z. change 471%Z with (465 + 6)%Z. change (@f0 B) with B0.
  eapply ap_eq; [apply (ap_fold (fun _ => true) (fun n => bmul (bmul (@RDETAIL B) T2) (@ts1 B kB Dv d n)) (fun n => 831451 / 100000 * t2 * tx n)
     (fun n => 831451 / 100000 * t2 * tM n) 1202245 (-927) 465 6 (seq 0 58) B0 0 0 1202245 0)|apply Rplus_0_l|apply Rplus_0_l]; try zc.
  - intros n Hn _. apply in_seq in Hn. eapply ap_weak; [eapply ap_mul; [exact aRT|apply at1; lia|zc|zc|zc|zc]|zc|zc|zc].
  - apply (ap_weak 0 (-927) (465 + 6)); [apply ap_0|lia|lia|lia].
  - rewrite Rmult_0_l. apply Rle_refl.
  - rewrite seq_length. zc.
  - rewrite seq_length. cbn. lia.
Qed.
Lemma apz : ap 1202370 0 470 (@pz B kB T2 d) (1 + sum 58 tx) (1 + sum 58 tM).
Proof.
  unfold pz. cbn [fadd fdiv ArithB64]. pose proof t2_pos as H0.
  assert (ap 1202368 (-942) 463 (bdiv (bdiv (@ar01 B kB T2 d) (@RDETAIL B)) T2) (sum 58 tx) (sum 58 tM)) as Q.
  { eapply ap_eq; [eapply ap_weak; [eapply ap_div; [eapply ap_div; [exact aar|exact aR|lra|zc|zc|zc|zc]|exact aT2|exact H0|zc|zc|zc|zc]|zc|zc|zc]| |];
    field; lra. }
  change 1202370%Z with (Z.max 1 1202368 + 2)%Z. eapply ap_add; [exact (a1 m)|exact Q|zc|zc|zc|].
  assert (R : rng (-942) 463 (sum 58 tM)) by apply Q. pose proof (rng_ge0 _ _ _ R). pose proof (rng_le _ _ _ R) as R1. right.
  change (p2 0) with 1. split; [lra|]. change 470%Z with (7 + 463)%Z. rewrite bpow_plus. change (p2 7) with 128.
  assert (1 <= p2 463) by (change 1 with (p2 0); apply bpow_le; lia). lra.
Qed.
Lemma app : ap 1202380 (-20) 600 (@pp B kB T2 d) (bR d * (831451 / 100000) * t2 * (1 + sum 58 tx)) (bR d * (831451 / 100000) * t2 * (1 + sum 58 tM)).
Proof.
  unfold pp. cbn [fmul ArithB64].
  eapply ap_weak; [eapply ap_mul; [eapply ap_mul; [eapply ap_mul; [exact ad|exact aR|zc|zc|zc|zc]|exact aT2|zc|zc|zc|zc]|exact apz|zc|zc|zc|zc]|zc|zc|zc].
Qed.

(* the sums are those of the equation of state *)
Lemma Bterm_sum n : Bterm x n * tu n = tb D_AN n * tu n
  * sum 21 (fun i => sum 21 (fun j => x i * x j * Bstar n i j * Rpower (Eij i j) (tb D_UN n) * Rpower (tb D_KI i * tb D_KI j) (3/2))).
Proof.
  rewrite (Rmult_comm (tb D_AN n)), Rmult_assoc, Rmult_comm. f_equal. rewrite <- sum_scal. apply sum_ext. intros i Hi. rewrite <- sum_scal. apply sum_ext.
  intros j Hj. unfold bsym. ring.
Qed.
Lemma e_expc n : expc D n = e_ n.
Proof. unfold expc, e_, kn. destruct (nth n D_KN 0%nat); reflexivity. Qed.
Definition vn n := Bterm x n * tu n.
Lemma tx_Z : 1 + sum 58 tx = Zfactor x t (bR d).
Proof.
  change (sum 58) with (sum (12 + (6 + 40))). rewrite !sum_split. unfold Zfactor. cbv zeta.
  change (sum 46) with (sum (6 + 40)). rewrite sum_split. unfold virialB.
  change (sum 18) with (sum (12 + 6)). rewrite sum_split.
  rewrite (sum_ext 12 tx (fun n => bR d * (tb D_AN n * tu n * sum 21 (fun i => sum 21 (fun j => x i * x j * Bstar n i j * Rpower (Eij i j) (tb D_UN n) * Rpower (tb D_KI i * tb D_KI j) (3/2)))))).
  2: { intros n Hn. unfold tx, t0x, tbx. rewrite (proj2 (Nat.leb_gt 12 n)), (proj2 (Nat.leb_le n 17)) by lia. rewrite <- Bterm_sum. ring. }
  rewrite sum_scal.
  rewrite (sum_ext 40 (fun k => tx _) (fun m => let n := (12 + (6 + m))%nat in Cstar x n * tu n * (INR (bn n) - INR (kn n) * D ^ kn n) * D ^ bn n * expc D n)).
  2: { intros n Hn. unfold tx, t0x, tbx. rewrite (proj2 (Nat.leb_le 12 _)), (proj2 (Nat.leb_gt _ 17)) by lia.
       cbv zeta. rewrite e_expc. ring. }
  rewrite (sum_ext 6 (fun m => tx _) (fun m => let n := (12 + m)%nat in
     Cstar x n * tu n * (INR (bn n) - INR (kn n) * D ^ kn n) * D ^ bn n * expc D n
     + (bR d * (tb D_AN n * tu n * sum 21 (fun i => sum 21 (fun j => x i * x j * Bstar n i j * Rpower (Eij i j) (tb D_UN n) * Rpower (tb D_KI i * tb D_KI j) (3 / 2))))
     + - D * (Cstar x n * tu n)))).
  2: { intros n Hn. unfold tx, t0x, tbx. rewrite (proj2 (Nat.leb_le 12 _)), (proj2 (Nat.leb_le _ 17)) by lia.
       rewrite <- Bterm_sum. cbv zeta. rewrite e_expc. ring. }
  cbv zeta. rewrite !sum_plus, !sum_scal. unfold bn, kn. ring.
Qed.
Lemma tM_size : 1 + sum 58 tM = 1 + bR d * sum 18 (fun n => Rabs (vn n)) + D * sum 6 (fun m => Rabs (Cstar x (12 + m)) * tu (12 + m))
  + sum 46 (fun m => let n := (12 + m)%nat in Rabs (Cstar x n) * tu n * (INR (bn n) + INR (kn n) * D ^ kn n) * D ^ bn n * expc D n).
Proof.
  assert (V : forall n, Rabs (vn n) = Rabs (Bterm x n) * tu n).
  { intros n. unfold vn. rewrite Rabs_mult. f_equal. apply Rabs_pos_eq, Rlt_le, Rpower_gt0. }
  change (sum 58) with (sum (12 + (6 + 40))). rewrite !sum_split.
  change (sum 46) with (sum (6 + 40)). rewrite sum_split.
  change (sum 18) with (sum (12 + 6)). rewrite sum_split.
  rewrite (sum_ext 12 tM (fun n => bR d * Rabs (vn n))).
  2: { intros n Hn. unfold tM, t0M, tbM. rewrite (proj2 (Nat.leb_gt 12 n)), (proj2 (Nat.leb_le n 17)) by lia. rewrite V. ring. }
  rewrite sum_scal.
  rewrite (sum_ext 40 (fun k => tM _) (fun m => let n := (12 + (6 + m))%nat in Rabs (Cstar x n) * tu n * (INR (bn n) + INR (kn n) * D ^ kn n) * D ^ bn n * expc D n)).
  2: { intros n Hn. unfold tM, t0M, tbM. rewrite (proj2 (Nat.leb_le 12 _)), (proj2 (Nat.leb_gt _ 17)) by lia.
       cbv zeta. rewrite e_expc. ring. }
  rewrite (sum_ext 6 (fun m => tM _) (fun m => let n := (12 + m)%nat in
     Rabs (Cstar x n) * tu n * (INR (bn n) + INR (kn n) * D ^ kn n) * D ^ bn n * expc D n
     + (bR d * Rabs (vn n) + D * (Rabs (Cstar x n) * tu n)))).
  2: { intros n Hn. unfold tM, t0M, tbM. rewrite (proj2 (Nat.leb_le 12 _)), (proj2 (Nat.leb_le _ 17)) by lia.
       cbv zeta. rewrite e_expc, V. ring. }
  cbv zeta. rewrite !sum_plus, !sum_scal. ring.
Qed.
End T.
