(* Derivatives of the DETAIL closed forms over the reals. *)
From Coq Require Import Reals ZArith List Bool Lra Lia.
From Coquelicot Require Import Coquelicot.
From Verif Require Import FArith Prelude Tab Composition DetailTables DetailModel DetailPure
  DetailRefine DetailEval ArithR RSum.
Import ListNotations.
Local Open Scope R_scope.
Local Existing Instance ArithR.

Local Arguments fpw {A} x%R_scope n%nat_scope.
Local Arguments pexpn {A} dred%R_scope n%nat_scope.
Local Arguments tsum0 {A} k dred%R_scope n%nat_scope.
Local Arguments tsumb {A} k dred%R_scope d%R_scope n%nat_scope.
Local Arguments bkd {A} dred%R_scope n%nat_scope.
Local Arguments ckd {A} dred%R_scope n%nat_scope.
Local Arguments cd1 {A} dred%R_scope n%nat_scope.
Local Arguments cd2 {A} dred%R_scope n%nat_scope.
Local Arguments cd3 {A} dred%R_scope n%nat_scope.
Local Arguments ts0 {A} k dred%R_scope d%R_scope n%nat_scope.
Local Arguments ts1 {A} k dred%R_scope d%R_scope n%nat_scope.
Local Arguments ts2 {A} k dred%R_scope n%nat_scope.
Local Arguments ts3 {A} k dred%R_scope n%nat_scope.
Local Notation fpw := (@fpw ArithR).
Local Notation pexpn := (@pexpn ArithR).
Local Notation tsum0 := (@tsum0 ArithR).
Local Notation tsumb := (@tsumb ArithR).
Local Notation bkd := (@bkd ArithR).
Local Notation ckd := (@ckd ArithR).
Local Notation cd1 := (@cd1 ArithR).
Local Notation cd2 := (@cd2 ArithR).
Local Notation cd3 := (@cd3 ArithR).
Local Notation ts0 := (@ts0 ArithR).
Local Notation ts1 := (@ts1 ArithR).
Local Notation ts2 := (@ts2 ArithR).
Local Notation ts3 := (@ts3 ArithR).
Local Notation ar00 := (@ar00 ArithR).
Local Notation ar01 := (@ar01 ArithR).
Local Notation ar02 := (@ar02 ArithR).
Local Notation ar03 := (@ar03 ArithR).
Local Notation ar10 := (@ar10 ArithR).
Local Notation ar11 := (@ar11 ArithR).
Local Notation ar20 := (@ar20 ArithR).
Local Notation facc := (@facc ArithR).
Local Notation fdec := (@fdec ArithR).
Local Notation ct1 := (@ct1 ArithR).
Local Notation ct2 := (@ct2 ArithR).
Local Notation cTun := (@cTun ArithR).
Local Notation lv := (@lv ArithR).
Local Notation EPSILON := (@EPSILON ArithR).
Local Notation RDETAIL := (@RDETAIL ArithR).
Local Notation pz := (@pz ArithR).
Local Notation pp := (@pp ArithR).
Local Notation pdpdd := (@pdpdd ArithR).


Lemma Rlit_pos m e : (0 < m)%Z -> 0 < Rlit (L m e).
Proof.
  intros H. unfold Rlit. destruct e as [|p|p].
  - now apply IZR_lt.
  - apply IZR_lt. apply Z.mul_pos_pos; [assumption|]. apply Z.pow_pos_nonneg; lia.
  - apply Rdiv_lt_0_compat; apply IZR_lt; [assumption|]. apply Z.pow_pos_nonneg; lia.
Qed.
Lemma powi2 x : powerRZ x 2 = x * x.
Proof. unfold powerRZ. change (Pos.to_nat 2) with 2%nat. ring. Qed.
Lemma EPS_pos : 0 < EPSILON.
Proof. apply Rlit_pos. lia. Qed.
Lemma RD_pos : 0 < RDETAIL.
Proof. apply Rlit_pos. lia. Qed.

Section D.
Context {P : @DParams ArithR}.

(* powers *)
Lemma sd_fpw (K : R) n t d : sd (fun _ d => fpw (K * d) n) t d 0 (INR n * fpw (K * d) n).
Proof.
  induction n as [|n IH].
  - eapply sd_conv; [exact (sd_const 1 t d)|reflexivity|cbn [INR]; ring].
  - cbn [fpw]. eapply sd_conv; [apply (sd_mult (fun _ d => K * d) (fun _ d => fpw (K * d) n));
      [apply (sd_scal K (fun _ d => d)), sd_d|exact IH]|cbv beta; rar; ring|].
    rewrite S_INR. cbv beta; rar. ring.
Qed.
Lemma sd_pexpn (K : R) n t d : sd (fun _ d => pexpn (K * d) n) t d 0
  (- (INR n * fpw (K * d) n) * pexpn (K * d) n).
Proof.
  destruct n as [|n].
  - eapply sd_conv; [exact (sd_const 1 t d)|reflexivity|cbn [INR]; ring].
  - unfold pexpn. eapply sd_conv; [apply (sd_exp (fun _ d => - fpw (K * d) (S n))), sd_opp, sd_fpw| |];
    cbv beta; rar; ring.
Qed.
Lemma sd_pow u t d : 0 < t -> sd (fun t _ => Rpowf t u) t d (u * Rpowf t u) 0.
Proof.
  intros Ht. apply (sd_ext_gt 0 (fun t _ => exp (u * ln t))).
  - exact Ht.
  - intros s _ Hs. now rewrite Rpowf_pos.
  - rewrite Rpowf_pos by assumption. unfold Rpower.
    eapply sd_conv; [apply (sd_exp (fun t _ => u * ln t)), (sd_scal u (fun t _ => ln t)),
      (sd_ln (fun t _ => t)); [exact Ht|apply sd_t]| |]; cbv beta; field; lra.
Qed.

(* terms *)
Variables (K : R) (B C : nat -> R).
Definition kc (t : R) : @cache ArithR := @mkCache ArithR K B C (cTun (Some t)).

Section Term.
Variables (t d : R) (n : nat).
Hypothesis Ht : 0 < t.
Notation u := (lv D_UN n).
Lemma sd_tsum0 : sd (fun t d => tsum0 (kc t) (K * d) n) t d (- u * tsum0 (kc t) (K * d) n)
  (tsum0 (kc t) (K * d) n * cd1 (K * d) n).
Proof.
  unfold tsum0, cd1. destruct (Nat.leb 12 n).
  - unfold bkd. cbn [ca_csn ca_tun kc cTun]. rar.
    eapply sd_conv;
      [apply sd_mult;
        [apply sd_mult; [apply (sd_scal (C n) (fun _ d => fpw (K * d) (bn n))), sd_fpw
                        |apply (sd_pow (- u) t d Ht)]
        |apply sd_pexpn]| |]; cbv beta; rar; ring.
  - eapply sd_conv; [exact (sd_const (@f0 ArithR) t d)| |]; unfold f0; rar; cbn [Rlit]; ring.
Qed.
Lemma sd_tsumb : sd (fun t d => tsumb (kc t) (K * d) d n) t d (- u * tsumb (kc t) (K * d) d n)
  (tsumb (kc t) (K * d) d n).
Proof.
  unfold tsumb. destruct (Nat.leb n 17).
  - cbn [ca_csn ca_bs ca_tun kc cTun]. rar.
    destruct (Nat.leb 12 n).
    + eapply sd_conv; [apply (sd_mult (fun _ d => B n * d + - C n * (K * d)) (fun t _ => Rpowf t (- u)));
        [apply sd_plus; [apply (sd_scal (B n)), sd_d|apply (sd_scal (- C n)), (sd_scal K), sd_d]
        |apply (sd_pow (- u) t d Ht)]| |]; cbv beta; ring.
    + eapply sd_conv; [apply (sd_mult (fun _ d => B n * d) (fun t _ => Rpowf t (- u)));
        [apply (sd_scal (B n)), sd_d|apply (sd_pow (- u) t d Ht)]| |]; cbv beta; ring.
  - eapply sd_conv; [exact (sd_const (@f0 ArithR) t d)| |]; unfold f0; rar; cbn [Rlit]; ring.
Qed.
Lemma sd_ts0 : sd (fun t d => ts0 (kc t) (K * d) d n) t d (- u * ts0 (kc t) (K * d) d n)
  (ts1 (kc t) (K * d) d n).
Proof.
  unfold ts0, ts1. eapply sd_conv; [apply sd_plus; [apply sd_tsum0|apply sd_tsumb]| |]; rar; ring.
Qed.
Lemma sd_bkd : sd (fun _ d => bkd (K * d) n) t d 0 (- ckd (K * d) n).
Proof.
  unfold bkd, ckd. rar. eapply sd_conv;
    [apply (sd_minus (fun _ _ => INR (bn n))); [apply sd_const|apply (sd_scal (INR (kn n))), sd_fpw]| |];
  cbv beta; ring.
Qed.
Lemma sd_ckd : sd (fun _ d => ckd (K * d) n) t d 0 (INR (kn n) * ckd (K * d) n).
Proof.
  unfold ckd. rar. eapply sd_conv;
    [apply (sd_scal (INR (kn n) * INR (kn n))), sd_fpw| |]; cbv beta; ring.
Qed.
Lemma sd_cd1 : sd (fun _ d => cd1 (K * d) n) t d 0
  (cd2 (K * d) n + cd1 (K * d) n - cd1 (K * d) n * cd1 (K * d) n).
Proof.
  unfold cd1, cd2. destruct (Nat.leb 12 n).
  - eapply sd_conv; [apply sd_bkd| |]; rar; unfold f1; rar; cbn [Rlit]; ring.
  - eapply sd_conv; [exact (sd_const (@f0 ArithR) t d)| |]; unfold f0; rar; cbn [Rlit]; ring.
Qed.
Lemma sd_cd2 : sd (fun _ d => cd2 (K * d) n) t d 0
  (cd3 (K * d) n + 2 * cd2 (K * d) n - cd1 (K * d) n * cd2 (K * d) n).
Proof.
  unfold cd3, cd1, cd2. destruct (Nat.leb 12 n).
  - eapply sd_conv; [apply sd_minus; [apply sd_mult; [apply sd_bkd|apply sd_minus;
      [apply sd_bkd|apply (sd_const (@f1 ArithR))]]|apply sd_ckd]| |]; cbv beta; unfold f1, f2; rar;
    cbn [Rlit]; ring.
  - eapply sd_conv; [exact (sd_const (@f0 ArithR) t d)| |]; unfold f0; rar; cbn [Rlit]; ring.
Qed.
Lemma sd_ts1 : sd (fun t d => ts1 (kc t) (K * d) d n) t d (- u * ts1 (kc t) (K * d) d n)
  (ts1 (kc t) (K * d) d n + ts2 (kc t) (K * d) n).
Proof.
  unfold ts1, ts2. eapply sd_conv; [apply sd_plus; [apply sd_mult; [apply sd_tsum0|apply sd_cd1]
    |apply sd_tsumb]| |]; rar; ring.
Qed.
Lemma sd_ts2 : sd (fun t d => ts2 (kc t) (K * d) n) t d (- u * ts2 (kc t) (K * d) n)
  (2 * ts2 (kc t) (K * d) n + ts3 (kc t) (K * d) n).
Proof.
  unfold ts2, ts3. eapply sd_conv; [apply sd_mult; [apply sd_tsum0|apply sd_cd2]| |]; rar; ring.
Qed.
End Term.

(* the sums *)
Lemma facc_rsum g : facc g = rsum g (seq 0 58).
Proof. unfold facc. rar. rewrite (rsum_fold g). unfold f0; rar. cbn [Rlit]. ring. Qed.
Lemma fdec_rsum g : fdec g = rsum (fun n => - g n) (seq 0 58).
Proof. unfold fdec. rar. rewrite (rsum_fold_minus g), rsum_opp. unfold f0; rar. cbn [Rlit]. ring. Qed.

Section Sums.
Variables (t d : R).
Hypothesis Ht : 0 < t.
Lemma sd_Rt (g : R -> R -> R) u b : sd g t d (- u * g t d) b ->
  sd (fun t d => RDETAIL * t * g t d) t d (RDETAIL * t * (1 - u) * g t d) (RDETAIL * t * b).
Proof.
  intros H. eapply sd_conv; [apply sd_mult; [apply (sd_scal RDETAIL), sd_t|exact H]| |];
  cbv beta; ring.
Qed.
Ltac sums := intros; rewrite ?facc_rsum, ?fdec_rsum.
Lemma sd_ar00 : sd (fun t d => ar00 (kc t) t d) t d (t * ar10 (kc t) d) (ar01 (kc t) t d).
Proof.
  unfold ar00, ar10, ar01, dr. cbn [ca_k3 kc].
  apply (sd_ext (fun t d => rsum (fun n => RDETAIL * t * ts0 (kc t) (K * d) d n) (seq 0 58))).
  { sums. reflexivity. }
  sums. eapply sd_conv; [apply (sd_rsum (fun n t d => RDETAIL * t * ts0 (kc t) (K * d) d n));
    intros n _; apply (sd_Rt (fun t d => ts0 (kc t) (K * d) d n)), sd_ts0, Ht|cbv beta|reflexivity].
  rewrite <- rsum_scal. apply rsum_ext. intros n _. unfold ct1, f1. rar. cbn [Rlit]. ring.
Qed.
Lemma sd_ar01 : sd (fun t d => ar01 (kc t) t d) t d (t * ar11 (kc t) d)
  (ar01 (kc t) t d + ar02 (kc t) t d).
Proof.
  unfold ar01, ar11, ar02, dr. cbn [ca_k3 kc].
  apply (sd_ext (fun t d => rsum (fun n => RDETAIL * t * ts1 (kc t) (K * d) d n) (seq 0 58))).
  { sums. reflexivity. }
  sums. eapply sd_conv; [apply (sd_rsum (fun n t d => RDETAIL * t * ts1 (kc t) (K * d) d n));
    intros n _; apply (sd_Rt (fun t d => ts1 (kc t) (K * d) d n)), sd_ts1, Ht|cbv beta|cbv beta].
  - rewrite <- rsum_scal. apply rsum_ext. intros n _. unfold ct1, f1. rar. cbn [Rlit]. ring.
  - rewrite <- rsum_plus. apply rsum_ext. intros n _. rar. ring.
Qed.
Lemma sd_ar02 : exists a, sd (fun t d => ar02 (kc t) t d) t d a
  (2 * ar02 (kc t) t d + ar03 (kc t) t d).
Proof.
  eexists. unfold ar03, ar02, dr. cbn [ca_k3 kc].
  apply (sd_ext (fun t d => rsum (fun n => RDETAIL * t * ts2 (kc t) (K * d) n) (seq 0 58))).
  { sums. reflexivity. }
  sums. eapply sd_conv; [apply (sd_rsum (fun n t d => RDETAIL * t * ts2 (kc t) (K * d) n));
    intros n _; apply (sd_Rt (fun t d => ts2 (kc t) (K * d) n)), sd_ts2, Ht|reflexivity|cbv beta].
  rewrite <- rsum_scal, <- rsum_plus. apply rsum_ext. intros n _. rar. ring.
Qed.
Lemma sd_ar10 : sd (fun t d => ar10 (kc t) d) t d (ar20 (kc t) d) (ar11 (kc t) d).
Proof.
  unfold ar10, ar20, ar11, dr. cbn [ca_k3 kc].
  apply (sd_ext (fun t d => rsum (fun n => - ct1 n * ts0 (kc t) (K * d) d n) (seq 0 58))).
  { sums. apply rsum_ext. intros n _. rar. ring. }
  sums. eapply sd_conv; [apply (sd_rsum (fun n t d => - ct1 n * ts0 (kc t) (K * d) d n));
    intros n _; apply (sd_scal (- ct1 n) (fun t d => ts0 (kc t) (K * d) d n)), sd_ts0, Ht| |];
  cbv beta; apply rsum_ext; intros n _; unfold ct2; rar; ring.
Qed.
End Sums.
End D.

(* the ideal-gas part *)
Definition p1 {S T U} (x : S * T * U) := fst (fst x).
Definition p2 {S T U} (x : S * T * U) := snd (fst x).
Definition p3 {S T U} (x : S * T * U) := snd x.
Notation trip := (R * R * R)%type.

Section I.
Context {P : @DParams ArithR}.
Local Notation f0 := (@f0 ArithR).
Local Notation q := (@q_n0i ArithR P).
Local Notation hyp_step := (@hyp_step ArithR P).
Local Notation phyp := (@phyp ArithR P).

(* sinh and cosh of th / t as the code computes them *)
Definition shy (y : R) := (exp y - 1 / exp y) / 2.
Definition chy (y : R) := (exp y + 1 / exp y) / 2.
Lemma shy_pos y : 0 < y -> 0 < shy y.
Proof.
  intros Hy. unfold shy. pose proof (exp_pos y). assert (1 < exp y) by (rewrite <- exp_0; now apply exp_increasing).
  assert (1 / exp y < 1); [|lra]. apply (Rmult_lt_reg_r (exp y)); [assumption|]. field_simplify; lra.
Qed.
Lemma chy_pos y : 0 < chy y.
Proof.
  unfold chy. pose proof (exp_pos y). assert (0 < 1 / exp y) by (apply Rdiv_lt_0_compat; lra). lra.
Qed.
Lemma ch2 y : chy y * chy y = 1 + shy y * shy y.
Proof. unfold chy, shy. field. pose proof (exp_pos y). lra. Qed.
Lemma sd_y th t d : 0 < t -> sd (fun t _ => th / t) t d (- (th / t)) 0.
Proof.
  intros Ht. eapply sd_conv; [apply (sd_div (fun _ _ => th) (fun t _ => t));
    [lra|apply (sd_const th)|apply sd_t]| |]; cbv beta; field; lra.
Qed.
Lemma sd_shy f t d a b : sd f t d a b ->
  sd (fun t d => shy (f t d)) t d (chy (f t d) * a) (chy (f t d) * b).
Proof.
  intros H. apply (sd_comp shy); [|exact H]. unfold shy, chy. auto_derive.
  - pose proof (exp_pos (f t d)). lra.
  - field. pose proof (exp_pos (f t d)). lra.
Qed.
Lemma sd_chy f t d a b : sd f t d a b ->
  sd (fun t d => chy (f t d)) t d (shy (f t d) * a) (shy (f t d) * b).
Proof.
  intros H. apply (sd_comp chy); [|exact H]. unfold shy, chy. auto_derive.
  - pose proof (exp_pos (f t d)). lra.
  - field. pose proof (exp_pos (f t d)). lra.
Qed.

(* one hyperbolic term *)
Definition hyp_inc (t : R) (i j : nat) : trip :=
  let th := lv2 (A := ArithR) D_TH0I i j in let y := th / t in let n := q i j in
  if Rltb 0 th then
    if (Nat.eqb j 3 || Nat.eqb j 5)%bool
    then (n * ln (Rabs (shy y)), n * (ln (Rabs (shy y)) - y * chy y / shy y),
          n * (y / shy y * (y / shy y)))
    else (- n * ln (Rabs (chy y)), - n * (ln (Rabs (chy y)) - y * shy y / chy y),
          n * (y / chy y * (y / chy y)))
  else (0, 0, 0).
Lemma hyp_step_inc t i j st : hyp_step t i j st
  = (p1 st + p1 (hyp_inc t i j), p2 st + p2 (hyp_inc t i j), p3 st + p3 (hyp_inc t i j)).
Proof.
  destruct st as [[h0 h1] h2]. unfold hyp_step, hyp_inc, shy, chy. rar. unfold f0, f1, f2. rar.
  cbn [Rlit]. destruct (Rltb 0 _).
  - destruct (_ || _)%bool; unfold p1, p2, p3; cbn [fst snd]; rewrite powi2; reflexivity.
  - unfold p1, p2, p3. cbn [fst snd]. now rewrite !Rplus_0_r.
Qed.
(* h = (h0, h1, h2) with t h0' = h1 - h0 and t h1' = - h2 *)
Definition hgood (f : R -> trip) (t d : R) : Prop :=
  sd (fun t _ => p1 (f t)) t d (p2 (f t) - p1 (f t)) 0 /\
  sd (fun t _ => p2 (f t)) t d (- p3 (f t)) 0.
Lemma hyp_inc_good i j t d : 0 < t -> hgood (fun t => hyp_inc t i j) t d.
Proof.
  intros Ht. unfold hgood, hyp_inc. cbv zeta. set (th := lv2 D_TH0I i j).
  unfold Rltb. destruct (Rlt_dec 0 th) as [Hth|Hth].
  2:{ unfold p1, p2, p3; cbn [fst snd]. split; (eapply sd_conv; [exact (sd_const 0 t d)| |]; ring). }
  assert (Hs : forall t, 0 < t -> 0 < shy (th / t)).
  { intros s Hs. apply shy_pos. now apply Rdiv_lt_0_compat. }
  pose proof (sd_y th t d Ht) as Hy.
  destruct (_ || _)%bool; unfold p1, p2, p3; cbn [fst snd].
  - assert (L : sd (fun t _ => ln (Rabs (shy (th / t)))) t d
               (- (th / t * chy (th / t) / shy (th / t))) 0).
    { apply (sd_ext_gt 0 (fun t _ => ln (shy (th / t)))); [exact Ht| |].
      - intros s _ H. rewrite Rabs_right; [reflexivity|]. apply Rle_ge, Rlt_le, Hs, H.
      - eapply sd_conv; [apply (sd_ln (fun t _ => shy (th / t))); [now apply Hs|apply (sd_shy (fun t _ => th / t)), Hy]| |];
        cbv beta; pose proof (Hs t Ht); set (y := th / t) in *; field; lra. }
    pose proof (Hs t Ht) as Hp. split.
    + eapply sd_conv; [apply (sd_scal (q i j)), L| |]; cbv beta; rar; ring.
    + eapply sd_conv; [apply (sd_scal (q i j) (fun t _ => ln (Rabs (shy (th / t))) - th / t * chy (th / t) / shy (th / t)));
        apply sd_minus; [exact L|]; apply (sd_div (fun t _ => th / t * chy (th / t)) (fun t _ => shy (th / t)));
        [lra|apply sd_mult; [exact Hy|apply (sd_chy (fun t _ => th / t)), Hy]|apply (sd_shy (fun t _ => th / t)), Hy]| |];
      cbv beta; set (y := th / t) in *; rar.
      * transitivity (- (q i j * (y * y * ((chy y * chy y - shy y * shy y) / (shy y * shy y))))).
        { field. lra. }
        rewrite ch2. field. lra.
      * field. lra.
  - assert (Hc : forall t, 0 < chy (th / t)) by (intros; apply chy_pos).
    assert (L : sd (fun t _ => ln (Rabs (chy (th / t)))) t d
               (- (th / t * shy (th / t) / chy (th / t))) 0).
    { apply (sd_ext (fun t _ => ln (chy (th / t)))).
      - intros s _. rewrite Rabs_right; [reflexivity|]. apply Rle_ge, Rlt_le, Hc.
      - eapply sd_conv; [apply (sd_ln (fun t _ => chy (th / t))); [now apply Hc|apply (sd_chy (fun t _ => th / t)), Hy]| |];
        cbv beta; pose proof (Hc t); set (y := th / t) in *; field; lra. }
    pose proof (Hc t) as Hp. split.
    + eapply sd_conv; [apply (sd_scal (- q i j)), L| |]; cbv beta; rar; ring.
    + eapply sd_conv; [apply (sd_scal (- q i j) (fun t _ => ln (Rabs (chy (th / t))) - th / t * shy (th / t) / chy (th / t)));
        apply sd_minus; [exact L|]; apply (sd_div (fun t _ => th / t * shy (th / t)) (fun t _ => chy (th / t)));
        [lra|apply sd_mult; [exact Hy|apply (sd_shy (fun t _ => th / t)), Hy]|apply (sd_chy (fun t _ => th / t)), Hy]| |];
      cbv beta; set (y := th / t) in *; rar.
      * transitivity (- (q i j * (y * y * ((chy y * chy y - shy y * shy y) / (chy y * chy y))))).
        { field. lra. }
        replace (chy y * chy y - shy y * shy y) with 1 by (rewrite ch2; ring). field. lra.
      * field. lra.
Qed.
Lemma hgood_plus (f g : R -> trip) t d : hgood f t d -> hgood g t d ->
  hgood (fun t => (p1 (f t) + p1 (g t), p2 (f t) + p2 (g t), p3 (f t) + p3 (g t))) t d.
Proof.
  intros [H1 H2] [K1 K2]. split; unfold p1 at 1, p2 at 1; cbn [fst snd].
  - eapply sd_conv; [apply sd_plus; [exact H1|exact K1]| |]; unfold p1, p2; cbn [fst snd]; ring.
  - eapply sd_conv; [apply sd_plus; [exact H2|exact K2]| |]; unfold p3; cbn [fst snd]; ring.
Qed.
Lemma hgood_fold i t d l : 0 < t -> forall f, hgood f t d ->
  hgood (fun t => fold_left (fun st j => hyp_step t i j st) l (f t)) t d.
Proof.
  intros Ht. induction l as [|j l IH]; intros f Hf; cbn [fold_left]; [exact Hf|].
  apply (IH (fun t => hyp_step t i j (f t))).
  pose proof (hgood_plus f (fun t => hyp_inc t i j) t d Hf (hyp_inc_good i j t d Ht)) as [H1 H2].
  split.
  - eapply sd_conv; [eapply sd_ext; [|exact H1]|rewrite hyp_step_inc; reflexivity|reflexivity].
    intros. cbv beta. now rewrite hyp_step_inc.
  - eapply sd_conv; [eapply sd_ext; [|exact H2]|rewrite hyp_step_inc; reflexivity|reflexivity].
    intros. cbv beta. now rewrite hyp_step_inc.
Qed.
Lemma phyp_good i t d : 0 < t -> hgood (fun t => phyp t i) t d.
Proof.
  intros Ht. unfold phyp. apply (hgood_fold i t d (seq 3 4) Ht (fun _ => (f0, f0, f0))).
  split; unfold p1, p2, p3; cbn [fst snd];
  (eapply sd_conv; [exact (sd_const f0 t d)| |]; unfold f0; rar; cbn [Rlit]; ring).
Qed.

(* the ideal-gas sums *)
Section A0.
Variable X : nat -> R.
Local Notation a0_step := (@a0_step ArithR P).
Local Notation pa0sum := (@pa0sum ArithR P).
Definition a0_inc (t d : R) (i : nat) : trip :=
  if Rltb 0 (X i) then
    let logxd := @plogd ArithR d + ln (X i) in
    (X i * (logxd + q i 0 + q i 1 / t - q i 2 * ln t + p1 (phyp t i)),
     X i * (logxd + q i 0 - q i 2 * (1 + ln t) + p2 (phyp t i)),
     - X i * (q i 2 + p3 (phyp t i)))
  else (0, 0, 0).
Definition px (i : nat) : R := if Rltb 0 (X i) then X i else 0.
Lemma a0_step_inc t d i st : a0_step X t d i st
  = (p1 st + p1 (a0_inc t d i), p2 st + p2 (a0_inc t d i), p3 st + p3 (a0_inc t d i)).
Proof.
  destruct st as [[h0 h1] h2]. unfold a0_step, pos, a0_inc. rar. unfold f0, f1. rar.
  cbn [Rlit]. destruct (Rltb 0 _).
  - destruct (phyp t i) as [[u0 u1] u2]. unfold p1, p2, p3; cbn [fst snd]. reflexivity.
  - unfold p1, p2, p3. cbn [fst snd]. now rewrite !Rplus_0_r.
Qed.
Definition agood (f : R -> R -> trip) (S t d : R) : Prop :=
  sd (fun t d => p1 (f t d)) t d (p2 (f t d) - p1 (f t d)) S /\
  sd (fun t d => p2 (f t d)) t d (p3 (f t d)) S.
Lemma sd_logd t d : EPSILON < d -> sd (fun _ d => @plogd ArithR d) t d 0 1.
Proof.
  intros Hd. pose proof EPS_pos.
  apply (sd_ext_gt2 (t - 1) EPSILON (fun _ d => ln d)); [lra|exact Hd| |].
  - intros s e _ He. unfold plogd. rar. apply Rltb_true in He. now rewrite He.
  - eapply sd_conv; [apply (sd_ln (fun _ d => d)); [rar; lra|apply sd_d]| |]; cbv beta; field; rar; lra.
Qed.
Lemma a0_inc_good i t d : 0 < t -> EPSILON < d -> agood (fun t d => a0_inc t d i) (px i) t d.
Proof.
  intros Ht Hd. unfold agood, a0_inc, px. destruct (Rltb 0 (X i)).
  2:{ unfold p1, p2, p3; cbn [fst snd]. split; (eapply sd_conv; [exact (sd_const 0 t d)| |]; ring). }
  cbv zeta. destruct (phyp_good i t d Ht) as [H1 H2]. pose proof (sd_logd t d Hd) as HL.
  assert (Hln : sd (fun t _ => ln t) t d 1 0).
  { eapply sd_conv; [apply (sd_ln (fun t _ => t)); [exact Ht|apply sd_t]| |]; cbv beta; field; lra. }
  split; unfold p1 at 1, p2 at 1; cbn [fst snd].
  - eapply sd_conv; [apply (sd_scal (X i) (fun t d => @plogd ArithR d + ln (X i) + q i 0 + q i 1 / t - q i 2 * ln t + p1 (phyp t i)));
      apply sd_plus; [apply sd_minus; [apply sd_plus; [apply sd_plus; [apply sd_plus;
        [exact HL|apply (sd_const (ln (X i)))]|apply (sd_const (q i 0%nat))]|apply (sd_y (q i 1%nat)), Ht]
        |apply (sd_scal (q i 2%nat)), Hln]|exact H1]| |]; unfold p1, p2, p3; cbn [fst snd]; rar; field; lra.
  - eapply sd_conv; [apply (sd_scal (X i) (fun t d => @plogd ArithR d + ln (X i) + q i 0 - q i 2 * (1 + ln t) + p2 (phyp t i)));
      apply sd_plus; [apply sd_minus; [apply sd_plus; [apply sd_plus;
        [exact HL|apply (sd_const (ln (X i)))]|apply (sd_const (q i 0%nat))]
        |apply (sd_scal (q i 2%nat) (fun t _ => 1 + ln t)), sd_plus; [apply (sd_const 1)|exact Hln]]|exact H2]| |];
    unfold p1, p2, p3; cbn [fst snd]; rar; ring.
Qed.
Lemma agood_plus f g S S' t d : agood f S t d -> agood g S' t d ->
  agood (fun t d => (p1 (f t d) + p1 (g t d), p2 (f t d) + p2 (g t d), p3 (f t d) + p3 (g t d)))
    (S + S') t d.
Proof.
  intros [H1 H2] [K1 K2]. split; unfold p1 at 1, p2 at 1; cbn [fst snd].
  - eapply sd_conv; [apply sd_plus; [exact H1|exact K1]| |]; unfold p1, p2; cbn [fst snd]; ring.
  - eapply sd_conv; [apply sd_plus; [exact H2|exact K2]| |]; unfold p3; cbn [fst snd]; ring.
Qed.
Lemma agood_fold t d l : 0 < t -> EPSILON < d -> forall f S, agood f S t d ->
  agood (fun t d => fold_left (fun st i => a0_step X t d i st) l (f t d)) (S + rsum px l) t d.
Proof.
  intros Ht Hd. induction l as [|j l IH]; intros f S Hf; cbn [fold_left].
  { change (rsum px []) with 0. now rewrite Rplus_0_r. }
  rewrite rsum_cons, <- Rplus_assoc.
  apply (IH (fun t d => a0_step X t d j (f t d))).
  pose proof (agood_plus f (fun t d => a0_inc t d j) _ _ t d Hf (a0_inc_good j t d Ht Hd)) as [H1 H2].
  split.
  - eapply sd_conv; [eapply sd_ext; [|exact H1]|rewrite a0_step_inc; reflexivity|reflexivity].
    intros. cbv beta. now rewrite a0_step_inc.
  - eapply sd_conv; [eapply sd_ext; [|exact H2]|rewrite a0_step_inc; reflexivity|reflexivity].
    intros. cbv beta. now rewrite a0_step_inc.
Qed.
Definition psum : R := rsum px (seq 0 21).
Lemma pa0sum_good t d : 0 < t -> EPSILON < d -> agood (fun t d => pa0sum X t d) psum t d.
Proof.
  intros Ht Hd. unfold pa0sum. unfold psum.
  rewrite <- (Rplus_0_l (rsum px (seq 0 21))).
  apply (agood_fold t d (seq 0 21) Ht Hd (fun _ _ => (f0, f0, f0))).
  split; unfold p1, p2, p3; cbn [fst snd];
  (eapply sd_conv; [exact (sd_const f0 t d)| |]; unfold f0; rar; cbn [Rlit]; ring).
Qed.
(* the three entries *)
Definition e0 t d := xf (@pa0 ArithR P X t d) 0.
Definition e1 t d := xf (@pa0 ArithR P X t d) 1.
Definition e2 t d := xf (@pa0 ArithR P X t d) 2.
Lemma pa0_entries t d : e0 t d = p1 (pa0sum X t d) * RDETAIL * t /\
  e1 t d = p2 (pa0sum X t d) * RDETAIL /\ e2 t d = p3 (pa0sum X t d) * RDETAIL.
Proof.
  unfold e0, e1, e2, pa0. destruct (pa0sum X t d) as [[a b] c]. repeat split.
Qed.
Lemma sd_e0 t d : 0 < t -> EPSILON < d ->
  sd (fun t d => e0 t d) t d (t * e1 t d) (RDETAIL * t * psum).
Proof.
  intros Ht Hd. destruct (pa0sum_good t d Ht Hd) as [H1 H2].
  apply (sd_ext (fun t d => p1 (pa0sum X t d) * RDETAIL * t)).
  { intros s e. symmetry. apply pa0_entries. }
  destruct (pa0_entries t d) as (_ & -> & _).
  eapply sd_conv; [apply sd_mult; [apply sd_mult; [exact H1|apply (sd_const RDETAIL)]|apply sd_t]| |];
  cbv beta; rar; ring.
Qed.
Lemma sd_e1 t d : 0 < t -> EPSILON < d ->
  sd (fun t d => e1 t d) t d (e2 t d) (RDETAIL * psum).
Proof.
  intros Ht Hd. destruct (pa0sum_good t d Ht Hd) as [H1 H2].
  apply (sd_ext (fun t d => p2 (pa0sum X t d) * RDETAIL)).
  { intros s e. symmetry. apply pa0_entries. }
  destruct (pa0_entries t d) as (_ & _ & ->).
  eapply sd_conv; [apply sd_mult; [exact H2|apply (sd_const RDETAIL)]| |];
  cbv beta; rar; ring.
Qed.
End A0.
End I.
