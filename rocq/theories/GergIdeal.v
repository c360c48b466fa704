(* Derivatives of the GERG-2008 ideal-gas closed forms over the reals. *)
From Coq Require Import Reals ZArith List Bool Lra Lia.
From Coquelicot Require Import Coquelicot.
From Verif Require Import FArith Prelude Tab Composition DetailModel DetailPure GergTables GergModel GergPure
  GergRefine GergEval ArithR RSum DetailReal.
Import ListNotations.
Local Open Scope R_scope.
Local Existing Instance ArithR.
Local Notation GEPSILON := (@GEPSILON ArithR).
Local Notation RGERG := (@RGERG ArithR).
Lemma GEPS_pos : 0 < GEPSILON.
Proof. apply Rlit_pos. lia. Qed.
Lemma RG_pos : 0 < RGERG.
Proof. apply Rlit_pos. lia. Qed.

Section I.
Context {P : @GParams ArithR}.
Local Notation f0 := (@f0 ArithR).
Local Notation q := (@gq_n0i ArithR P).
Local Notation ghyp_step := (@ghyp_step ArithR P).
Local Notation ghyp := (@ghyp ArithR P).

Definition ghyp_inc (t : R) (i j : nat) : trip :=
  let th := lv2 (A := ArithR) G_TH0I i j in let y := th / t in let n := q i j in
  if Rltb GEPSILON th then
    if (Nat.eqb j 4 || Nat.eqb j 6)%bool
    then (n * ln (Rabs (shy y)), n * y * chy y / shy y, n * (y / shy y) * (y / shy y))
    else (- (n * ln (Rabs (chy y))), - (n * y * shy y / chy y), n * (y / chy y) * (y / chy y))
  else (0, 0, 0).
Lemma ghyp_step_inc t i j st : ghyp_step t i j st
  = (p1 st + p1 (ghyp_inc t i j), p2 st + p2 (ghyp_inc t i j), p3 st + p3 (ghyp_inc t i j)).
Proof.
  destruct st as [[h0 h1] h2]. unfold ghyp_step, ghyp_inc, shy, chy. rar. unfold f0, f1, f2. rar.
  cbn [Rlit]. destruct (Rltb _ _).
  - destruct (_ || _)%bool; unfold p1, p2, p3; cbn [fst snd]; reflexivity.
  - unfold p1, p2, p3. cbn [fst snd]. now rewrite !Rplus_0_r.
Qed.
(* h = (h0, h1, h2) with t h0' = - h1 and t h1' = h2 - h1 *)
Definition ghgood (f : R -> trip) (t d : R) : Prop :=
  sd (fun t _ => p1 (f t)) t d (- p2 (f t)) 0 /\
  sd (fun t _ => p2 (f t)) t d (p3 (f t) - p2 (f t)) 0.
Lemma ghyp_inc_good i j t d : 0 < t -> ghgood (fun t => ghyp_inc t i j) t d.
Proof.
  intros Ht. unfold ghgood, ghyp_inc. cbv zeta. set (th := lv2 G_TH0I i j).
  unfold Rltb. destruct (Rlt_dec GEPSILON th) as [Hth|Hth].
  2:{ unfold p1, p2, p3; cbn [fst snd]. split; (eapply sd_conv; [exact (sd_const 0 t d)| |]; ring). }
  assert (0 < th) as Hth0 by (pose proof GEPS_pos; rar; lra).
  assert (Hs : forall t, 0 < t -> 0 < shy (th / t)).
  { intros s Hs. apply shy_pos. now apply Rdiv_lt_0_compat. }
  pose proof (sd_y th t d Ht) as Hy.
  destruct (_ || _)%bool; unfold p1, p2, p3; cbn [fst snd].
  - assert (L : sd (fun t _ => ln (Rabs (shy (th / t)))) t d
               (- (th / t * chy (th / t) / shy (th / t))) 0).
    { apply (sd_ext_gt 0 (fun t _ => ln (shy (th / t)))); [exact Ht| |].
      - intros s _ H. rewrite Rabs_right; [reflexivity|]. apply Rle_ge, Rlt_le, Hs, H.
      - eapply sd_conv; [apply (sd_ln (fun t _ => shy (th / t))); [now apply Hs|apply (sd_shy (fun t _ => th / t)), Hy]| |];
        cbv beta; pose proof (Hs t Ht); set (y := th / t) in *; field; lra. }
    pose proof (Hs t Ht) as Hp. split.
    + eapply sd_conv; [apply (sd_scal (q i j)), L| |]; cbv beta; set (y := th / t) in *; rar; field; lra.
    + eapply sd_conv; [apply (sd_div (fun t _ => q i j * (th / t) * chy (th / t)) (fun t _ => shy (th / t)));
        [lra|apply sd_mult; [apply (sd_scal (q i j) (fun t _ => th / t)), Hy|apply (sd_chy (fun t _ => th / t)), Hy]
        |apply (sd_shy (fun t _ => th / t)), Hy]| |];
      cbv beta; set (y := th / t) in *; rar.
      * transitivity (- (q i j * y * chy y / shy y) + (q i j * (y * y * ((chy y * chy y - shy y * shy y) / (shy y * shy y))))).
        { rar. field. lra. }
        replace (chy y * chy y - shy y * shy y) with 1 by (rewrite ch2; ring). rar. field. lra.
      * field. lra.
  - assert (Hc : forall t, 0 < chy (th / t)) by (intros; apply chy_pos).
    assert (L : sd (fun t _ => ln (Rabs (chy (th / t)))) t d
               (- (th / t * shy (th / t) / chy (th / t))) 0).
    { apply (sd_ext (fun t _ => ln (chy (th / t)))).
      - intros s _. rewrite Rabs_right; [reflexivity|]. apply Rle_ge, Rlt_le, Hc.
      - eapply sd_conv; [apply (sd_ln (fun t _ => chy (th / t))); [now apply Hc|apply (sd_chy (fun t _ => th / t)), Hy]| |];
        cbv beta; pose proof (Hc t); set (y := th / t) in *; field; lra. }
    pose proof (Hc t) as Hp. split.
    + eapply sd_conv; [apply sd_opp, (sd_scal (q i j)), L| |]; cbv beta; set (y := th / t) in *; rar; field; lra.
    + eapply sd_conv; [apply sd_opp, (sd_div (fun t _ => q i j * (th / t) * shy (th / t)) (fun t _ => chy (th / t)));
        [lra|apply sd_mult; [apply (sd_scal (q i j) (fun t _ => th / t)), Hy|apply (sd_shy (fun t _ => th / t)), Hy]
        |apply (sd_chy (fun t _ => th / t)), Hy]| |];
      cbv beta; set (y := th / t) in *; rar.
      * transitivity ((q i j * y * shy y / chy y) + (q i j * (y * y * ((chy y * chy y - shy y * shy y) / (chy y * chy y))))).
        { rar. field. lra. }
        replace (chy y * chy y - shy y * shy y) with 1 by (rewrite ch2; ring). rar. field. lra.
      * field. lra.
Qed.
Lemma ghgood_plus (f g : R -> trip) t d : ghgood f t d -> ghgood g t d ->
  ghgood (fun t => (p1 (f t) + p1 (g t), p2 (f t) + p2 (g t), p3 (f t) + p3 (g t))) t d.
Proof.
  intros [H1 H2] [K1 K2]. split; unfold p1 at 1, p2 at 1; cbn [fst snd].
  - eapply sd_conv; [apply sd_plus; [exact H1|exact K1]| |]; unfold p1, p2; cbn [fst snd]; ring.
  - eapply sd_conv; [apply sd_plus; [exact H2|exact K2]| |]; unfold p2, p3; cbn [fst snd]; ring.
Qed.
Lemma ghgood_fold i t d l : 0 < t -> forall f, ghgood f t d ->
  ghgood (fun t => fold_left (fun st j => ghyp_step t i j st) l (f t)) t d.
Proof.
  intros Ht. induction l as [|j l IH]; intros f Hf; cbn [fold_left]; [exact Hf|].
  apply (IH (fun t => ghyp_step t i j (f t))).
  pose proof (ghgood_plus f (fun t => ghyp_inc t i j) t d Hf (ghyp_inc_good i j t d Ht)) as [H1 H2].
  split.
  - eapply sd_conv; [eapply sd_ext; [|exact H1]|rewrite ghyp_step_inc; reflexivity|reflexivity].
    intros. cbv beta. now rewrite ghyp_step_inc.
  - eapply sd_conv; [eapply sd_ext; [|exact H2]|rewrite ghyp_step_inc; reflexivity|reflexivity].
    intros. cbv beta. now rewrite ghyp_step_inc.
Qed.
Lemma ghyp_good i t d : 0 < t -> ghgood (fun t => ghyp t i) t d.
Proof.
  intros Ht. unfold ghyp. apply (ghgood_fold i t d (seq 4 4) Ht (fun _ => (f0, f0, f0))).
  split; unfold p1, p2, p3; cbn [fst snd];
  (eapply sd_conv; [exact (sd_const f0 t d)| |]; unfold f0; rar; cbn [Rlit]; ring).
Qed.

Section A0.
Variable X : nat -> R.
Local Notation ga0_step := (@ga0_step ArithR P).
Local Notation ga0sum := (@ga0sum ArithR P).
Definition ga0_inc (t d : R) (i : nat) : trip :=
  if Rltb GEPSILON (X i) then
    let logxd := @glogd ArithR d + ln (X i) in
    (X i * (logxd + q i 1 + q i 2 / t - q i 3 * ln t + p1 (ghyp t i)),
     X i * (q i 3 + q i 2 / t + p2 (ghyp t i)),
     - X i * (q i 3 + p3 (ghyp t i)))
  else (0, 0, 0).
Definition gpx (i : nat) : R := if Rltb GEPSILON (X i) then X i else 0.
Lemma ga0_step_inc t d i st : ga0_step X t d i st
  = (p1 st + p1 (ga0_inc t d i), p2 st + p2 (ga0_inc t d i), p3 st + p3 (ga0_inc t d i)).
Proof.
  destruct st as [[h0 h1] h2]. unfold ga0_step, act, ga0_inc. rar. unfold f0, f1. rar.
  cbn [Rlit]. destruct (Rltb _ _).
  - destruct (ghyp t i) as [[u0 u1] u2]. unfold p1, p2, p3; cbn [fst snd]. reflexivity.
  - unfold p1, p2, p3. cbn [fst snd]. now rewrite !Rplus_0_r.
Qed.
(* (a0, a1, a2) with t a0_t = - a1, d a0_d = S, t a1_t = - a1 - a2, a1_d = 0 *)
Definition gagood (f : R -> R -> trip) (S t d : R) : Prop :=
  sd (fun t d => p1 (f t d)) t d (- p2 (f t d)) S /\
  sd (fun t d => p2 (f t d)) t d (- p2 (f t d) - p3 (f t d)) 0.
Lemma sd_glogd t d : GEPSILON < d -> sd (fun _ d => @glogd ArithR d) t d 0 1.
Proof.
  intros Hd. pose proof GEPS_pos.
  apply (sd_ext_gt2 (t - 1) GEPSILON (fun _ d => ln d)); [lra|exact Hd| |].
  - intros s e _ He. unfold glogd. rar. apply Rltb_true in He. now rewrite He.
  - eapply sd_conv; [apply (sd_ln (fun _ d => d)); [rar; lra|apply sd_d]| |]; cbv beta; field; rar; lra.
Qed.
Lemma ga0_inc_good i t d : 0 < t -> GEPSILON < d -> gagood (fun t d => ga0_inc t d i) (gpx i) t d.
Proof.
  intros Ht Hd. unfold gagood, ga0_inc, gpx. destruct (Rltb GEPSILON (X i)).
  2:{ unfold p1, p2, p3; cbn [fst snd]. split; (eapply sd_conv; [exact (sd_const 0 t d)| |]; ring). }
  cbv zeta. destruct (ghyp_good i t d Ht) as [H1 H2]. pose proof (sd_glogd t d Hd) as HL.
  assert (Hln : sd (fun t _ => ln t) t d 1 0).
  { eapply sd_conv; [apply (sd_ln (fun t _ => t)); [exact Ht|apply sd_t]| |]; cbv beta; field; lra. }
  split; unfold p1 at 1, p2 at 1; cbn [fst snd].
  - eapply sd_conv; [apply (sd_scal (X i) (fun t d => @glogd ArithR d + ln (X i) + q i 1 + q i 2 / t - q i 3 * ln t + p1 (ghyp t i)));
      apply sd_plus; [apply sd_minus; [apply sd_plus; [apply sd_plus; [apply sd_plus;
        [exact HL|apply (sd_const (ln (X i)))]|apply (sd_const (q i 1%nat))]|apply (sd_y (q i 2%nat)), Ht]
        |apply (sd_scal (q i 3%nat)), Hln]|exact H1]| |]; unfold p1, p2, p3; cbn [fst snd]; rar; field; lra.
  - eapply sd_conv; [apply (sd_scal (X i) (fun t d => q i 3 + q i 2 / t + p2 (ghyp t i)));
      apply sd_plus; [apply sd_plus; [apply (sd_const (q i 3%nat))|apply (sd_y (q i 2%nat)), Ht]|exact H2]| |];
    unfold p1, p2, p3; cbn [fst snd]; rar; ring.
Qed.
Lemma gagood_plus f g S S' t d : gagood f S t d -> gagood g S' t d ->
  gagood (fun t d => (p1 (f t d) + p1 (g t d), p2 (f t d) + p2 (g t d), p3 (f t d) + p3 (g t d)))
    (S + S') t d.
Proof.
  intros [H1 H2] [K1 K2]. split; unfold p1 at 1, p2 at 1; cbn [fst snd].
  - eapply sd_conv; [apply sd_plus; [exact H1|exact K1]| |]; unfold p1, p2; cbn [fst snd]; ring.
  - eapply sd_conv; [apply sd_plus; [exact H2|exact K2]| |]; unfold p2, p3; cbn [fst snd]; ring.
Qed.
Lemma gagood_fold t d l : 0 < t -> GEPSILON < d -> forall f S, gagood f S t d ->
  gagood (fun t d => fold_left (fun st i => ga0_step X t d i st) l (f t d)) (S + rsum gpx l) t d.
Proof.
  intros Ht Hd. induction l as [|j l IH]; intros f S Hf; cbn [fold_left].
  { change (rsum gpx []) with 0. now rewrite Rplus_0_r. }
  rewrite rsum_cons, <- Rplus_assoc.
  apply (IH (fun t d => ga0_step X t d j (f t d))).
  pose proof (gagood_plus f (fun t d => ga0_inc t d j) _ _ t d Hf (ga0_inc_good j t d Ht Hd)) as [H1 H2].
  split.
  - eapply sd_conv; [eapply sd_ext; [|exact H1]|rewrite ga0_step_inc; reflexivity|reflexivity].
    intros. cbv beta. now rewrite ga0_step_inc.
  - eapply sd_conv; [eapply sd_ext; [|exact H2]|rewrite ga0_step_inc; reflexivity|reflexivity].
    intros. cbv beta. now rewrite ga0_step_inc.
Qed.
Definition gpsum : R := rsum gpx (seq 1 21).
Lemma ga0sum_good t d : 0 < t -> GEPSILON < d -> gagood (fun t d => ga0sum X t d) gpsum t d.
Proof.
  intros Ht Hd. unfold ga0sum, gpsum.
  rewrite <- (Rplus_0_l (rsum gpx (seq 1 21))).
  apply (gagood_fold t d (seq 1 21) Ht Hd (fun _ _ => (f0, f0, f0))).
  split; unfold p1, p2, p3; cbn [fst snd];
  (eapply sd_conv; [exact (sd_const f0 t d)| |]; unfold f0; rar; cbn [Rlit]; ring).
Qed.
(* the three entries *)
Definition ge0 (t d : R) : R := xf (@ga0 ArithR P X t d) 0.
Definition ge1 (t d : R) : R := xf (@ga0 ArithR P X t d) 1.
Definition ge2 (t d : R) : R := xf (@ga0 ArithR P X t d) 2.
Lemma ga0_entries t d : ge0 t d = p1 (ga0sum X t d) /\ ge1 t d = p2 (ga0sum X t d) /\ ge2 t d = p3 (ga0sum X t d).
Proof. unfold ge0, ge1, ge2, ga0. destruct (ga0sum X t d) as [[a b] c]. repeat split. Qed.
Lemma sd_ge0 t d : 0 < t -> GEPSILON < d -> sd (fun t d => ge0 t d) t d (- ge1 t d) gpsum.
Proof.
  intros Ht Hd. destruct (ga0sum_good t d Ht Hd) as [H1 H2].
  apply (sd_ext (fun t d => p1 (ga0sum X t d))).
  { intros s e. symmetry. apply ga0_entries. }
  destruct (ga0_entries t d) as (_ & -> & _). exact H1.
Qed.
Lemma sd_ge1 t d : 0 < t -> GEPSILON < d -> sd (fun t d => ge1 t d) t d (- ge1 t d - ge2 t d) 0.
Proof.
  intros Ht Hd. destruct (ga0sum_good t d Ht Hd) as [H1 H2].
  apply (sd_ext (fun t d => p2 (ga0sum X t d))).
  { intros s e. symmetry. apply ga0_entries. }
  destruct (ga0_entries t d) as (_ & -> & ->). exact H2.
Qed.
End A0.
End I.
