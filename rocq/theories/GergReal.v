(* Derivatives of the GERG-2008 closed forms over the reals. *)
From Coq Require Import Reals ZArith List Bool Lra Lia.
From Coquelicot Require Import Coquelicot.
From Verif Require Import FArith Prelude Tab Composition DetailModel DetailPure GergTables GergModel GergPure
  GergRefine GergEval HistoryGerg ArithR RSum DetailReal.
Import ListNotations.
Local Open Scope R_scope.
Local Existing Instance ArithR.

Local Arguments gdelp {A} del%R_scope k%nat_scope.
Local Arguments gexpd {A} del%R_scope k%nat_scope.
Local Arguments pol_c {A} ndt%R_scope dd%R_scope tt%R_scope e%nat_scope.
Local Arguments exp_c {A} ndt%R_scope dd%R_scope tt%R_scope cc%R_scope delc%R_scope e%nat_scope.
Local Arguments mexp_c {A} ndt%R_scope dd%R_scope tt%R_scope cij0%R_scope eij0%R_scope e%nat_scope.
Local Notation gdelp := (@gdelp ArithR).
Local Notation gexpd := (@gexpd ArithR).
Local Notation pol_c := (@pol_c ArithR).
Local Notation exp_c := (@exp_c ArithR).
Local Notation mexp_c := (@mexp_c ArithR).
Local Notation arS := (@arS ArithR).
Local Notation GEPSILON := (@GEPSILON ArithR).
Local Notation RGERG := (@RGERG ArithR).
Ltac consts := unfold f0, f1, f2, f3, f4; rar; cbn [Rlit].

(* entries of a contribution c and how they differentiate: temperature enters through
   tau = tr / t, so t d/dt = - tau d/dtau *)
Definition good (c : R -> R -> nat -> R) (t d : R) : Prop :=
  sd (fun t d => c t d 0%nat) t d (- c t d 4%nat) (c t d 1%nat) /\
  sd (fun t d => c t d 1%nat) t d (- c t d 5%nat) (c t d 1%nat + c t d 2%nat) /\
  sd (fun t d => c t d 2%nat) t d (- c t d 6%nat) (2 * c t d 2%nat + c t d 3%nat) /\
  sd (fun t d => c t d 4%nat) t d (- (c t d 4%nat + c t d 7%nat)) (c t d 5%nat).

Section G.
Variables (dr tr : R).
Hypothesis Htr : 0 < tr.
Lemma sd_lntau t d : 0 < t -> sd (fun t _ => ln (tr / t)) t d (-1) 0.
Proof.
  intros Ht. eapply sd_conv; [apply (sd_ln (fun t _ => tr / t)); [apply Rdiv_lt_0_compat; assumption
    |apply (sd_div (fun _ _ => tr) (fun t _ => t)); [lra|apply (sd_const tr)|apply sd_t]]| |];
  cbv beta; field; lra.
Qed.
Lemma sd_del t d : sd (fun _ d => d / dr) t d 0 (d / dr).
Proof.
  apply (sd_ext (fun _ d => / dr * d)); [intros; unfold Rdiv; ring|].
  eapply sd_conv; [apply sd_scal, sd_d| |]; unfold Rdiv; ring.
Qed.
Lemma sd_delp k t d : sd (fun _ d => gdelp (d / dr) k) t d 0 (INR k * gdelp (d / dr) k).
Proof.
  induction k as [|[|k] IH].
  - eapply sd_conv; [exact (sd_const f0 t d)|reflexivity|cbn [INR]; ring].
  - eapply sd_conv; [exact (sd_del t d)|reflexivity|cbn [INR GergPure.gdelp]; ring].
  - change (sd (fun _ d => gdelp (d / dr) (S k) * (d / dr)) t d 0
      (INR (S (S k)) * (gdelp (d / dr) (S k) * (d / dr)))).
    eapply sd_conv; [apply sd_mult; [exact IH|apply sd_del]| |]; cbv beta; rewrite ?(S_INR (S k)); ring.
Qed.
Lemma sd_expd k t d : sd (fun _ d => gexpd (d / dr) k) t d 0
  (- (INR k * gdelp (d / dr) k) * gexpd (d / dr) k).
Proof.
  destruct k as [|k].
  - eapply sd_conv; [exact (sd_const f0 t d)|reflexivity|unfold gexpd; consts; ring].
  - unfold gexpd. rar. eapply sd_conv; [apply sd_exp, sd_opp, sd_delp| |]; cbv beta; ring.
Qed.

Section Terms.
Variables (t d : R) (tt dd : R).
Lemma good_pol (n : R -> R -> R) : sd n t d (- tt * n t d) (dd * n t d) ->
  good (fun t d => pol_c (n t d) dd tt) t d.
Proof.
  intros H. unfold good, pol_c. consts.
  split; [|split; [|split]].
  - eapply sd_conv; [exact H| |]; cbv beta; ring.
  - eapply sd_conv; [apply sd_mult; [exact H|exact (sd_const dd t d)]| |]; cbv beta; ring.
  - eapply sd_conv; [apply sd_mult; [apply sd_mult; [exact H|exact (sd_const dd t d)]|exact (sd_const (dd - 1) t d)]| |]; cbv beta; ring.
  - eapply sd_conv; [apply sd_mult; [exact H|exact (sd_const tt t d)]| |]; cbv beta; ring.
Qed.
Lemma good_exp (n c : R -> R -> R) cc : sd c t d 0 (cc * c t d) ->
  sd n t d (- tt * n t d) ((dd - cc * c t d) * n t d) ->
  good (fun t d => exp_c (n t d) dd tt cc (c t d)) t d.
Proof.
  intros Hc H. unfold good, exp_c. consts.
  assert (sd (fun t d => cc * c t d) t d 0 (cc * (cc * c t d))) as He.
  { eapply sd_conv; [apply sd_scal, Hc| |]; cbv beta; ring. }
  assert (sd (fun t d => dd - cc * c t d) t d 0 (- (cc * (cc * c t d)))) as H2.
  { eapply sd_conv; [apply sd_minus; [exact (sd_const dd t d)|exact He]| |]; cbv beta; ring. }
  assert (sd (fun t d => (dd - cc * c t d) * (dd - cc * c t d - 1) - cc * (cc * c t d)) t d 0
    (- (cc * (cc * c t d)) * (2 * (dd - cc * c t d) - 1) - cc * (cc * (cc * c t d)))) as H3.
  { eapply sd_conv; [apply sd_minus; [apply sd_mult; [exact H2|apply sd_minus; [exact H2|exact (sd_const 1 t d)]]
      |apply sd_scal; exact He]| |]; cbv beta; ring. }
  split; [|split; [|split]].
  - eapply sd_conv; [exact H| |]; cbv beta; ring.
  - eapply sd_conv; [apply sd_mult; [exact H|exact H2]| |]; cbv beta; ring.
  - eapply sd_conv; [apply sd_mult; [exact H|exact H3]| |]; cbv beta; ring.
  - eapply sd_conv; [apply sd_mult; [exact H|exact (sd_const tt t d)]| |]; cbv beta; ring.
Qed.
Lemma good_mexp (n c e : R -> R -> R) : sd c t d 0 (2 * c t d) -> sd e t d 0 (e t d) ->
  sd n t d (- tt * n t d) ((dd + 2 * c t d + e t d) * n t d) ->
  good (fun t d => mexp_c (n t d) dd tt (c t d) (e t d)) t d.
Proof.
  intros Hc He H. unfold good, mexp_c. consts.
  assert (sd (fun t d => dd + 2 * c t d + e t d) t d 0 (4 * c t d + e t d)) as H2.
  { eapply sd_conv; [apply sd_plus; [apply sd_plus; [exact (sd_const dd t d)|apply sd_scal, Hc]|exact He]| |];
    cbv beta; ring. }
  assert (sd (fun t d => (dd + 2 * c t d + e t d) * (dd + 2 * c t d + e t d) - dd + 2 * c t d) t d 0
    (2 * (dd + 2 * c t d + e t d) * (4 * c t d + e t d) + 4 * c t d)) as H3.
  { eapply sd_conv; [apply sd_plus; [apply sd_minus; [apply sd_mult; exact H2|exact (sd_const dd t d)]
      |apply sd_scal; exact Hc]| |]; cbv beta; ring. }
  split; [|split; [|split]].
  - eapply sd_conv; [exact H| |]; cbv beta; ring.
  - eapply sd_conv; [apply sd_mult; [exact H|exact H2]| |]; cbv beta; ring.
  - eapply sd_conv; [apply sd_mult; [exact H|exact H3]| |]; cbv beta; ring.
  - eapply sd_conv; [apply sd_mult; [exact H|exact (sd_const tt t d)]| |]; cbv beta; ring.
Qed.
End Terms.

(* sums of contributions *)
Lemma arS_rsum l e : arS l e = rsum (fun c => c e) l.
Proof.
  unfold GergPure.arS. rar. change (fold_left (fun a c => a + c e) l f0 = rsum (fun c : nat -> R => c e) l).
  rewrite (rsum_fold (fun c : nat -> R => c e) l). consts. ring.
Qed.
Definition lgood (l : R -> R -> list (nat -> R)) (t d : R) : Prop :=
  good (fun t d e => rsum (fun c => c e) (l t d)) t d.
Lemma lgood_nil t d : lgood (fun _ _ => []) t d.
Proof.
  unfold lgood, good. change (rsum _ []) with 0.
  repeat split; (eapply sd_conv; [exact (sd_const 0 t d)| |]; cbv beta; ring).
Qed.
Lemma good_plus c c' t d : good c t d -> good c' t d -> good (fun t d e => c t d e + c' t d e) t d.
Proof.
  intros (A0 & A1 & A2 & A3) (B0 & B1 & B2 & B3).
  repeat split; (eapply sd_conv; [apply sd_plus; eassumption| |]; cbv beta; ring).
Qed.
Lemma good_ext c c' t d : (forall t d e, c t d e = c' t d e) -> good c t d -> good c' t d.
Proof.
  intros E (A0 & A1 & A2 & A3). unfold good. rewrite <- !E.
  repeat split; (eapply sd_ext; [|eassumption]; intros; apply E).
Qed.
Lemma lgood_cons c l t d : good c t d -> lgood l t d -> lgood (fun t d => c t d :: l t d) t d.
Proof. intros H H'. exact (good_plus _ _ t d H H'). Qed.
Lemma lgood_app l l' t d : lgood l t d -> lgood l' t d -> lgood (fun t d => l t d ++ l' t d) t d.
Proof.
  intros H H'. unfold lgood. eapply good_ext; [|exact (good_plus _ _ t d H H')].
  intros. cbv beta. now rewrite rsum_app.
Qed.
Lemma lgood_map {S} (f : R -> R -> S -> nat -> R) (l : list S) t d :
  (forall n, In n l -> good (fun t d => f t d n) t d) -> lgood (fun t d => map (f t d) l) t d.
Proof.
  induction l as [|n l IH]; intros H; cbn [map]; [apply lgood_nil|].
  apply lgood_cons; [apply H; now left|apply IH; intros; apply H; now right].
Qed.
Lemma lgood_flat {S} (f : R -> R -> S -> list (nat -> R)) (l : list S) t d :
  (forall n, In n l -> lgood (fun t d => f t d n) t d) -> lgood (fun t d => flat_map (f t d) l) t d.
Proof.
  induction l as [|n l IH]; intros H; cbn [flat_map]; [apply lgood_nil|].
  apply lgood_app; [apply H; now left|apply IH; intros; apply H; now right].
Qed.
End G.

Section Sum.
Context {P : @GParams ArithR}.
Variable x : list R.
Local Notation X := (@xf ArithR x).
Local Notation dr := (@gdr ArithR P X).
Local Notation tr := (@gtr ArithR P X).
Hypothesis Htr : 0 < tr.
Hypothesis Hsf : forall i k, (i < 22)%nat -> short_form i = true -> (k < 25)%nat -> @q_toik ArithR P 5 k = q_toik i k.
Definition lt (t : R) : R := @clntau ArithR P x t.
Lemma sd_lt t d : 0 < t -> sd (fun t _ => lt t) t d (-1) 0.
Proof. apply sd_lntau. exact Htr. Qed.
Lemma sd_tp i k t d : 0 < t -> (i < 22)%nat -> (k < 25)%nat ->
  sd (fun t _ => @cTP ArithR P x t i k) t d (- q_toik i k * @cTP ArithR P x t i k) 0.
Proof.
  intros Ht Hi Hk. unfold cTP. rar.
  assert (q_toik (if short_form i then 5%nat else i) k = q_toik i k) as ->.
  { destruct (short_form i) eqn:E; [now apply Hsf|reflexivity]. }
  eapply sd_conv; [apply sd_scal, sd_exp, sd_scal, sd_lt; exact Ht| |]; cbv beta; unfold lt; rar; ring.
Qed.
Lemma sd_tm m k t d : 0 < t ->
  sd (fun t _ => @cTM ArithR P x t m k) t d (- q_tijk m k * @cTM ArithR P x t m k) 0.
Proof.
  intros Ht. unfold cTM. rar.
  eapply sd_conv; [apply sd_scal, sd_exp, sd_scal, sd_lt; exact Ht| |]; cbv beta; unfold lt; rar; ring.
Qed.
Section At.
Variables (t d : R).
Hypothesis Ht : 0 < t.
Lemma pterm_good i k : (i < 22)%nat -> (k < 25)%nat ->
  good (fun t d => @pterm ArithR P X (d / dr) (@cTP ArithR P x t) i k) t d.
Proof.
  intros Hi Hk. unfold pterm. rar. apply good_pol.
  eapply sd_conv; [apply sd_mult; [apply sd_scal, sd_delp|apply sd_tp; assumption]| |]; cbv beta; rar; ring.
Qed.
Lemma eterm_good i k : (i < 22)%nat -> (k < 25)%nat ->
  good (fun t d => @eterm ArithR P X (d / dr) (@cTP ArithR P x t) i k) t d.
Proof.
  intros Hi Hk. unfold eterm. rar. apply good_exp; [apply sd_delp|].
  eapply sd_conv; [apply sd_mult; [apply sd_mult; [apply sd_scal, sd_delp|apply sd_tp; assumption]
    |apply sd_expd]| |]; cbv beta; rar; ring.
Qed.
Lemma mpterm_good i j m k :
  good (fun t d => @mpterm ArithR P X (d / dr) (@cTM ArithR P x t) i j m k) t d.
Proof.
  unfold mpterm. rar. apply good_pol.
  eapply sd_conv; [apply sd_mult; [apply sd_scal, sd_delp|apply sd_tm; assumption]| |]; cbv beta; rar; ring.
Qed.
Lemma meterm_good i j m k :
  good (fun t d => @meterm ArithR P X (d / dr) (lt t) i j m k) t d.
Proof.
  unfold meterm. rar.
  assert (sd (fun _ d => @q_cijk ArithR P m k * @gdelp (d / dr) 2) t d 0 (2 * (@q_cijk ArithR P m k * @gdelp (d / dr) 2))) as Hc.
  { eapply sd_conv; [apply sd_scal, sd_delp| |]; cbn [INR]; ring. }
  assert (sd (fun _ d => @q_eijk ArithR P m k * (d / dr)) t d 0 (q_eijk m k * (d / dr))) as He.
  { eapply sd_conv; [apply sd_scal, sd_del| |]; ring. }
  apply (good_mexp t d _ _ _ (fun _ d => @q_cijk ArithR P m k * @gdelp (d / dr) 2)
    (fun _ d => @q_eijk ArithR P m k * (d / dr))); [exact Hc|exact He|].
  eapply sd_conv; [apply sd_mult; [apply sd_scal, sd_delp|apply sd_exp; apply sd_plus; [apply sd_plus;
    [apply sd_plus; [exact Hc|exact He]|exact (sd_const (@q_gijk ArithR P m k) t d)]|apply sd_scal, sd_lt; exact Ht]]
    | |]; cbv beta; rar; ring.
Qed.
Lemma can_terms_good : lgood (fun t d => @can_terms ArithR P x t d) t d.
Proof.
  unfold can_terms, gterms. rar. apply lgood_app.
  - apply lgood_flat. intros i Hi. apply in_seq in Hi. unfold pure_terms. destruct (act (X i)); [|apply lgood_nil].
    assert (kpol i + kexp i < 25)%nat as HK.
    { do 22 (destruct i as [|i]; [cbv; lia|]). lia. }
    apply lgood_app; apply lgood_map; intros k Hk; apply in_seq in Hk.
    + apply pterm_good; lia.
    + apply eterm_good; lia.
  - apply lgood_flat. intros i Hi. unfold mixrow. destruct (act (X i)); [|apply lgood_nil].
    apply lgood_flat. intros j Hj. unfold mix_terms. destruct (act (X j)); [|apply lgood_nil].
    destruct (Nat.ltb 0 (mnumb i j)); [|apply lgood_nil].
    apply lgood_app; apply lgood_map; intros k Hk.
    + apply mpterm_good.
    + apply meterm_good.
Qed.
Definition AR (e : nat) (t d : R) : R := arS (@can_terms ArithR P x t d) e.
Lemma AR_good : good (fun t d e => AR e t d) t d.
Proof. eapply good_ext; [|exact can_terms_good]. intros. symmetry. apply arS_rsum. Qed.
End At.
End Sum.
