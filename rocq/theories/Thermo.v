(* Classical thermodynamics: when the Helmholtz energy, entropy and pressure fit together, the
   derived properties computed with the usual formulas are the derivatives they claim to be. *)
From Coq Require Import Reals Lra.
From Coquelicot Require Import Coquelicot.
From Verif Require Import FArith ArithR SpecReal.
Local Open Scope R_scope.

Lemma sd_diff f t d a b : t <> 0 -> d <> 0 -> sd f t d a b -> diff f t d (a / t) (b / d).
Proof.
  intros Ht Hd (h1 & h2 & E1 & E2 & H) T D s T' D' e1 e2 HT HD.
  replace (a / t) with h1 by (rewrite <- E1; field; assumption).
  replace (b / d) with h2 by (rewrite <- E2; field; assumption). now apply H.
Qed.
Lemma diff_conv f t d a b a' b' : diff f t d a b -> a = a' -> b = b' -> diff f t d a' b'.
Proof. now intros H <- <-. Qed.
Lemma diff_ext_gt2 (m n : R) f g t d a b : m < t -> n < d ->
  (forall t d, m < t -> n < d -> f t d = g t d) -> diff f t d a b -> diff g t d a b.
Proof.
  intros Hm Hn E H T D s T' D' E1 E2 HT HD.
  apply (is_derive_ext_loc (fun r => f (T r) (D r))); [|now apply H].
  apply (filter_imp (fun r => m < T r /\ n < D r)); [intros r [? ?]; now apply E|].
  apply filter_and; eapply locally_gt; eassumption || (rewrite ?E1, ?E2; assumption).
Qed.
Lemma diff_t t d : diff (fun t _ => t) t d 1 0.
Proof. intros T D s T' D' _ _ HT HD. replace (1 * T' + 0 * D') with T' by ring. exact HT. Qed.
Lemma diff_d t d : diff (fun _ d => d) t d 0 1.
Proof. intros T D s T' D' _ _ HT HD. replace (0 * T' + 1 * D') with D' by ring. exact HD. Qed.
Lemma diff_plus f g t d a b a' b' : diff f t d a b -> diff g t d a' b' ->
  diff (fun t d => f t d + g t d) t d (a + a') (b + b').
Proof.
  intros H H' T D s T' D' E1 E2 HT HD.
  replace ((a + a') * T' + (b + b') * D') with ((a * T' + b * D') + (a' * T' + b' * D')) by ring.
  apply (is_derive_plus (fun r => f (T r) (D r)) (fun r => g (T r) (D r))); [now apply H|now apply H'].
Qed.
Lemma diff_mult f g t d a b a' b' : diff f t d a b -> diff g t d a' b' ->
  diff (fun t d => f t d * g t d) t d (a * g t d + f t d * a') (b * g t d + f t d * b').
Proof.
  intros H H' T D s T' D' E1 E2 HT HD.
  replace ((a * g t d + f t d * a') * T' + (b * g t d + f t d * b') * D')
    with ((a * T' + b * D') * g (T s) (D s) + f (T s) (D s) * (a' * T' + b' * D'))
    by (rewrite E1, E2; ring).
  apply (is_derive_mult (fun r => f (T r) (D r)) (fun r => g (T r) (D r)));
    [now apply H|now apply H'|intros; apply Rmult_comm].
Qed.
Lemma diff_inv_d t d : d <> 0 -> diff (fun _ d => / d) t d 0 (- / (d * d)).
Proof.
  intros Hd T D s T' D' E1 E2 HT HD.
  replace (0 * T' + - / (d * d) * D') with (- D' / (D s) ^ 2) by (rewrite E2; field; assumption).
  apply is_derive_inv; [exact HD|rewrite E2; exact Hd].
Qed.

Lemma derive_unique (f : R -> R) (q a b : R) : is_derive f q a -> is_derive f q b -> a = b.
Proof. intros H K. apply is_derive_unique in H. apply is_derive_unique in K. congruence. Qed.

Section T.
Variables (rg mm : R) (p dpdd d2p dpdt z u h s cv cp w g jt kappa : R -> R -> R) (t d : R).
Hypotheses (Ht : 0 < t) (Hd : 0 < d) (Hr : rg <> 0).
Variable m n : R.
Hypotheses (Hm : m < t) (Hn : n < d).
Let a := fun t d => u t d - t * s t d.
Hypothesis Ha : diff a t d (- s t d) (p t d / (d * d)).
Hypothesis Hs : diff s t d (cv t d / t) (- dpdt t d / (d * d)).
Hypothesis Hp : diff p t d (dpdt t d) (dpdd t d).
Hypothesis Eh : forall t d, m < t -> n < d -> h t d = u t d + p t d / d.
Hypothesis Eg : g t d = h t d - t * s t d.
Hypothesis Ez : z t d = p t d / (d * rg * t).
Hypothesis Ecp : cp t d = cv t d + t * (dpdt t d / d * (dpdt t d / d)) / dpdd t d.
Hypothesis Ejt : jt t d = (t / d * dpdt t d / dpdd t d - 1) / cp t d / d.
Hypothesis Ew : w t d = sqrt (if Rltb (1000 * cp t d / cv t d * dpdd t d / mm) 0 then 0
  else 1000 * cp t d / cv t d * dpdd t d / mm).
Hypothesis Ek : kappa t d = w t d * w t d * mm / (rg * t * 1000 * z t d).

Lemma T_u : diff u t d (cv t d) ((p t d - t * dpdt t d) / (d * d)).
Proof.
  apply (diff_ext_gt2 m n (fun t d => a t d + t * s t d)); [assumption|assumption| |].
  - intros. unfold a. ring.
  - eapply diff_conv; [apply diff_plus; [exact Ha|apply diff_mult; [apply diff_t|exact Hs]]| |];
    cbv beta; field; lra.
Qed.
Lemma T_h : diff h t d (cv t d + dpdt t d / d) (dpdd t d / d - t * dpdt t d / (d * d)).
Proof.
  apply (diff_ext_gt2 m n (fun t d => u t d + p t d * / d)); [assumption|assumption| |].
  - intros. rewrite Eh by assumption. reflexivity.
  - eapply diff_conv; [apply diff_plus; [exact T_u|apply diff_mult; [exact Hp|apply diff_inv_d; lra]]| |];
    cbv beta; field; lra.
Qed.
Lemma T_potentials : potentials rg p dpdt z u h s cv g t d.
Proof.
  unfold potentials. split; [exact Ha|]. split; [exact T_u|]. split; [exact Hs|].
  split; [now apply Eh|]. split; [exact Eg|exact Ez].
Qed.
Lemma T_cp : isobaric_cp p dpdd h cp t d.
Proof.
  intros Hpd T D q T' D' E1 E2 HT HD H0.
  pose proof (Hp T D q T' D' E1 E2 HT HD) as H1. pose proof (derive_unique _ _ _ _ H0 H1) as E.
  pose proof (T_h T D q T' D' E1 E2 HT HD) as H2.
  replace (cp t d * T') with ((cv t d + dpdt t d / d) * T' + (dpdd t d / d - t * dpdt t d / (d * d)) * D');
    [exact H2|].
  assert (D' = - dpdt t d * T' / dpdd t d) as ->.
  { apply (Rmult_eq_reg_l (dpdd t d)); [|assumption]. field_simplify; [lra|assumption]. }
  rewrite Ecp. field. lra.
Qed.
Lemma T_jt : isenthalpic_jt p dpdd h cp jt t d.
Proof.
  intros Hpd Hcp T D q T' D' P' E1 E2 HT HD H0 HP.
  pose proof (Hp T D q T' D' E1 E2 HT HD) as H1. pose proof (derive_unique _ _ _ _ HP H1) as E.
  pose proof (T_h T D q T' D' E1 E2 HT HD) as H2. pose proof (derive_unique _ _ _ _ H0 H2) as E'.
  assert (D' = (P' - dpdt t d * T') / dpdd t d) as ED.
  { rewrite E. field. assumption. }
  rewrite ED in E'. rewrite Ejt.
  assert (cp t d * T' = (t / d * dpdt t d / dpdd t d - 1) / d * P') as EE.
  { rewrite Ecp.
    replace ((cv t d + t * (dpdt t d / d * (dpdt t d / d)) / dpdd t d) * T')
      with (((cv t d + dpdt t d / d) * T' +
     (dpdd t d / d - t * dpdt t d / (d * d)) * ((P' - dpdt t d * T') / dpdd t d)) +
       (t / d * dpdt t d / dpdd t d - 1) / d * P') by (field; lra).
    rewrite <- E'. ring. }
  apply (Rmult_eq_reg_l (cp t d)); [|assumption]. rewrite EE. field. lra.
Qed.
Lemma T_w : isentropic_w mm p dpdd s cv cp w kappa t d.
Proof.
  intros Hpd Hcv Hmm Hpos T D q T' D' P' E1 E2 HT HD H0 HP.
  pose proof (Hp T D q T' D' E1 E2 HT HD) as H1. pose proof (derive_unique _ _ _ _ HP H1) as E.
  pose proof (Hs T D q T' D' E1 E2 HT HD) as H2. pose proof (derive_unique _ _ _ _ H0 H2) as E'.
  assert (w t d * w t d = 1000 * cp t d / cv t d * dpdd t d / mm) as EW.
  { rewrite Ew.
    replace (1000 * cp t d / cv t d * dpdd t d / mm)
      with (1000 * (cp t d / cv t d * dpdd t d / mm)) by (unfold Rdiv; ring).
    assert (Rltb (1000 * (cp t d / cv t d * dpdd t d / mm)) 0 = false) as -> by (apply Rltb_false; lra).
    apply sqrt_sqrt. lra. }
  assert (T' = t * dpdt t d / (d * d) * D' / cv t d) as ET.
  { replace T' with ((cv t d / t * T' + - dpdt t d / (d * d) * D') * t / cv t d
      + t * dpdt t d / (d * d) * D' / cv t d) by (field; lra). rewrite <- E'. field. lra. }
  assert (P' = cp t d / cv t d * dpdd t d * D') as EP.
  { rewrite E, ET, Ecp. field. lra. }
  split.
  - rewrite EW, EP. field. lra.
  - intros Hp0. rewrite Ek, EW, EP, Ez. field. lra.
Qed.
End T.
