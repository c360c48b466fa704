(* A NaN temperature or fraction outlives its replacement: GERG-2008 in double precision. *)
From Coq Require Import ZArith Reals List Bool Psatz.
From Flocq Require Import Core BinarySingleNaN.
From Verif Require Import FArith Prelude Tab Composition DetailModel GergModel DetailPure GergTables GergPure GergRefine GergEval
  Api ApiSafe SpecGeneric ArithB64 B64Lemmas SpecB64 Drift Steps.
Import ListNotations.
Local Open Scope R_scope.

(* zeros of either sign *)
Definition zr (x : b64) : Prop := exists s, x = B754_zero s.
Lemma zr_fin x : zr x -> fin x.
Proof. intros [s ->]. reflexivity. Qed.
Lemma zr_mul_l x y : zr x -> fin y -> zr (bmul x y).
Proof.
  intros [s ->]. unfold fin. destruct y as [s'|s'| |s' m' e' H']; cbn; try discriminate; intros _; eexists; reflexivity.
Qed.
Lemma zr_mul_r x y : fin x -> zr y -> zr (bmul x y).
Proof.
  intros Hx [s ->]. revert Hx. unfold fin. destruct x as [s'|s'| |s' m' e' H']; cbn; try discriminate; intros _; eexists; reflexivity.
Qed.
Lemma zr_neg x : zr x -> zr (Bopp x).
Proof. intros [s ->]. eexists. reflexivity. Qed.
Lemma zr_add x y : zr x -> zr y -> zr (badd x y).
Proof. intros [s ->] [s' ->]. destruct s, s'; eexists; reflexivity. Qed.
Lemma zr_div x y : zr x -> fin y -> bR y <> 0 -> zr (bdiv x y).
Proof.
  intros [s ->]. unfold fin. destruct y as [s'|s'| |s' m' e' H']; cbn; try discriminate; intros _ H; [now elim H|].
  eexists; reflexivity.
Qed.
Lemma zr_not_nan x : zr x -> is_nan x = false.
Proof. intros [s ->]. reflexivity. Qed.
(* finite minus zero, finite times one, one plus zero *)
Lemma sub_zr x y : fin x -> zr y -> fin (bsub x y).
Proof.
  intros Hx [s ->]. apply sub_ok; [exact Hx|reflexivity|]. change (bR (B754_zero s)) with 0. rewrite Rminus_0_r.
  rewrite rnd_bR. apply abs_B2R_lt_emax.
Qed.
Definition b1 : b64 := blit (L 1 0).
Lemma b1_R : bR b1 = 1.
Proof.
  unfold b1. rewrite (lit_R _ (SpecFloat.S754_finite false 4503599627370496 (-52))) by reflexivity.
  cbn [SF2R cond_Zopp]. unfold F2R. cbn [Fnum Fexp]. change (bpow radix2 (-52)) with (/ 4503599627370496). field.
Qed.
Lemma mul_b1 x : fin x -> fin (bmul x b1).
Proof.
  intros Hx. apply mul_ok; [exact Hx|reflexivity|]. rewrite b1_R, Rmult_1_r, rnd_bR. apply abs_B2R_lt_emax.
Qed.
Lemma b1_add y : zr y -> badd b1 y = b1.
Proof. intros [s ->]. destruct s; reflexivity. Qed.
Lemma fin_b1 : fin b1. Proof. reflexivity. Qed.

(* table entries *)
Definition lsmall (l : lit) : bool := let '(L m e) := l in ((Z.abs m <=? 2 ^ 1000) && (e <=? 0))%Z%bool.
Lemma lsmall_fin l : lsmall l = true -> fin (blit l).
Proof.
  destruct l as [m e]. unfold lsmall. intros H. apply andb_true_iff in H. destruct H as (H1 & H2).
  apply Z.leb_le in H1, H2. apply blit_correct. apply (no_overflow _ 1000); [lia|]. cbn [litR].
  rewrite Rabs_mult, <- abs_IZR. apply IZR_le in H1. change (bpow radix2 1000) with (IZR (2 ^ 1000)).
  assert (P : 0 <= Rabs (powerRZ 10 e) <= 1).
  { split; [apply Rabs_pos|]. replace e with (- Z.of_nat (Z.to_nat (- e)))%Z by lia. rewrite powerRZ_neg', <- pow_powerRZ by lra.
    rewrite Rabs_right; [|left; apply Rinv_0_lt_compat, pow_lt; lra].
    rewrite <- Rinv_1. apply Rinv_le_contravar; [lra|]. apply pow_R1_Rle. lra. }
  assert (0 <= IZR (Z.abs m)) by (apply (IZR_le 0); lia).
  pose proof (Rmult_le_compat _ _ _ _ H (proj1 P) H1 (proj2 P)). lra.
Qed.
Definition noik_small : bool := forallb (fun k => lsmall (nth k (nth 1 G_NOIK []) (L 0 0))) (seq 0 25).
Definition toik_small : bool := forallb (fun k => lsmall (nth k (nth 1 G_TOIK []) (L 0 0))) (seq 0 25).
Lemma noik_fin k : (k < 25)%nat -> fin (blit (nth k (nth 1 G_NOIK []) (L 0 0))).
Proof.
  intros Hk. assert (H : noik_small = true) by (vm_compute; reflexivity). unfold noik_small in H. rewrite forallb_forall in H.
  apply lsmall_fin, H, in_seq. lia.
Qed.
Lemma toik_fin k : (k < 25)%nat -> fin (blit (nth k (nth 1 G_TOIK []) (L 0 0))).
Proof.
  intros Hk. assert (H : toik_small = true) by (vm_compute; reflexivity). unfold toik_small in H. rewrite forallb_forall in H.
  apply lsmall_fin, H, in_seq. lia.
Qed.
Lemma ofnat_fin n : (n < 8)%nat -> fin (bofZ (Z.of_nat n)).
Proof. intros H. do 8 (destruct n as [|n]; [reflexivity|]). lia. Qed.

Lemma first_in {A : Arith} {P : GParams} X del lt TP TM i : (1 <= i <= 21)%nat -> act (X i) = true -> (1 <= kpol i)%nat ->
  In (pterm X del TP i 1) (gterms X del lt TP TM).
Proof.
  intros Hi Ha Hk. unfold gterms. apply in_or_app. left. apply in_flat_map. exists i. split; [apply in_seq; lia|].
  unfold pure_terms. rewrite Ha. apply in_or_app. left. apply in_map_iff. exists 1%nat. split; [reflexivity|]. apply in_seq. lia.
Qed.

Lemma one_comp {A : Arith} {P : GParams} X del lt TP TM c : (forall i, i <> 1%nat -> act (X i) = false) ->
  In c (gterms X del lt TP TM) -> In c (pure_terms X del TP 1).
Proof.
  intros Ha Hc. unfold gterms in Hc. apply in_app_or in Hc. destruct Hc as [Hc|Hc]; apply in_flat_map in Hc; destruct Hc as (i & Hi & Hc).
  - destruct (Nat.eq_dec i 1) as [->|N]; [exact Hc|]. unfold pure_terms in Hc. rewrite Ha in Hc by exact N. destruct Hc.
  - exfalso. apply in_seq in Hi. unfold mixrow in Hc. destruct (act (X i)); [|destruct Hc].
    apply in_flat_map in Hc. destruct Hc as (j & Hj & Hc). apply in_seq in Hj. unfold mix_terms in Hc.
    rewrite Ha in Hc by lia. destruct Hc.
Qed.

Section M.
Variable m : Libm.
Hypothesis SP : special_ok m.
Local Instance AM : Arith := ArithB64 m.
Local Instance PM : @GParams AM := @gp_new AM.
(* pure methane, at its critical temperature so that tau = 1 *)
Definition x1 (i : nat) : b64 := if Nat.eqb i 1 then b1 else B0.
Definition X1 : list (@F AM) := map x1 (seq 0 22).
Definition T1 : b64 := blit (L 190564 (-3)).
Lemma xf1 i : xf X1 i = x1 i.
Proof. do 22 (destruct i as [|i]; [reflexivity|]). cbn. now destruct i. Qed.
Lemma act1 i : act (xf X1 i) = Nat.eqb i 1.
Proof. rewrite xf1. unfold x1. destruct (Nat.eqb i 1); reflexivity. Qed.
Lemma tr1 : gtr (xf X1) = T1.
Proof. apply B2SF_inj. vm_compute. reflexivity. Qed.
Lemma tau1 : bdiv T1 T1 = b1.
Proof. apply B2SF_inj. vm_compute. reflexivity. Qed.
Definition DR : b64 := gdr (xf X1).
Lemma dr1 : fin DR /\ bR DR <> 0.
Proof.
  assert (E : B2SF DR = SpecFloat.S754_finite false 5707942511383769 (-49)) by (vm_compute; reflexivity).
  split.
  - unfold fin. rewrite <- is_finite_SF_B2SF, E. reflexivity.
  - unfold bR. rewrite <- SF2R_B2SF, E. cbn [SF2R]. apply F2R_neq_0. discriminate.
Qed.
Lemma diff1 : gx_diff X1 (repeat f0 22) = true.
Proof. reflexivity. Qed.
Lemma diff11 xo : (forall i, (1 <= i < 22)%nat -> xf xo i = x1 i) -> gx_diff X1 xo = false.
Proof.
  intros H. apply not_true_iff_false. intros K. unfold gx_diff in K. apply existsb_exists in K. destruct K as (i & Hi & K).
  apply in_seq in Hi. rewrite xf1, H in K by lia. unfold x1 in K. destruct (Nat.eqb i 1); vm_compute in K; discriminate K.
Qed.
Lemma differs_nan_r v : differs v (B754_nan : @F AM) = false.
Proof. unfold differs. apply lt_nan_r, nan_abs, nan_sub_r. reflexivity. Qed.
Lemma differs_nan_l v : differs (B754_nan : @F AM) v = false.
Proof. unfold differs. apply lt_nan_r, nan_abs, nan_sub_l. reflexivity. Qed.

(* sums *)
Lemma arS_nan (l : list (nat -> @F AM)) c : In c l -> nan (c 1%nat) -> nan (arS l 1).
Proof.
  intros Hc Hn. unfold arS.
  assert (G : forall l (a : b64), nan a -> nan (fold_left (fun a (c : nat -> @F AM) => fadd a (c 1%nat)) l a)).
  { clear l Hc. induction l as [|c' l IH]; intros a Ha; [exact Ha|]. cbn [fold_left]. apply IH. now apply nan_add_l. }
  enough (G' : forall (a : b64), nan (fold_left (fun a (c : nat -> @F AM) => fadd a (c 1%nat)) l a)) by apply G'.
  induction l as [|c' l IH]; [destruct Hc|]. intros a. cbn [fold_left]. destruct Hc as [->|Hc].
  - apply G. now apply nan_add_r.
  - now apply IH.
Qed.
Lemma arS_zr (l : list (nat -> @F AM)) : (forall c, In c l -> zr (c 1%nat)) -> zr (arS l 1).
Proof.
  intros H. unfold arS.
  assert (Z : zr f0) by (exists false; reflexivity). revert Z. generalize (f0 : b64).
  induction l as [|c l IH]; intros a Z; [exact Z|]. cbn [fold_left]. apply IH.
  - intros c' Hc'. apply H. now right.
  - apply zr_add; [exact Z|]. apply H. now left.
Qed.
Lemma gpp_nan l t d c : In c l -> nan (c 1%nat) -> nan (gpp l t d).
Proof. intros Hc Hn. unfold gpp, gpz. apply nan_mul_r, nan_add_r. now apply (arS_nan l c). Qed.
Lemma terms_first del lt TP TM : In (pterm (xf X1) del TP 1 1) (gterms (xf X1) del lt TP TM).
Proof. apply first_in; [lia| |cbn; lia]. rewrite act1. reflexivity. Qed.
Lemma pterm_nan del TP : nan (TP 1%nat 1%nat) -> nan (pterm (xf X1) del TP 1 1 1).
Proof. intros H. unfold pterm, pol_c. apply nan_mul_l, nan_mul_r. exact H. Qed.

(* after an evaluation at temperature NaN *)
Definition cnan : gcache := gc_next X1 (repeat f0 22) (B754_nan : @F AM) gc_zero.
Lemma cnan_eq : cnan = mkGC DR (T1 : @F AM) (B754_nan : @F AM) (T1 : @F AM)
  (ntaup (xf X1) (B754_nan : @F AM) (fun _ _ => f0)) (ntm (xf X1) (B754_nan : @F AM) (fun _ _ => f0)).
Proof.
  unfold cnan, gc_next, gc_red. rewrite diff1. unfold gc_tau.
  assert (N : (B754_nan : b64) = fln (fdiv (gtr (xf X1)) (B754_nan : @F AM))).
  { rewrite tr1. symmetry. exact (sp_ln_nan m SP). }
  cbn [gc_dr gc_tr gc_told gc_tr2 gc_tp gc_tm gc_zero]. rewrite <- N.
  replace (gc_fresh _ _) with true; [rewrite tr1; reflexivity|].
  unfold gc_fresh. cbn [gc_told gc_tr gc_tr2]. rewrite differs_nan_l, tr1. vm_compute. reflexivity.
Qed.
Lemma cnan_tp : nan (gc_tp cnan 1 1).
Proof.
  rewrite cnan_eq. cbn [gc_tp]. unfold ntaup. rewrite act1. cbn [Nat.leb Nat.eqb andb]. 
  change (short_form 1) with false. cbn [Nat.leb kpol kexp andb].
  apply nan_mul_r. change (nan (lm_exp m (bmul (@q_toik AM PM 1 1) B754_nan))).
  replace (bmul (@q_toik AM PM 1 1) B754_nan) with (B754_nan : b64); [rewrite (sp_exp_nan m SP); reflexivity|].
  symmetry. apply nan_eq, nan_mul_r. reflexivity.
Qed.
Lemma cnan_next xo t : (forall i, (1 <= i < 22)%nat -> xf xo i = x1 i) ->
  gc_tp (gc_next X1 xo t cnan) = gc_tp cnan.
Proof.
  intros Hxo. unfold gc_next, gc_red. rewrite diff11 by exact Hxo. unfold gc_tau.
  replace (gc_fresh t cnan) with false; [reflexivity|]. rewrite cnan_eq. unfold gc_fresh. cbn [gc_told gc_tr gc_tr2].
  rewrite differs_nan_r. vm_compute. reflexivity.
Qed.
Lemma nx1 xo i : (1 <= i < 22)%nat -> xf (nxold X1 xo) i = x1 i.
Proof.
  intros Hi. unfold nxold. unfold xf at 1. rewrite (nth_tab 22 _ i f0) by lia.
  replace (Nat.eqb i 0) with false by (symmetry; apply Nat.eqb_neq; lia). apply xf1.
Qed.
Theorem nan_t_stays t d : nan (gpp (cterms X1 t d (gc_next X1 (nxold X1 (repeat f0 22)) t cnan)) t d).
Proof.
  unfold cterms. eapply gpp_nan; [apply terms_first|]. apply pterm_nan. rewrite cnan_next by (intros; now apply nx1).
  exact cnan_tp.
Qed.

(* a new object, at zero density *)
Definition cfr : gcache := gc_next X1 (repeat f0 22) (T1 : @F AM) gc_zero.
Lemma cfr_eq : cfr = mkGC DR (T1 : @F AM) (T1 : @F AM) (T1 : @F AM)
  (ntaup (xf X1) (B754_zero false : @F AM) (fun _ _ => f0)) (ntm (xf X1) (B754_zero false : @F AM) (fun _ _ => f0)).
Proof.
  unfold cfr, gc_next, gc_red. rewrite diff1. unfold gc_tau.
  assert (N : (B754_zero false : b64) = fln (fdiv (gtr (xf X1)) (T1 : @F AM))).
  { rewrite tr1. symmetry. change (lm_ln m (bdiv T1 T1) = B754_zero false). rewrite tau1. exact (sp_ln_one m SP). }
  cbn [gc_dr gc_tr gc_told gc_tr2 gc_tp gc_tm gc_zero]. rewrite <- N.
  replace (gc_fresh _ _) with true; [rewrite tr1; reflexivity|].
  unfold gc_fresh. cbn [gc_told gc_tr gc_tr2]. vm_compute. reflexivity.
Qed.
Lemma exp_zr z : zr z -> lm_exp m z = b1.
Proof. intros (s & ->). exact (sp_exp_zero m SP s). Qed.
Lemma cfr_tp k : (1 <= k <= 24)%nat -> fin (gc_tp cfr 1 k).
Proof.
  intros Hk. rewrite cfr_eq. cbn [gc_tp]. unfold ntaup. rewrite act1.
  replace (Nat.leb 1 k) with true by (symmetry; apply Nat.leb_le; lia).
  change (kpol 1 + kexp 1)%nat with 24%nat.
  replace (Nat.leb k 24) with true by (symmetry; apply Nat.leb_le; lia).
  change (short_form 1) with false. change (Nat.leb 1 1 && Nat.eqb 1 1) with true. cbn [andb].
  change (fin (bmul (blit (nth k (nth 1 G_NOIK []) (L 0 0))) (lm_exp m (bmul (@q_toik AM PM 1 k) (B754_zero false))))).
  rewrite exp_zr.
  - apply mul_b1, noik_fin. lia.
  - apply zr_mul_r; [|exists false; reflexivity]. apply toik_fin. lia.
Qed.
Lemma gdelp_zr (z : @F AM) k : zr z -> zr (gdelp z k).
Proof.
  intros Z. induction k as [|k IH]; [exists false; reflexivity|]. destruct k as [|k]; [exact Z|].
  cbn [gdelp]. apply (zr_mul_l (gdelp z (S k)) z); [exact IH|apply zr_fin, Z].
Qed.
Lemma gexpd_fin (z : @F AM) k : zr z -> fin (gexpd z k).
Proof.
  intros Z. destruct k as [|k]; [reflexivity|]. unfold gexpd.
  change (fin (lm_exp m (Bopp (gdelp z (S k))))). rewrite exp_zr; [reflexivity|]. apply zr_neg, gdelp_zr, Z.
Qed.
Definition deg_small : bool :=
  forallb (fun k => Nat.ltb (@q_doik AM PM 1 k) 8 && Nat.ltb (@q_coik AM PM 1 k) 8) (seq 1 24).
Lemma deg_ok k : (1 <= k <= 24)%nat -> (@q_doik AM PM 1 k < 8)%nat /\ (@q_coik AM PM 1 k < 8)%nat.
Proof.
  intros Hk. assert (H : deg_small = true) by (vm_compute; reflexivity). unfold deg_small in H. rewrite forallb_forall in H.
  specialize (H k). rewrite andb_true_iff, !Nat.ltb_lt in H. apply H, in_seq. lia.
Qed.
Lemma head_zr (z : @F AM) k : zr z -> (1 <= k <= 24)%nat ->
  zr (fmul (fmul (xf X1 1) (gdelp z (q_doik 1 k))) (gc_tp cfr 1 k)).
Proof.
  intros Z Hk. apply (zr_mul_l (bmul (xf X1 1) (gdelp z (q_doik 1 k))) (gc_tp cfr 1 k)); [|now apply cfr_tp].
  apply (zr_mul_r (xf X1 1)); [rewrite xf1; exact fin_b1|]. now apply gdelp_zr.
Qed.
Lemma pterm_zr (z : @F AM) k : zr z -> (1 <= k <= 24)%nat -> zr (pterm (xf X1) z (gc_tp cfr) 1 k 1).
Proof.
  intros Z Hk. unfold pterm, pol_c. apply (zr_mul_l (fmul (fmul (xf X1 1) (gdelp z (q_doik 1 k))) (gc_tp cfr 1 k))).
  - now apply head_zr.
  - apply ofnat_fin. now apply deg_ok.
Qed.
Lemma eterm_zr (z : @F AM) k : zr z -> (1 <= k <= 24)%nat -> zr (eterm (xf X1) z (gc_tp cfr) 1 k 1).
Proof.
  intros Z Hk. unfold eterm, exp_c.
  apply (zr_mul_l (fmul (fmul (fmul (xf X1 1) (gdelp z (q_doik 1 k))) (gc_tp cfr 1 k)) (gexpd z (q_coik 1 k)))).
  - apply (zr_mul_l (fmul (fmul (xf X1 1) (gdelp z (q_doik 1 k))) (gc_tp cfr 1 k))); [now apply head_zr|now apply gexpd_fin].
  - apply (sub_zr (bofZ (Z.of_nat (q_doik 1 k)))); [apply ofnat_fin; now apply deg_ok|].
    apply (zr_mul_r (bofZ (Z.of_nat (q_coik 1 k)))); [apply ofnat_fin; now apply deg_ok|now apply gdelp_zr].
Qed.
Lemma only1 del lt TP TM c : In c (gterms (xf X1) del lt TP TM) -> In c (pure_terms (xf X1) del TP 1).
Proof. apply one_comp. intros i Hi. rewrite act1. now apply Nat.eqb_neq. Qed.
Lemma fresh_z : zr (gpp (cterms X1 (T1 : @F AM) f0 cfr) (T1 : @F AM) f0).
Proof.
  assert (Z : zr (bdiv B0 DR)) by (apply zr_div; [exists false; reflexivity|apply dr1|apply dr1]).
  assert (S : zr (arS (cterms X1 (T1 : @F AM) f0 cfr) 1)).
  { apply arS_zr. intros c Hc. unfold cterms in Hc. apply only1 in Hc. unfold pure_terms in Hc.
    rewrite act1 in Hc. cbn [Nat.eqb] in Hc. 
    assert (E : gc_dr cfr = DR) by (rewrite cfr_eq; reflexivity). rewrite E in Hc.
    apply in_app_or in Hc. destruct Hc as [Hc|Hc]; apply in_map_iff in Hc; destruct Hc as (k & <- & Hk); apply in_seq in Hk;
      change (kpol 1) with 6%nat in Hk; change (kexp 1) with 18%nat in Hk.
    - apply pterm_zr; [exact Z|lia].
    - apply eterm_zr; [exact Z|lia]. }
  unfold gpp, gpz.
  apply (zr_mul_l (fmul (fmul f0 RGERG) (T1 : @F AM)) (badd b1 (arS (cterms X1 (T1 : @F AM) f0 cfr) 1))).
  - assert (E : B2SF (bmul (bmul B0 (@RGERG AM)) T1) = SpecFloat.S754_zero false) by (vm_compute; reflexivity).
    exists false. apply B2SF_inj. exact E.
  - rewrite b1_add by exact S. exact fin_b1.
Qed.
End M.
