(* One evaluation with a NaN input, then valid inputs, compared with a new object. *)
From Coq Require Import ZArith Reals List Bool Lia Lra.
From Flocq Require Import Core BinarySingleNaN.
From Verif Require Import FArith Prelude Tab Composition DetailTables DetailModel DetailPure DetailRefine DetailEval GergTables GergModel
  GergPure GergEval Api ApiSafe SpecGeneric ArithB64 B64Lemmas SpecB64 Drift Steps NanGerg NanDetail.
Import ListNotations.
Local Open Scope R_scope.

Lemma bR_zero_zr x : fin x -> bR x = 0 -> zr x.
Proof.
  destruct x as [s|s| |s mx ex H]; intros F Z; try discriminate F; [exists s; reflexivity|].
  exfalso. cbn in Z. apply eq_0_F2R in Z. destruct s; discriminate Z.
Qed.
Lemma held_next {A : Arith} {P : GParams} x xo t c : gx_diff x xo = false -> gc_fresh t c = false ->
  gc_next x xo t c = mkGC (gc_dr c) (gc_tr c) t (gc_tr c) (gc_tp c) (gc_tm c).
Proof. intros H1 H2. unfold gc_next, gc_red. rewrite H1. unfold gc_tau. now rewrite H2. Qed.
Section Gen.
Context {A : Arith}.
Local Existing Instance dp_new.
Local Existing Instance gp_new.
Local Opaque pp new_cx new_ct cache_of gpp cterms gc_next nxold.
Definition asks (x : nat -> F) (t d : F) : list op := [SetX x; Poke PT t; Poke PD d; Pressure].
Lemma d_once x t d : answer (dexec New (asks x t d)) = Some (OVal
  (pp (cache_of (new_cx (map x (seq 0 21)) (repeat f0 21) None) (new_ct t f0 None)) t d)).
Proof. destruct (dplay_new (asks x t d) eq_refl) as (s & E). rewrite E. reflexivity. Qed.
Lemma d_twice y u e x t d : answer (dexec New (asks y u e ++ asks x t d)) = Some (OVal
  (pp (cache_of (new_cx (map x (seq 0 21)) (map y (seq 0 21)) (new_cx (map y (seq 0 21)) (repeat f0 21) None))
                (new_ct t u (new_ct u f0 None))) t d)).
Proof. destruct (dplay_new (asks y u e ++ asks x t d) eq_refl) as (s & E). rewrite E. reflexivity. Qed.
Lemma g_once x t d : answer (gexec New (asks x t d)) = Some (OVal
  (gpp (cterms (map x (seq 0 22)) t d (gc_next (map x (seq 0 22)) (repeat f0 22) t gc_zero)) t d)).
Proof. destruct (gplay_new (asks x t d) eq_refl) as (s & E). rewrite E. reflexivity. Qed.
Lemma g_twice y u e x t d : answer (gexec New (asks y u e ++ asks x t d)) = Some (OVal
  (gpp (cterms (map x (seq 0 22)) t d (gc_next (map x (seq 0 22)) (nxold (map y (seq 0 22)) (repeat f0 22)) t
         (gc_next (map y (seq 0 22)) (repeat f0 22) u gc_zero))) t d)).
Proof. destruct (gplay_new (asks y u e ++ asks x t d) eq_refl) as (s & E). rewrite E. reflexivity. Qed.
End Gen.

Section M.
Variable m : Libm.
Hypothesis SP : special_ok m.
Local Instance AM' : Arith := ArithB64 m.
Local Existing Instance gp_new.
Local Existing Instance dp_new.

(* ---- GERG, temperature *)
Lemma g_t_nan e t d : answer (gexec New (ask (m := m) x1 B754_nan e ++ ask x1 t d)) = Some (@OVal AM' B754_nan).
Proof.
  refine (eq_trans (@g_twice AM' x1 B754_nan e x1 t d) _). apply (f_equal (fun v => Some (@OVal AM' v))).
  apply nan_eq. exact (nan_t_stays m SP t d).
Qed.
Lemma g_fresh0 : exists s, answer (gexec New (ask (m := m) x1 T1 B0)) = Some (@OVal AM' (B754_zero s)).
Proof.
  destruct (fresh_z m SP) as (s & E). exists s. refine (eq_trans (@g_once AM' x1 T1 B0) _).
  exact (f_equal (fun v => Some (@OVal AM' v)) E).
Qed.
Lemma x1_good i : good (x1 i).
Proof. unfold x1. destruct (Nat.eqb i 1); (split; [reflexivity|]); [rewrite b1_R; lra|cbn; lra]. Qed.
Lemma T1_pos : gpos T1.
Proof.
  assert (E : B2SF T1 = SpecFloat.S754_finite false 6704874682736181 (-45)) by (vm_compute; reflexivity). split.
  - unfold fin. rewrite <- is_finite_SF_B2SF, E. reflexivity.
  - unfold bR. rewrite <- SF2R_B2SF, E. cbn [SF2R cond_Zopp]. apply F2R_gt_0. reflexivity.
Qed.
Theorem gerg_t_refuted : ~ (forall x t d, (forall i, good (x i)) -> gpos t -> good d ->
  answer (gexec New (ask (m := m) x B754_nan d ++ ask x t d)) = answer (gexec New (ask (m := m) x t d))).
Proof.
  intros H. specialize (H x1 T1 B0 x1_good T1_pos ltac:(split; [reflexivity|cbn; lra])).
  rewrite g_t_nan in H. destruct g_fresh0 as (s & E). rewrite E in H. discriminate H.
Qed.

(* ---- GERG, a fraction *)
Definition xn (i : nat) : b64 := if Nat.eqb i 1 then B754_nan else B0.
Let Xn : list (@F AM') := map xn (seq 0 22).
Lemma xfn i : xf Xn i = xn i.
Proof. do 22 (destruct i as [|i]; [reflexivity|]). cbn. now destruct i. Qed.
Lemma actn i : act (xf Xn i) = false.
Proof. rewrite xfn. unfold xn. destruct (Nat.eqb i 1); reflexivity. Qed.
Lemma ex_false (f : nat -> bool) l : (forall i, f i = false) -> existsb f l = false.
Proof. intros H. induction l as [|i l IH]; [reflexivity|]. cbn. now rewrite H, IH. Qed.
Lemma x1_xn i : differs (x1 i : @F AM') (xn i : @F AM') = false.
Proof. unfold x1, xn. destruct (Nat.eqb i 1); vm_compute; reflexivity. Qed.
Lemma xn_zero i : differs (xn i : @F AM') (@f0 AM') = false.
Proof. unfold xn. destruct (Nat.eqb i 1); vm_compute; reflexivity. Qed.
Lemma xf_zero n i : xf (repeat (@f0 AM') n) i = f0.
Proof. unfold xf. revert i. induction n as [|n IH]; intros [|i]; cbn; try reflexivity. apply IH. Qed.
Lemma diffn0 : gx_diff Xn (repeat f0 22) = false.
Proof. unfold gx_diff. apply ex_false. intros i. rewrite xfn, xf_zero. apply xn_zero. Qed.
Lemma diff1n : gx_diff (X1 m) (nxold Xn (repeat f0 22)) = false.
Proof.
  apply not_true_iff_false. intros K. unfold gx_diff in K. apply existsb_exists in K. destruct K as (i & Hi & K).
  apply in_seq in Hi. rewrite xf1 in K. unfold nxold in K. unfold xf at 1 in K. rewrite (nth_tab 22 _ i f0) in K by lia.
  replace (Nat.eqb i 0) with false in K by (symmetry; apply Nat.eqb_neq; lia). rewrite xfn in K.
  rewrite x1_xn in K. discriminate K.
Qed.
Lemma c1_tp u i k : gc_tp (gc_next Xn (repeat f0 22) (u : @F AM') gc_zero) i k = f0.
Proof.
  unfold gc_next, gc_red. rewrite diffn0. unfold gc_tau. destruct (gc_fresh _ _); [|reflexivity].
  cbn [gc_tp gc_zero]. unfold ntaup. rewrite actn, andb_false_r. reflexivity.
Qed.
Lemma c1_rest u : let c := gc_next Xn (repeat f0 22) (u : @F AM') gc_zero in gc_dr c = f0 /\ gc_tr c = f0 /\ gc_told c = u /\ gc_tr2 c = f0.
Proof.
  cbv zeta. unfold gc_next, gc_red. rewrite diffn0. unfold gc_tau. destruct (gc_fresh _ _); cbn [gc_dr gc_tr gc_told gc_tr2 gc_zero];
  repeat split.
Qed.
Lemma poison d : nan (bmul (bmul (bmul b1 (bdiv d B0)) B0) b1).
Proof. destruct d as [s|s| |s mx ex H]; try destruct s; vm_compute; reflexivity. Qed.
Lemma same_differs t : fin t -> differs (t : @F AM') t = false.
Proof.
  intros H. unfold differs. change (Bltb (blit (L 1 (-7))) (Babs (bsub t t)) = false).
  assert (Z : zr (bsub t t)).
  { destruct t as [s|s| |s mx ex HH]; try discriminate H; [destruct s; eexists; reflexivity|].
    set (y := B754_finite s mx ex HH). pose proof (Bminus_correct 53 1024 _ _ mode_NE y y eq_refl eq_refl) as C.
    rewrite Rminus_diag_eq in C by reflexivity. rewrite round_0 in C by apply valid_rnd_N. rewrite Rabs_R0, Rlt_bool_true in C by apply bpow_gt_0.
    destruct C as (V & F & _). apply bR_zero_zr; assumption. }
  destruct Z as (s & ->). reflexivity.
Qed.
Lemma g_x_nan e t d : fin t -> answer (gexec New (ask (m := m) xn t e ++ ask x1 t d)) = Some (@OVal AM' B754_nan).
Proof.
  intros Ht. refine (eq_trans (@g_twice AM' xn t e x1 t d) _). apply (f_equal (fun v => Some (@OVal AM' v))).
  apply nan_eq. fold Xn. set (c := gc_next Xn (repeat f0 22) (t : @F AM') gc_zero).
  destruct (c1_rest t) as (E1 & E2 & E3 & E4). 
  pose proof (c1_tp t) as E5. fold c in E1, E2, E3, E4, E5.
  assert (G : gc_fresh (t : @F AM') c = false).
  { unfold gc_fresh. rewrite E2, E3, E4. rewrite same_differs by exact Ht. apply same_differs. reflexivity. }
  rewrite (held_next _ _ _ _ diff1n G). unfold cterms. eapply (gpp_nan m); [apply (terms_first m)|].
  cbn [gc_dr gc_tp]. change (@gc_dr (NanGerg.AM m) c) with (@gc_dr AM' c). change (@gc_tp (NanGerg.AM m) c) with (@gc_tp AM' c).
  rewrite E1. unfold pterm, pol_c. rewrite E5, xf1. exact (poison d).
Qed.
Theorem gerg_x_refuted : ~ (forall x y t d, (forall i, good (x i)) -> one_nan x y -> gpos t -> good d ->
  answer (gexec New (ask (m := m) y t d ++ ask x t d)) = answer (gexec New (ask (m := m) x t d))).
Proof.
  intros H. specialize (H x1 xn T1 B0 x1_good). rewrite g_x_nan in H by apply T1_pos. destruct g_fresh0 as (s & E). rewrite E in H.
  assert (K : one_nan x1 xn).
  { exists 1%nat. split; [reflexivity|]. intros j Hj. unfold xn, x1. apply Nat.eqb_neq in Hj. now rewrite Hj. }
  specialize (H K T1_pos ltac:(split; [reflexivity|cbn; lra])). discriminate H.
Qed.

(* ---- DETAIL *)
Lemma dnl v : differs (B754_nan : @F AM') v = false. Proof. exact (differs_nan_l m v). Qed.
Lemma dnr v : differs v (B754_nan : @F AM') = false. Proof. exact (differs_nan_r m v). Qed.
Lemma R1_fin t : gpos t -> bR t <> 0. Proof. intros (_ & H). lra. Qed.
Lemma d_both_nan y x e t d : (forall i, (i < 21)%nat -> y i = B754_nan) -> gpos t -> fin d -> fin (bmul (@RDETAIL AM') t) ->
  answer (dexec New (ask (m := m) y B754_nan e ++ ask x t d)) = Some (@OVal AM' (bmul (bmul d (@RDETAIL AM')) t)).
Proof.
  intros Hy Ht Hd Hr. refine (eq_trans (@d_twice AM' y B754_nan e x t d) _). apply (f_equal (fun v => Some (@OVal AM' v))).
  assert (Y : forall i, xf (map y (seq 0 21)) i = (if Nat.ltb i 21 then B754_nan else B0)).
  { intros i. unfold xf. destruct (Nat.ltb_spec i 21) as [L|L].
    - rewrite (nth_indep _ _ (y 0%nat)) by (rewrite map_length, seq_length; exact L). rewrite map_nth, seq_nth by exact L.
      apply Hy. lia.
    - apply nth_overflow. rewrite map_length, seq_length. exact L. }
  assert (N : forall l, x_diff (map y (seq 0 21)) l = false).
  { intros l. apply not_true_iff_false. intros K. unfold x_diff in K. apply existsb_exists in K. destruct K as (i & Hi & K). apply in_seq in Hi.
    rewrite Y in K. replace (Nat.ltb i 21) with true in K by (symmetry; apply Nat.ltb_lt; lia).
    rewrite dnl in K. discriminate K. }
  assert (N' : forall l, x_diff l (map y (seq 0 21)) = false).
  { intros l. apply not_true_iff_false. intros K. unfold x_diff in K. apply existsb_exists in K. destruct K as (i & Hi & K). apply in_seq in Hi.
    rewrite Y in K. replace (Nat.ltb i 21) with true in K by (symmetry; apply Nat.ltb_lt; lia).
    rewrite dnr in K. discriminate K. }
  unfold new_cx, new_ct. rewrite N, N', dnl, dnr.
  apply ideal_p; try reflexivity; try assumption; try (now apply Ht). now apply R1_fin.
Qed.
(* only fraction i is NaN, in a pure component *)
Definition pure (i : nat) (v : b64) (j : nat) : b64 := if Nat.eqb j i then v else B0.
Lemma d_x_nan i v e t d : gpos t -> fin d -> fin (bmul (@RDETAIL AM') t) ->
  (forall n, (n < 58)%nat -> fin (lm_powf m t (Bopp (blit (nth n D_UN (L 0 0)))))) ->
  answer (dexec New (ask (m := m) (pure i B754_nan) t e ++ ask (pure i v) t d)) = Some (@OVal AM' (bmul (bmul d (@RDETAIL AM')) t)).
Proof.
  intros Ht Hd Hr Hp. refine (eq_trans (@d_twice AM' (pure i B754_nan) t e (pure i v) t d) _). apply (f_equal (fun v => Some (@OVal AM' v))).
  assert (Y : forall w j, (j < 21)%nat -> xf (map (pure i w) (seq 0 21) : list (@F AM')) j = pure i w j).
  { intros w j L. unfold xf. rewrite (nth_indep _ _ (pure i w 0%nat)) by (rewrite map_length, seq_length; exact L).
    rewrite map_nth, seq_nth by exact L. reflexivity. }
  unfold new_cx, new_ct.
  replace (x_diff _ (repeat f0 21)) with false; [replace (x_diff _ _) with false|].
  - rewrite same_differs by apply Ht. apply ideal_p; try reflexivity; try assumption; try (now apply Ht); [|now apply R1_fin].
    intros n Hn. destruct (differs _ _); [|reflexivity]. exact (Hp n Hn).
  - symmetry. apply not_true_iff_false. intros K. unfold x_diff in K. apply existsb_exists in K. destruct K as (j & Hj & K). apply in_seq in Hj.
    rewrite !Y in K by lia. unfold pure in K. destruct (Nat.eqb j i); [now rewrite dnr in K|].
    exact (eq_true_false_abs _ K (same_differs B0 eq_refl)).
  - symmetry. apply not_true_iff_false. intros K. unfold x_diff in K. apply existsb_exists in K. destruct K as (j & Hj & K). apply in_seq in Hj.
    rewrite Y, xf_zero in K by lia. unfold pure in K. destruct (Nat.eqb j i); [now rewrite dnl in K|].
    exact (eq_true_false_abs _ K (same_differs B0 eq_refl)).
Qed.
End M.
