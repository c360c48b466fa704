(* Composition and molar mass contracts, repeated evaluation, fresh objects. *)
From Coq Require Import ZArith List Bool Lia.
From Verif Require Import FArith Prelude Tab Composition DetailTables DetailModel DetailPure
  DetailRefine DetailEval GergTables GergModel GergPure GergRefine GergEval Api ApiSafe SpecGeneric
  DensityProofs.
Import ListNotations.

Section Basic.
Context {A : Arith}.
Local Open Scope bool_scope.
Local Open Scope F_scope.

(* set_composition *)
Lemma dset_comp c s : length (d_x s) = 21%nat ->
  set_composition c s
  = Some (match comp_check c with
          | ROk => set_d_x (fractions c) s | RErr _ => s end, comp_check c).
Proof. intros H. rewrite set_composition_ok by assumption. destruct (comp_check c); reflexivity. Qed.
Lemma gset_comp c s : length (g_x s) = 22%nat ->
  gerg_set_composition c s
  = Some (match comp_check c with
          | ROk => set_g_x (f0 :: fractions c) s | RErr _ => s end, comp_check c).
Proof. intros H. rewrite gset_composition_ok by assumption. destruct (comp_check c); reflexivity. Qed.

(* molar mass *)
Lemma pmm_wsum x : length x = 21%nat -> pmm (xf x) = wsum x (map flit D_MMI).
Proof.
  intros Hx. do 21 (destruct x as [|? x]; [discriminate Hx|]). destruct x; [|discriminate Hx].
  reflexivity.
Qed.
Lemma gmm_wsum x : length x = 22%nat -> gmm (xf x) = wsum (tl x) (tl (map flit G_MMI_GERG)).
Proof.
  intros Hx. do 22 (destruct x as [|? x]; [discriminate Hx|]). destruct x; [|discriminate Hx].
  reflexivity.
Qed.

(* repeated evaluation *)
Definition self_same : Prop := forall x : F, (flit (L 1 (-7)) <? fabs (x - x)) = false.
Lemma x_diff_same x : self_same -> x_diff x x = false.
Proof.
  intros H. unfold x_diff. apply not_true_iff_false. intros E.
  apply existsb_exists in E. destruct E as (i & _ & E). unfold differs in E.
  now rewrite H in E.
Qed.
Lemma gx_diff_nxold x xo : self_same -> gx_diff x (nxold x xo) = false.
Proof.
  intros H. unfold gx_diff. apply not_true_iff_false. intros E.
  apply existsb_exists in E. destruct E as (i & Hi & E). apply in_seq in Hi.
  unfold differs, nxold in E. unfold xf at 2 in E. rewrite nth_tab in E by lia.
  destruct (Nat.eqb_spec i 0); [lia|]. now rewrite H in E.
Qed.

Local Opaque ar_of ar00 ar01 ar02 ar03 ar10 ar11 ar20 cTun cBs cCsn cK3 x_diff pa0 pmm tab
  gterms arT arS tab2 nxold gc_red gc_tau ga0 gmm.
Section D.
Context {P : DParams}.
Lemma new_cx_same x cx : self_same -> new_cx x x cx = cx.
Proof. intros H. unfold new_cx. now rewrite x_diff_same. Qed.
Lemma new_ct_same t ct : self_same -> new_ct t t ct = ct.
Proof. intros H. unfold new_ct, differs. now rewrite H. Qed.

(* what an evaluation writes, in one step *)
Definition pflat a b c d e f g h i (s : Detail) : Detail :=
  mkDetail a (d_t s) (d_p s) (d_d s) b (d_mm s) (d_dp_dd s) (d_d2p_dd2 s) (d_d2p_dtd s)
    (d_dp_dt s) (d_u s) (d_h s) (d_s s) (d_cv s) (d_cp s) (d_w s) (d_g s) (d_jt s) (d_kappa s)
    (d_x s) i d (d_ki25 s) (d_ei25 s) (d_bsnij2 s) g (d_kij5 s) (d_uij5 s) (d_gij5 s) h f
    (d_a0 s) c e (d_n0i s).
Lemma pflat_eq a b c d e f g h i (s : Detail) :
  set_d_dp_dd_save a (set_d_z b (set_d_ar c (set_d_told d (set_d_tun e
    (set_d_csn f (set_d_bs g (set_d_k3 h (set_d_xold i s)))))))) = pflat a b c d e f g h i s.
Proof. destruct s; unfold pflat; dunf; reflexivity. Qed.
Lemma press_flat cx ct s : press_st cx ct s
  = pflat (pdpdd (ncache cx ct s) (d_t s) (d_d s)) (pz (ncache cx ct s) (d_t s) (d_d s))
      (ar_of 0 (ncache cx ct s) (d_t s) (d_d s)) (d_t s) (tab 58 (cTun (nct ct s)))
      (tab 58 (cCsn (ncx cx s))) (tab 18 (cBs (ncx cx s))) (cK3 (ncx cx s)) (d_x s) s.
Proof. exact (pflat_eq _ _ _ _ _ _ _ _ _ s). Qed.
Definition rflat r1 r2 r3 r4 r5 r6 r7 r8 r9 r10 r11 r12 r13 r14 c d e f g h i j k (s : Detail) :=
  mkDetail (d_dp_dd_save s) (d_t s) r1 (d_d s) r2 k r3 r4 f0 r5 r6 r7 r8 r9 r10 r11 r12 r13 r14
    (d_x s) i d (d_ki25 s) (d_ei25 s) (d_bsnij2 s) g (d_kij5 s) (d_uij5 s) (d_gij5 s) h f
    j c e (d_n0i s).
Lemma rflat_eq r1 r2 r3 r4 r5 r6 r7 r8 r9 r10 r11 r12 r13 r14 c d e f g h i j k (s : Detail) :
  set_results r1 r2 r3 r4 r5 r6 r7 r8 r9 r10 r11 r12 r13 r14 (set_d_ar c
    (set_d_told d (set_d_tun e (set_d_a0 j
    (set_d_csn f (set_d_bs g (set_d_k3 h (set_d_xold i (set_d_mm k s)))))))))
  = rflat r1 r2 r3 r4 r5 r6 r7 r8 r9 r10 r11 r12 r13 r14 c d e f g h i j k s.
Proof. destruct s; unfold rflat, set_results; dunf; reflexivity. Qed.
Lemma props_flat cx ct s : props_st cx ct s
  = let k := ncache cx ct s in let X := xf (d_x s) in let t := d_t s in let d := d_d s in
    rflat (qp k t d) (qz k t d) (qdpdd k t d) (qd2pdd2 k t d) (qdpdt k d) (qu k X t d)
      (qh k X t d) (qs k X t d) (qcv k X t d) (qcp k X t d) (qw k X t d) (qg k X t d)
      (qjt k X t d) (qkappa k X t d) (ar_of 2 k t d) t (tab 58 (cTun (nct ct s)))
      (tab 58 (cCsn (ncx cx s))) (tab 18 (cBs (ncx cx s))) (cK3 (ncx cx s)) (d_x s) (pa0 X t d)
      (pmm X) s.
Proof. exact (rflat_eq _ _ _ _ _ _ _ _ _ _ _ _ _ _ _ _ _ _ _ _ _ _ _ s). Qed.

Lemma evald_ncx cx s s1 : self_same -> d_x s1 = d_x s -> d_xold s1 = d_x s ->
  ncx (ncx cx s) s1 = ncx cx s.
Proof. intros Hl E1 E2. unfold ncx at 1. rewrite E1, E2. now apply new_cx_same. Qed.
Lemma evald_nct ct s s1 : self_same -> d_t s1 = d_t s -> d_told s1 = d_t s ->
  nct (nct ct s) s1 = nct ct s.
Proof. intros Hl E1 E2. unfold nct at 1. rewrite E1, E2. now apply new_ct_same. Qed.

Lemma pressure_again cx ct s s1 v : self_same -> wf cx ct s -> pressure s = Some (s1, v) ->
  pressure s1 = Some (s1, v).
Proof.
  intros Hl H E. rewrite (pressure_ok _ _ _ H) in E. injection E as E <-.
  pose proof (wf_press _ _ _ H) as H1. rewrite E in H1. rewrite (pressure_ok _ _ _ H1).
  rewrite press_flat in E. clear H H1.
  assert (E1 : d_x s1 = d_x s) by (rewrite <- E; reflexivity).
  assert (E2 : d_xold s1 = d_x s) by (rewrite <- E; reflexivity).
  assert (E3 : d_t s1 = d_t s) by (rewrite <- E; reflexivity).
  assert (E4 : d_told s1 = d_t s) by (rewrite <- E; reflexivity).
  assert (E5 : d_d s1 = d_d s) by (rewrite <- E; reflexivity).
  rewrite press_flat. unfold ncache in *.
  rewrite (evald_ncx cx s s1 Hl E1 E2), (evald_nct ct s s1 Hl E3 E4), E1, E3, E5.
  rewrite <- E. reflexivity.
Qed.

Lemma properties_again cx ct s s1 : self_same -> wf cx ct s -> properties s = Some s1 ->
  properties s1 = Some s1.
Proof.
  intros Hl H E. rewrite (properties_ok _ _ _ H) in E. injection E as E.
  pose proof (wf_props _ _ _ H) as H1. rewrite E in H1. rewrite (properties_ok _ _ _ H1).
  rewrite props_flat in E. cbv zeta in E. clear H H1.
  assert (E1 : d_x s1 = d_x s) by (rewrite <- E; reflexivity).
  assert (E2 : d_xold s1 = d_x s) by (rewrite <- E; reflexivity).
  assert (E3 : d_t s1 = d_t s) by (rewrite <- E; reflexivity).
  assert (E4 : d_told s1 = d_t s) by (rewrite <- E; reflexivity).
  assert (E5 : d_d s1 = d_d s) by (rewrite <- E; reflexivity).
  rewrite props_flat. cbv zeta. unfold ncache in *.
  rewrite (evald_ncx cx s s1 Hl E1 E2), (evald_nct ct s s1 Hl E3 E4), E1, E3, E5.
  rewrite <- E. reflexivity.
Qed.
End D.

Section G.
Context {P : GParams}.
Lemma gc_next_same x xo t c : self_same ->
  gc_next x (nxold x xo) t (gc_next x xo t c) = gc_next x xo t c.
Proof.
  Local Transparent gc_red gc_tau.
  intros Hl. unfold gc_next. set (c1 := gc_red x xo c).
  unfold gc_red. rewrite gx_diff_nxold by assumption.
  set (c2 := gc_tau (xf x) t c1).
  assert (E1 : gc_told c2 = t) by (unfold c2, gc_tau; now destruct (gc_fresh t c1)).
  assert (E2 : gc_tr2 c2 = gc_tr c2) by (unfold c2, gc_tau; now destruct (gc_fresh t c1)).
  unfold gc_tau, gc_fresh, differs. rewrite E1, E2, !Hl. cbn [orb].
  transitivity (mkGC (gc_dr c2) (gc_tr c2) (gc_told c2) (gc_tr2 c2) (gc_tp c2) (gc_tm c2)).
  - now rewrite E1, E2.
  - now destruct c2.
  Local Opaque gc_red gc_tau.
Qed.
Lemma nxold_idem x xo : nxold x (nxold x xo) = nxold x xo.
Proof.
  Local Transparent nxold.
  unfold nxold at 1 3. apply tab_ext. intros i Hi. destruct (Nat.eqb_spec i 0) as [->|]; [|reflexivity].
  unfold nxold, xf. now rewrite nth_tab by lia.
  Local Opaque nxold.
Qed.

Definition gpflat a b c (d : gcache) e (s : Gerg) : Gerg :=
  mkGerg (g_t s) (g_p s) (g_d s) b (g_mm s) (g_dp_dd s) (g_d2p_dd2 s) (g_d2p_dtd s)
    (g_dp_dt s) (g_u s) (g_h s) (g_s s) (g_cv s) (g_cp s) (g_w s) (g_g s) (g_jt s) (g_kappa s)
    (g_x s) (gc_dr d) (gc_tr d) (gc_told d) (gc_tr2 d) e (g_a s) (g_a0 s) c
    a (tab2 22 25 (gc_tp d)) (tab2 22 13 (gc_tm d)) (g_coik s) (g_doik s) (g_toik s) (g_dijk s)
    (g_tijk s) (g_cijk s) (g_eijk s) (g_gijk s) (g_nijk s) (g_n0i s) (g_bvij s) (g_gvij s)
    (g_btij s) (g_gtij s).
Lemma gpflat_eq a b c d e (s : Gerg) :
  set_g_dpddsave a (set_g_z b (set_g_ar c (set_cache d (set_g_xold e s)))) = gpflat a b c d e s.
Proof. destruct s; unfold gpflat, set_cache; gunf; reflexivity. Qed.
Lemma gpress_flat c s : gpress_st c s
  = gpflat (gpdpdd (gal_terms c s) (g_t s)) (gpz (gal_terms c s)) (arT 0 (gal_terms c s))
      (gal_cache c s) (nxold (g_x s) (g_xold s)) s.
Proof. exact (gpflat_eq _ _ _ _ _ s). Qed.
Definition grflat z dpdd d2 d2dt dpdt u h ss cv cp w g jt kappa a c (d : gcache) e a0 mm (s : Gerg)
  : Gerg :=
  mkGerg (g_t s) (g_p s) (g_d s) z mm dpdd d2 d2dt dpdt u h ss cv cp w g jt kappa
    (g_x s) (gc_dr d) (gc_tr d) (gc_told d) (gc_tr2 d) e a a0 c
    (g_dpddsave s) (tab2 22 25 (gc_tp d)) (tab2 22 13 (gc_tm d)) (g_coik s) (g_doik s)
    (g_toik s) (g_dijk s)
    (g_tijk s) (g_cijk s) (g_eijk s) (g_gijk s) (g_nijk s) (g_n0i s) (g_bvij s) (g_gvij s)
    (g_btij s) (g_gtij s).
Lemma grflat_eq z dpdd d2 d2dt dpdt u h ss cv cp w g jt kappa a c d e a0 mm (s : Gerg) :
  gset_results z dpdd d2 d2dt dpdt u h ss cv cp w g jt kappa a
    (set_g_ar c (set_cache d (set_g_xold e (set_g_a0 a0 (set_g_mm mm s)))))
  = grflat z dpdd d2 d2dt dpdt u h ss cv cp w g jt kappa a c d e a0 mm s.
Proof. destruct s; unfold grflat, set_cache, gset_results; gunf; reflexivity. Qed.
Lemma gprops_flat c s : gprops_st c s
  = let l := gal_terms c s in let X := xf (g_x s) in let t := g_t s in let d := g_d s in
    grflat (gqz l) (gqdpdd l t) (gqd2pdd2 l t d) (gqd2pdtd l) (gqdpdt l d) (gqu l X t d)
      (gqh l X t d) (gqs l X t d) (gqcv l X t d) (gqcp l X t d) (gqw l X t d) (gqg l X t d)
      (gqjt l X t d) (gqkappa l X t d) (gqa l X t d) (arT 1 l) (gal_cache c s)
      (nxold (g_x s) (g_xold s)) (ga0 X t d) (gmm X) s.
Proof. exact (grflat_eq _ _ _ _ _ _ _ _ _ _ _ _ _ _ _ _ _ _ _ _ s). Qed.

Lemma evald_gcache c s s1 : self_same -> g_x s1 = g_x s -> g_t s1 = g_t s ->
  g_xold s1 = nxold (g_x s) (g_xold s) -> gal_cache (gal_cache c s) s1 = gal_cache c s.
Proof. intros Hl E1 E2 E3. unfold gal_cache at 1. rewrite E1, E2, E3. now apply gc_next_same. Qed.

Lemma gpressure_again c s s1 v : self_same -> gwf c s -> gerg_pressure s = Some (s1, v) ->
  gerg_pressure s1 = Some (s1, v).
Proof.
  intros Hl H E. rewrite (gpressure_ok _ _ H) in E. injection E as E <-.
  pose proof (gwf_press _ _ H) as H1. rewrite E in H1. rewrite (gpressure_ok _ _ H1).
  rewrite gpress_flat in E. clear H H1.
  assert (E1 : g_x s1 = g_x s) by (rewrite <- E; reflexivity).
  assert (E2 : g_xold s1 = nxold (g_x s) (g_xold s)) by (rewrite <- E; reflexivity).
  assert (E3 : g_t s1 = g_t s) by (rewrite <- E; reflexivity).
  assert (E5 : g_d s1 = g_d s) by (rewrite <- E; reflexivity).
  rewrite gpress_flat. unfold gal_terms in *.
  rewrite (evald_gcache c s s1 Hl E1 E3 E2), E1, E2, E3, E5, nxold_idem.
  rewrite <- E. reflexivity.
Qed.
Lemma gproperties_again c s s1 v : self_same -> gwf c s -> gerg_properties s = Some (s1, v) ->
  gerg_properties s1 = Some (s1, v).
Proof.
  intros Hl H E. rewrite (gproperties_ok _ _ H) in E. injection E as E <-.
  pose proof (gwf_props _ _ H) as H1. rewrite E in H1. rewrite (gproperties_ok _ _ H1).
  rewrite gprops_flat in E. cbv zeta in E. clear H H1.
  assert (E1 : g_x s1 = g_x s) by (rewrite <- E; reflexivity).
  assert (E2 : g_xold s1 = nxold (g_x s) (g_xold s)) by (rewrite <- E; reflexivity).
  assert (E3 : g_t s1 = g_t s) by (rewrite <- E; reflexivity).
  assert (E5 : g_d s1 = g_d s) by (rewrite <- E; reflexivity).
  rewrite gprops_flat. cbv zeta. unfold gal_terms in *.
  rewrite (evald_gcache c s s1 Hl E1 E3 E2), E1, E2, E3, E5, nxold_idem.
  rewrite <- E. reflexivity.
Qed.
End G.

(* fresh objects *)
Lemma dfresh_zero k s : dstart k = Some s ->
  d_x s = repeat f0 21 /\ forall f, dread f s = f0.
Proof.
  destruct k; cbn [dstart]; intros H.
  - pose proof (eq_trans (eq_sym H) detail_new_ok) as E. injection E as ->.
    split; [reflexivity|]. intros []; reflexivity.
  - injection H as <-. split; [reflexivity|]. intros []; reflexivity.
Qed.
Lemma gfresh_zero k s : gstart k = Some s ->
  g_x s = repeat f0 22 /\ forall f, gread f s = f0.
Proof.
  destruct k; cbn [gstart]; intros H.
  - pose proof (eq_trans (eq_sym H) gerg_new_ok) as E. injection E as ->.
    split; [reflexivity|]. intros []; reflexivity.
  - injection H as <-. split; [reflexivity|]. intros []; reflexivity.
Qed.
End Basic.
