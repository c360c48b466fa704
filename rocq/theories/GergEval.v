(* Refinement of the GERG-2008 methods: they never panic and compute the closed forms of
   GergPure.v. *)
From Coq Require Import ZArith List Bool Lia.
From Verif Require Import FArith Prelude Tab Composition DetailModel DetailPure DetailRefine
  GergTables GergModel GergPure GergRefine.
Import ListNotations.

(* table shapes *)
Lemma kpe_bound i : kpol i + kexp i < 25.
Proof. unfold kpol, kexp. do 22 (destruct i as [|i]; [cbn; lia|]). cbn. destruct i; cbn; lia. Qed.
Lemma kpeij_bound m : kpolij m + kexpij m < 13.
Proof. unfold kpolij, kexpij. do 11 (destruct m as [|m]; [cbn; lia|]). destruct m; cbn; lia. Qed.
Lemma mnumb_lt i j : mnumb i j < 11.
Proof. apply nv2_lt; [reflexivity|lia]. Qed.

Section Eval.
Context {A : Arith} {P : GParams}.
Local Open Scope bool_scope.
Local Open Scope F_scope.
Local Opaque tab seq.

Record gwf (c : gcache) (s : Gerg) : Prop := {
  gw_static : gstatic s;
  gw_x : length (g_x s) = 22%nat;
  gw_xold : length (g_xold s) = 22%nat;
  gw_a0 : length (g_a0 s) = 3%nat;
  gw_ar : exists f, g_ar s = tab2 4 4 f;
  gw_dr : g_drold s = gc_dr c;
  gw_tr : g_trold s = gc_tr c;
  gw_told : g_told s = gc_told c;
  gw_tr2 : g_trold2 s = gc_tr2 c;
  gw_tp : g_taup s = tab2 22 25 (gc_tp c);
  gw_tm : g_taupijk s = tab2 22 13 (gc_tm c) }.

(* change detection *)
Lemma gx_changed_ok x xo : length x = 22%nat -> length xo = 22%nat ->
  gx_changed x xo = Some (gx_diff x xo, nxold x xo).
Proof.
  intros Hx Ho. unfold gx_changed, for_incl, NC_GERG.
  apply (for_seq' (fun i =>
    (existsb (fun k => differs (xf x k) (xf xo k)) (seq 1 (i - 1)),
     tab 22 (fun j => if Nat.leb 1 j && Nat.ltb j i then xf x j else xf xo j)))); [lia| | |].
  - f_equal. transitivity (tab 22 (xf xo)); [exact (list_tab' 22 xo f0 Ho)|].
    apply tab_ext. intros; nat_cases; reflexivity.
  - unfold gx_diff, nxold. apply f_equal2; [reflexivity|].
    apply tab_ext. intros i Hi. nat_cases; subst; reflexivity.
  - intros i Hi. rewrite (get_nth x i f0) by lia. rewrite get_tab by lia. cbn [bind].
    rewrite upd_tab by lia. cbn [bind]. apply f_equal. apply f_equal2.
    + replace (S i - 1)%nat with (S (i - 1)) by lia.
      rewrite seq_S, existsb_app. cbn [existsb]. rewrite orb_false_r.
      replace (1 + (i - 1))%nat with i by lia.
      unfold differs, xf. destruct (Nat.ltb_spec i i); [lia|]. rewrite andb_false_r.
      destruct (existsb _ _), (flt _ _); reflexivity.
    + apply tab_ext; intros; nat_cases; subst; reflexivity.
Qed.

Lemma red_sums_ok s : gstatic s -> length (g_x s) = 22%nat ->
  red_sums s = Some (gred (xf (g_x s))).
Proof.
  intros Hs Hx. unfold red_sums, for_incl, NC_GERG.
  rewrite (for_fold (fun i st =>
    if act (xf (g_x s) i) then rrow (xf (g_x s)) i st else st)); [reflexivity|].
  intros i [vr tr] Hi. rewrite (get_nth (g_x s) i f0) by lia. cbn [bind].
  fold (xf (g_x s) i). unfold act.
  destruct (xf (g_x s) i >? GEPSILON) eqn:E; [|reflexivity].
  rewrite (for_fold (fun j st => rstep (xf (g_x s)) i j st)).
  - cbn [bind]. unfold rrow.
    destruct (fold_left _ _ _) as [[vr' tr'] f']. reflexivity.
  - intros j [[vr' tr'] f'] Hj. rewrite (get_nth (g_x s) j f0) by lia. cbn [bind].
    fold (xf (g_x s) j). unfold rstep, act.
    destruct (xf (g_x s) j >? GEPSILON) eqn:E'; [|reflexivity].
    rewrite !(lget2_lv 22 22) by (reflexivity || lia).
    rewrite (gs_bvij s Hs), get2_tab2 by lia. reflexivity.
Qed.

(* the object with another cached part *)
Definition set_cache (c : gcache) (s : Gerg) : Gerg :=
  set_g_taupijk (tab2 22 13 (gc_tm c)) (set_g_taup (tab2 22 25 (gc_tp c))
    (set_g_trold2 (gc_tr2 c) (set_g_told (gc_told c)
      (set_g_trold (gc_tr c) (set_g_drold (gc_dr c) s))))).

Lemma gstatic_ext s s' : gstatic s ->
  g_coik s' = g_coik s -> g_doik s' = g_doik s -> g_toik s' = g_toik s -> g_dijk s' = g_dijk s ->
  g_tijk s' = g_tijk s -> g_cijk s' = g_cijk s -> g_eijk s' = g_eijk s -> g_gijk s' = g_gijk s ->
  g_nijk s' = g_nijk s -> g_n0i s' = g_n0i s -> g_bvij s' = g_bvij s -> gstatic s'.
Proof. intros []; constructor; congruence. Qed.

Lemma set_cache_id c s : gwf c s -> set_cache c s = s.
Proof.
  intros H. destruct H as [_ _ _ _ _ H1 H2 H3 H4 H5 H6]. unfold set_cache.
  rewrite <- H1, <- H2, <- H3, <- H4, <- H5, <- H6. destruct s; reflexivity.
Qed.

Lemma gwf_set_cache c c' s : gwf c s -> gwf c' (set_cache c' s).
Proof.
  intros [Hs H1 H2 H3 H4 H5 H6 H7 H8 H9 H10]. constructor; gsimp; try assumption; try reflexivity.
  now apply (gstatic_ext s).
Qed.

Lemma gwf_set_xold c l s : length l = 22%nat -> gwf c s -> gwf c (set_g_xold l s).
Proof.
  intros Hl [Hs H1 H2 H3 H4 H5 H6 H7 H8 H9 H10].
  constructor; gsimp; try assumption; try reflexivity. now apply (gstatic_ext s).
Qed.
Lemma nxold_length x xo : length (nxold x xo) = 22%nat.
Proof. apply tab_length. Qed.

Lemma reducingparameters_ok c s : gwf c s ->
  let c' := gc_red (g_x s) (g_xold s) c in
  reducingparameters s
  = Some (set_cache c' (set_g_xold (nxold (g_x s) (g_xold s)) s), (gc_dr c', gc_tr c')).
Proof.
  intros H. unfold reducingparameters. rewrite gx_changed_ok by apply H. cbn [bind].
  pose proof (gwf_set_xold c (nxold (g_x s) (g_xold s)) s (nxold_length _ _) H) as H1.
  unfold gc_red. destruct (gx_diff (g_x s) (g_xold s)) eqn:E.
  - rewrite red_sums_ok.
    2:{ apply (gstatic_ext s); [apply H|reflexivity..]. }
    2:{ apply H. }
    gsimp. unfold gdr, gtr. destruct (gred (xf (g_x s))) as [vr tr] eqn:Eg. cbn [bind].
    cbn [fst snd gc_dr gc_tr]. apply f_equal. apply f_equal2; [|reflexivity].
    unfold set_cache. cbn [fst snd gc_dr gc_tr gc_told gc_tr2 gc_tp gc_tm].
    rewrite <- (gw_tp _ _ H), <- (gw_tm _ _ H). destruct s; reflexivity.
  - rewrite set_cache_id by assumption. gsimp. rewrite (gw_dr _ _ H), (gw_tr _ _ H). reflexivity.
Qed.

(* powers of tau *)
Lemma taup0_ok s lntau : gstatic s ->
  tterms_taup0 s lntau
  = Some (tab 13 (fun k => if Nat.eqb k 0 then f0 else fexp (q_toik 5 k * lntau))).
Proof.
  intros Hs. unfold tterms_taup0. rewrite repeat_tab.
  rewrite (for_fill 13 (fun k _ => fexp (q_toik 5 k * lntau))); [|lia|].
  - apply f_equal. apply tab_ext. intros i Hi. nat_cases; reflexivity.
  - intros i f Hi. rewrite (gs_toik s Hs), get2_tab2 by lia. cbn [bind].
    now rewrite upd_tab by lia.
Qed.

Lemma taup_ok s lntau TP : gstatic s -> length (g_x s) = 22%nat ->
  tterms_taup s lntau (tab 13 (fun k => if Nat.eqb k 0 then f0 else fexp (q_toik 5 k * lntau)))
    (tab2 22 25 TP)
  = Some (tab2 22 25 (ntaup (xf (g_x s)) lntau TP)).
Proof.
  intros Hs Hx. unfold tterms_taup, for_incl, NC_GERG. rewrite tab_length.
  apply (for_seq' (fun i => tab2 22 25 (fun a k =>
    if Nat.ltb a i then ntaup (xf (g_x s)) lntau TP a k else TP a k))); [lia| | |].
  - apply tab2_ext. intros a k Ha Hk. unfold ntaup.
    destruct (Nat.ltb_spec a 1); [|reflexivity]. now replace a with 0%nat by lia.
  - apply tab2_ext. intros a k Ha Hk. nat_cases; reflexivity.
  - intros i Hi. rewrite (get_nth (g_x s) i f0) by lia. cbn [bind]. fold (xf (g_x s) i).
    assert (Hn : forall a k, a <> i ->
      (if Nat.ltb a (S i) then ntaup (xf (g_x s)) lntau TP a k else TP a k)
      = (if Nat.ltb a i then ntaup (xf (g_x s)) lntau TP a k else TP a k)).
    { intros a k Hne. nat_cases; reflexivity. }
    assert (Hl : Nat.ltb i (S i) = true) by (apply Nat.ltb_lt; lia).
    assert (Hli : Nat.ltb i i = false) by (apply Nat.ltb_ge; lia).
    assert (H1i : Nat.leb 1 i = true) by (apply Nat.leb_le; lia).
    destruct (xf (g_x s) i >? GEPSILON) eqn:E.
    + destruct (short_form i) eqn:Esh.
      * apply (for_seq' (fun k0 => tab2 22 25 (fun a k =>
          if Nat.eqb a i && Nat.leb 1 k && Nat.ltb k k0 then ntaup (xf (g_x s)) lntau TP a k
          else if Nat.ltb a i then ntaup (xf (g_x s)) lntau TP a k else TP a k)));
          [lia| | |].
        -- apply tab2_ext. intros a k Ha Hk. nat_cases; reflexivity.
        -- apply tab2_ext. intros a k Ha Hk. destruct (Nat.eqb_spec a i) as [->|Hne].
           ++ rewrite Hl, Hli. unfold ntaup. unfold act. rewrite E, Esh, H1i. cbn [andb].
              destruct (Nat.leb 1 k && Nat.ltb k 13); reflexivity.
           ++ now rewrite Hn.
        -- intros k Hk. rewrite (lget2_lv 22 25) by (reflexivity || lia). cbn [bind].
           rewrite get_tab by lia. cbn [bind]. rewrite upd2_tab2 by lia. apply f_equal.
           apply tab2_ext. intros a b Ha Hb. destruct (Nat.eqb_spec a i) as [->|Hne]; [|reflexivity].
           cbn [andb]. destruct (Nat.eqb_spec b k) as [->|Hne].
           ++ replace (Nat.leb 1 k && Nat.ltb k (S k)) with true
                by (symmetry; apply andb_true_iff; split; [apply Nat.leb_le|apply Nat.ltb_lt]; lia).
              unfold ntaup, act. rewrite E, Esh, H1i. cbn [andb].
              replace (Nat.leb 1 k && Nat.ltb k 13) with true
                by (symmetry; apply andb_true_iff; split; [apply Nat.leb_le|apply Nat.ltb_lt]; lia).
              destruct (Nat.eqb_spec k 0); [lia|]. reflexivity.
           ++ replace (Nat.ltb b (S k)) with (Nat.ltb b k) by (nat_cases; reflexivity). reflexivity.
      * rewrite (get_nth G_KPOL i 0%nat), (get_nth G_KEXP i 0%nat) by (cbn; lia). cbn [bind].
        fold (kpol i). fold (kexp i). pose proof (kpe_bound i).
        apply (for_seq' (fun k0 => tab2 22 25 (fun a k =>
          if Nat.eqb a i && Nat.leb 1 k && Nat.ltb k k0 then ntaup (xf (g_x s)) lntau TP a k
          else if Nat.ltb a i then ntaup (xf (g_x s)) lntau TP a k else TP a k)));
          [lia| | |].
        -- apply tab2_ext. intros a k Ha Hk. nat_cases; reflexivity.
        -- apply tab2_ext. intros a k Ha Hk. destruct (Nat.eqb_spec a i) as [->|Hne].
           ++ rewrite Hl, Hli. unfold ntaup. unfold act. rewrite E, Esh, H1i. cbn [andb].
              change (Nat.ltb k (S (kpol i + kexp i))) with (Nat.leb k (kpol i + kexp i)).
              destruct (Nat.leb 1 k && Nat.leb k (kpol i + kexp i)); reflexivity.
           ++ now rewrite Hn.
        -- intros k Hk. rewrite (lget2_lv 22 25) by (reflexivity || lia). cbn [bind].
           rewrite (gs_toik s Hs), get2_tab2 by lia. cbn [bind].
           rewrite upd2_tab2 by lia. apply f_equal.
           apply tab2_ext. intros a b Ha Hb. destruct (Nat.eqb_spec a i) as [->|Hne]; [|reflexivity].
           cbn [andb]. destruct (Nat.eqb_spec b k) as [->|Hne].
           ++ replace (Nat.leb 1 k && Nat.ltb k (S k)) with true
                by (symmetry; apply andb_true_iff; split; [apply Nat.leb_le|apply Nat.ltb_lt]; lia).
              unfold ntaup, act. rewrite E, Esh, H1i. cbn [andb].
              replace (Nat.leb 1 k && Nat.leb k (kpol i + kexp i)) with true
                by (symmetry; apply andb_true_iff; split; apply Nat.leb_le; lia).
              reflexivity.
           ++ replace (Nat.ltb b (S k)) with (Nat.ltb b k) by (nat_cases; reflexivity). reflexivity.
    + apply f_equal. apply tab2_ext. intros a k Ha Hk. destruct (Nat.eqb_spec a i) as [->|Hne].
      * rewrite Hl, Hli. unfold ntaup, act. rewrite E, andb_false_r. reflexivity.
      * now rewrite Hn.
Qed.

Definition ntmb (lntau : F) (TM : nat -> nat -> F) (b : nat -> bool) (m k : nat) : F :=
  if Nat.ltb 0 m && b m && Nat.leb 1 k && Nat.leb k (kpolij m)
  then q_nijk m k * fexp (q_tijk m k * lntau) else TM m k.
Lemma ntmb_ext lntau TM b b' : (forall m, b m = b' m) ->
  tab2 22 13 (ntmb lntau TM b) = tab2 22 13 (ntmb lntau TM b').
Proof. intros H. apply tab2_ext. intros m k Hm Hk. unfold ntmb. now rewrite H. Qed.

Lemma actrow_S X m i n :
  actrow X m i (S n)
  = actrow X m i n || (act (X (i + 1 + n)%nat) && Nat.eqb (mnumb i (i + 1 + n)) m).
Proof. unfold actrow. rewrite seq_S, existsb_app. cbn [existsb]. now rewrite orb_false_r. Qed.
Lemma actm_S X m n :
  actm X m (S n) = actm X m n || (act (X (1 + n)%nat) && actrow X m (1 + n) (21 - (1 + n))).
Proof. unfold actm. rewrite seq_S, existsb_app. cbn [existsb]. now rewrite orb_false_r. Qed.

Lemma taupijk_ok s lntau TM : gstatic s -> length (g_x s) = 22%nat ->
  tterms_taupijk s lntau (tab2 22 13 TM) = Some (tab2 22 13 (ntm (xf (g_x s)) lntau TM)).
Proof.
  intros Hs Hx. unfold tterms_taupijk.
  apply (for_seq' (fun i => tab2 22 13
    (ntmb lntau TM (fun m => actm (xf (g_x s)) m (i - 1))))); [cbn; lia| |reflexivity|].
  - apply tab2_ext. intros m k Hm Hk. unfold ntmb. cbn. now rewrite andb_false_r.
  - intros i Hi. cbn in Hi.
    rewrite (get_nth G_MNUMB i []) by (cbn; lia). cbn [bind].
    rewrite (get_nth (g_x s) i f0) by lia. cbn [bind]. fold (xf (g_x s) i).
    assert (Hml : length (nth i G_MNUMB []) = 22%nat)
      by (apply (rect_nth 22 22); [reflexivity|lia]).
    rewrite Hml.
    destruct (xf (g_x s) i >? GEPSILON) eqn:E.
    + apply (for_seq' (fun j => tab2 22 13 (ntmb lntau TM (fun m =>
        actm (xf (g_x s)) m (i - 1) || actrow (xf (g_x s)) m i (j - (i + 1)))))); [lia| | |].
      * apply ntmb_ext. intros m. rewrite Nat.sub_diag. unfold actrow. cbn. now rewrite orb_false_r.
      * apply ntmb_ext. intros m. replace (S i - 1)%nat with (S (i - 1)) by lia.
        rewrite actm_S. replace (1 + (i - 1))%nat with i by lia. unfold act. rewrite E.
        replace (22 - (i + 1))%nat with (21 - i)%nat by lia. reflexivity.
      * intros j Hj. rewrite (get_nth (g_x s) j f0) by lia. cbn [bind]. fold (xf (g_x s) j).
        replace (S j - (i + 1))%nat with (S (j - (i + 1))) by lia.
        destruct (xf (g_x s) j >? GEPSILON) eqn:E'.
        -- rewrite (get_nth _ j 0%nat) by lia. cbn [bind].
           change (nth j (nth i G_MNUMB []) 0%nat) with (mnumb i j).
           pose proof (mnumb_lt i j) as Hmn. remember (mnumb i j) as mn eqn:Emn.
           destruct (Nat.ltb_spec 0 mn) as [H0|H0].
           ++ rewrite (get_nth G_KPOLIJ mn 0%nat) by (cbn; lia). cbn [bind].
              fold (kpolij mn). pose proof (kpeij_bound mn) as Hkb. unfold for_incl.
              match goal with |- for_ _ _ _ (tab2 22 13 (ntmb lntau TM ?b)) = _ => set (b0 := b) end.
              apply (for_seq' (fun k0 => tab2 22 13 (fun m k =>
                if Nat.eqb m mn && Nat.leb 1 k && Nat.ltb k k0
                then q_nijk m k * fexp (q_tijk m k * lntau) else ntmb lntau TM b0 m k)));
                [lia| | |].
              ** apply tab2_ext. intros m k Hm Hk. nat_cases; reflexivity.
              ** apply tab2_ext. intros m k Hm Hk. unfold ntmb.
                 rewrite actrow_S. replace (i + 1 + (j - (i + 1)))%nat with j by lia.
                 unfold act. rewrite E', <- Emn. cbn [andb].
                 change (Nat.ltb k (S (kpolij mn))) with (Nat.leb k (kpolij mn)).
                 destruct (Nat.eqb_spec m mn) as [->|Hne].
                 --- rewrite Nat.eqb_refl, !orb_true_r.
                     replace (Nat.ltb 0 mn) with true by (symmetry; now apply Nat.ltb_lt).
                     cbn [andb]. destruct (Nat.leb 1 k), (Nat.leb k (kpolij mn)); cbn [andb];
                       try reflexivity; rewrite ?andb_false_r; reflexivity.
                 --- cbn [andb]. destruct (Nat.eqb_spec mn m); [congruence|].
                     rewrite orb_false_r. reflexivity.
              ** intros k Hk. rewrite (gs_nijk s Hs), (gs_tijk s Hs), !get2_tab2 by lia.
                 cbn [bind]. rewrite upd2_tab2 by lia. apply f_equal. apply tab2_ext.
                 intros a b Ha Hb. nat_cases; subst; try reflexivity.
           ++ apply f_equal. apply tab2_ext. intros m k Hm Hk. unfold ntmb.
              destruct (Nat.ltb_spec 0 m) as [Hm0|Hm0]; [|reflexivity].
              rewrite actrow_S. replace (i + 1 + (j - (i + 1)))%nat with j by lia.
              rewrite <- Emn. destruct (Nat.eqb_spec mn m); [lia|].
              rewrite andb_false_r, orb_false_r. reflexivity.
        -- apply f_equal. apply ntmb_ext. intros m. rewrite actrow_S.
           replace (i + 1 + (j - (i + 1)))%nat with j by lia. unfold act. rewrite E'.
           cbn [andb]. now rewrite orb_false_r.
    + apply f_equal. apply ntmb_ext. intros m. replace (S i - 1)%nat with (S (i - 1)) by lia.
      rewrite actm_S. replace (1 + (i - 1))%nat with i by lia. unfold act. rewrite E.
      cbn [andb]. now rewrite orb_false_r.
Qed.

Lemma tcache_ok c s : gwf c s ->
  galphar_tcache (gc_tr c) (fln (gc_tr c / g_t s)) s
  = Some (set_cache (gc_tau (xf (g_x s)) (g_t s) c) s).
Proof.
  intros H. unfold galphar_tcache. rewrite (gw_told _ _ H), (gw_tr2 _ _ H).
  unfold gc_tau, gc_fresh, differs. destruct (_ || _).
  - unfold tterms. rewrite taup0_ok by apply H. cbn [bind].
    rewrite (gw_tp _ _ H), taup_ok by apply H. cbn [bind].
    rewrite (gw_tm _ _ H), taupijk_ok by apply H. cbn [bind].
    apply f_equal. unfold set_cache. cbn [gc_dr gc_tr gc_told gc_tr2 gc_tp gc_tm].
    rewrite <- (gw_dr _ _ H), <- (gw_tr _ _ H).
    generalize (tab2 22 25 (ntaup (xf (g_x s)) (fln (g_trold s / g_t s)) (gc_tp c)))
      (tab2 22 13 (ntm (xf (g_x s)) (fln (g_trold s / g_t s)) (gc_tm c))).
    intros a b. destruct s. reflexivity.
  - cbn [bind]. apply f_equal. unfold set_cache. cbn [gc_dr gc_tr gc_told gc_tr2 gc_tp gc_tm].
    rewrite <- (gw_dr _ _ H), <- (gw_tr _ _ H), <- (gw_tp _ _ H), <- (gw_tm _ _ H).
    destruct s. reflexivity.
Qed.

(* powers of delta *)
Lemma gdelp_S del i : (1 <= i)%nat -> gdelp del (S i) = gdelp del i * del.
Proof. destruct i; [lia|reflexivity]. Qed.
Lemma delp_ok del : galphar_delp del = Some (tab 8 (gdelp del), tab 8 (gexpd del)).
Proof.
  unfold galphar_delp. rewrite !repeat_tab. rewrite upd_tab by lia. cbn [bind].
  rewrite get_tab by lia. cbn [bind]. rewrite upd_tab by lia. cbn [bind].
  apply (for_seq' (fun i => (tab 8 (fun k => if Nat.ltb k i then gdelp del k else f0),
                             tab 8 (fun k => if Nat.ltb k i then gexpd del k else f0)))); [lia| | |].
  - apply f_equal2; apply tab_ext; intros [|[|k]] Hk; reflexivity.
  - apply f_equal2; apply tab_ext; intros k Hk; nat_cases; reflexivity.
  - intros i Hi. rewrite get_tab by lia. cbn [bind]. rewrite upd_tab by lia. cbn [bind].
    rewrite get_tab by lia. cbn [bind]. rewrite upd_tab by lia. cbn [bind].
    rewrite Nat.eqb_refl. destruct i as [|i]; [lia|]. replace (S i - 1)%nat with i by lia.
    replace (Nat.ltb i (S i)) with true by (symmetry; apply Nat.ltb_lt; lia).
    rewrite <- gdelp_S by lia. apply f_equal. apply f_equal2; apply tab_ext; intros k Hk.
    + nat_cases; subst; reflexivity.
    + destruct (Nat.eqb_spec k (S i)) as [->|Hne].
      * replace (Nat.ltb (S i) (S (S i))) with true by (symmetry; apply Nat.ltb_lt; lia). reflexivity.
      * nat_cases; subst; reflexivity.
Qed.

(* one term added to ar *)
Lemma arS_app l c e : arS (l ++ [c]) e = arS l e + c e.
Proof. unfold arS. now rewrite fold_left_app. Qed.
Lemma add_pol_ok itau ndt dd tt l :
  add_pol itau ndt dd tt (arT itau l) = Some (arT itau (l ++ [pol_c ndt dd tt])).
Proof. unfold add_pol, arT. destruct (0 <? itau)%Z; rewrite !arS_app; reflexivity. Qed.
Lemma add_exp_ok itau ndt dd tt cc delc l :
  add_exp itau ndt dd tt cc delc (arT itau l)
  = Some (arT itau (l ++ [exp_c ndt dd tt cc delc])).
Proof. unfold add_exp, arT. destruct (0 <? itau)%Z; rewrite !arS_app; reflexivity. Qed.
Lemma add_mexp_ok itau ndt dd tt c e l :
  add_mexp itau ndt dd tt c e (arT itau l) = Some (arT itau (l ++ [mexp_c ndt dd tt c e])).
Proof. unfold add_mexp, arT. destruct (0 <? itau)%Z; rewrite !arS_app; reflexivity. Qed.

Lemma fold_app1 {T} (g : nat -> T) n l :
  fold_left (fun l k => l ++ [g k]) n l = l ++ map g n.
Proof.
  revert l; induction n as [|k n IH]; intros l; cbn; [now rewrite app_nil_r|].
  rewrite IH, <- app_assoc. reflexivity.
Qed.
Lemma fold_appl {T} (g : nat -> list T) n l :
  fold_left (fun l k => l ++ g k) n l = l ++ flat_map g n.
Proof.
  revert l; induction n as [|k n IH]; intros l; cbn; [now rewrite app_nil_r|].
  rewrite IH, <- app_assoc. reflexivity.
Qed.

Local Opaque add_pol add_exp add_mexp.
Lemma galphar_pure_ok itau s del TP l : gstatic s -> length (g_x s) = 22%nat ->
  g_taup s = tab2 22 25 TP ->
  galphar_pure itau s (tab 8 (gdelp del)) (tab 8 (gexpd del)) (arT itau l)
  = Some (arT itau (l ++ flat_map (pure_terms (xf (g_x s)) del TP) (seq 1 21))).
Proof.
  intros Hs Hx HT. unfold galphar_pure, for_incl, NC_GERG.
  rewrite (for_rep (arT itau) (fun i l => l ++ pure_terms (xf (g_x s)) del TP i)).
  - now rewrite fold_appl.
  - clear l. intros i l Hi. rewrite (get_nth (g_x s) i f0) by lia. cbn [bind]. fold (xf (g_x s) i).
    unfold pure_terms, act.
    destruct (xf (g_x s) i >? GEPSILON); [|now rewrite app_nil_r].
    rewrite (get_nth G_KPOL i 0%nat), (get_nth G_KEXP i 0%nat) by (cbn; lia). cbn [bind].
    fold (kpol i). fold (kexp i). pose proof (kpe_bound i).
    rewrite (for_rep (arT itau) (fun k l => l ++ [pterm (xf (g_x s)) del TP i k])).
    + cbn [bind].
      rewrite (for_rep (arT itau) (fun k l => l ++ [eterm (xf (g_x s)) del TP i k])).
      * rewrite !fold_app1, <- app_assoc.
        replace (S (kpol i) - 1)%nat with (kpol i) by lia.
        replace (S (kpol i + kexp i) - (1 + kpol i))%nat with (kexp i) by lia. reflexivity.
      * intros k l' Hk. rewrite (gs_doik s Hs), (gs_coik s Hs), (gs_toik s Hs), HT.
        pose proof (q_doik_lt i k). pose proof (q_coik_lt i k).
        repeat (first [rewrite get2_tab2 by lia|rewrite get_tab by lia]; cbn [bind]).
        apply add_exp_ok.
    + intros k l' Hk. rewrite (gs_doik s Hs), (gs_toik s Hs), HT.
      pose proof (q_doik_lt i k).
      repeat (first [rewrite get2_tab2 by lia|rewrite get_tab by lia]; cbn [bind]).
      apply add_pol_ok.
Qed.

Lemma galphar_mix_ok itau s del lntau TM l : gstatic s -> length (g_x s) = 22%nat ->
  g_taupijk s = tab2 22 13 TM ->
  galphar_mix itau s del lntau (tab 8 (gdelp del)) (arT itau l)
  = Some (arT itau (l ++ flat_map (mixrow (xf (g_x s)) del lntau TM) (seq 1 20))).
Proof.
  intros Hs Hx HT. unfold galphar_mix, NC_GERG.
  rewrite (for_rep (arT itau) (fun i l => l ++ mixrow (xf (g_x s)) del lntau TM i)).
  - now rewrite fold_appl.
  - clear l. intros i l Hi. rewrite (get_nth (g_x s) i f0) by lia. cbn [bind]. fold (xf (g_x s) i).
    unfold mixrow, act.
    destruct (xf (g_x s) i >? GEPSILON); [|now rewrite app_nil_r]. unfold for_incl.
    rewrite (for_rep (arT itau) (fun j l => l ++ mix_terms (xf (g_x s)) del lntau TM i j)).
    + rewrite fold_appl. replace (22 - (i + 1))%nat with (21 - i)%nat by lia. reflexivity.
    + clear l. intros j l Hj. rewrite (get_nth (g_x s) j f0) by lia. cbn [bind].
      fold (xf (g_x s) j). unfold mix_terms, act.
      destruct (xf (g_x s) j >? GEPSILON); [|now rewrite app_nil_r].
      rewrite (get2_nth 22 22 G_MNUMB i j 0%nat) by (reflexivity || lia). cbn [bind].
      change (nth j (nth i G_MNUMB []) 0%nat) with (mnumb i j).
      pose proof (mnumb_lt i j) as Hmn. remember (mnumb i j) as mn eqn:Emn.
      cbv zeta. destruct (Nat.ltb_spec 0 mn) as [H0|H0]; [|now rewrite app_nil_r].
      rewrite (lget2_lv 22 22) by (reflexivity || lia). cbn [bind].
      rewrite (get_nth G_KPOLIJ mn 0%nat), (get_nth G_KEXPIJ mn 0%nat) by (cbn; lia). cbn [bind].
      fold (kpolij mn). fold (kexpij mn). pose proof (kpeij_bound mn).
      rewrite (for_rep (arT itau) (fun k l => l ++ [mpterm (xf (g_x s)) del TM i j mn k])).
      * cbn [bind].
        rewrite (for_rep (arT itau) (fun k l => l ++ [meterm (xf (g_x s)) del lntau i j mn k])).
        -- rewrite !fold_app1, <- app_assoc.
           replace (S (kpolij mn) - 1)%nat with (kpolij mn) by lia.
           replace (S (kpolij mn + kexpij mn) - (1 + kpolij mn))%nat with (kexpij mn) by lia.
           reflexivity.
        -- intros k l' Hk. rewrite (gs_cijk s Hs), (gs_eijk s Hs), (gs_nijk s Hs), (gs_dijk s Hs),
             (gs_gijk s Hs), (gs_tijk s Hs). pose proof (q_dijk_lt mn k).
           repeat (first [rewrite get2_tab2 by lia|rewrite get_tab by lia]; cbn [bind]).
           apply add_mexp_ok.
      * intros k l' Hk. rewrite (gs_dijk s Hs), (gs_tijk s Hs), HT.
        pose proof (q_dijk_lt mn k).
        repeat (first [rewrite get2_tab2 by lia|rewrite get_tab by lia]; cbn [bind]).
        apply add_pol_ok.
Qed.

Lemma gar_zero_ok itau f : ar_zero (tab2 4 4 f) = Some (arT itau []).
Proof.
  Local Transparent tab seq. unfold arT. destruct (0 <? itau)%Z; reflexivity.
  Local Opaque tab seq.
Qed.

Local Opaque gterms arT tab2 nxold gc_red gc_tau.
Definition gal_cache c (s : Gerg) : gcache := gc_next (g_x s) (g_xold s) (g_t s) c.
Definition gal_terms c (s : Gerg) := cterms (g_x s) (g_t s) (g_d s) (gal_cache c s).
Definition galr_st (itau : Z) (c : gcache) (s : Gerg) : Gerg :=
  set_g_ar (arT itau (gal_terms c s))
    (set_cache (gal_cache c s) (set_g_xold (nxold (g_x s) (g_xold s)) s)).

Lemma set_cache2 c c' s : set_cache c (set_cache c' s) = set_cache c s.
Proof. unfold set_cache. destruct s; reflexivity. Qed.

Lemma gc_tau_dr X t c : gc_dr (gc_tau X t c) = gc_dr c.
Proof. Local Transparent gc_tau. unfold gc_tau. now destruct (gc_fresh t c). Qed.
Lemma gc_tau_tr X t c : gc_tr (gc_tau X t c) = gc_tr c.
Proof. unfold gc_tau. now destruct (gc_fresh t c). Qed.
Local Opaque gc_tau.

Lemma galphar_tail_ok itau c s f : gwf c s -> f = arT itau [] ->
  (let del := g_d s / gc_dr c in
   let tau := gc_tr c / g_t s in
   let lntau := fln tau in
   '(delp, expd) <- galphar_delp del ;;
   s <- galphar_tcache (gc_tr c) lntau s ;;
   ar <- galphar_pure itau s delp expd f ;;
   ar <- galphar_mix itau s del lntau delp ar ;;
   Some (set_g_ar ar s))
  = Some (set_g_ar (arT itau (cterms (g_x s) (g_t s) (g_d s) (gc_tau (xf (g_x s)) (g_t s) c)))
            (set_cache (gc_tau (xf (g_x s)) (g_t s) c) s)).
Proof.
  intros H ->. cbv zeta. rewrite delp_ok. cbn [bind]. rewrite tcache_ok by assumption. cbn [bind].
  set (c' := gc_tau (xf (g_x s)) (g_t s) c).
  assert (Edr : gc_dr c' = gc_dr c) by apply gc_tau_dr.
  assert (Etr : gc_tr c' = gc_tr c) by apply gc_tau_tr.
  pose proof (gwf_set_cache c c' s H) as H1.
  change (g_x s) with (g_x (set_cache c' s)).
  refine (bind_some _ _ _ _
    (galphar_pure_ok itau (set_cache c' s) _ (gc_tp c') [] (gw_static _ _ H1) (gw_x _ _ H1) eq_refl) _).
  refine (bind_some _ _ _ _
    (galphar_mix_ok itau (set_cache c' s) _ _ (gc_tm c') _ (gw_static _ _ H1) (gw_x _ _ H1) eq_refl) _).
  cbn [app]. unfold cterms. change (g_x (set_cache c' s)) with (g_x s).
  rewrite Edr, Etr. reflexivity.
Qed.

Lemma galphar_ok itau c s : gwf c s -> gerg_alphar itau s = Some (galr_st itau c s).
Proof.
  intros H. unfold gerg_alphar. destruct (gw_ar _ _ H) as [f Hf]. rewrite Hf, (gar_zero_ok itau).
  cbn [bind]. rewrite (reducingparameters_ok c s H). cbn [bind].
  set (c1 := gc_red (g_x s) (g_xold s) c).
  pose proof (gwf_set_cache c c1 _ (gwf_set_xold c (nxold (g_x s) (g_xold s)) s
    (nxold_length _ _) H)) as H1.
  etransitivity; [apply (galphar_tail_ok itau c1 _ _ H1 eq_refl)|].
  rewrite set_cache2. reflexivity.
Qed.

Lemma arT_tab2 itau l : exists f, arT itau l = tab2 4 4 f.
Proof.
  exists (fun i j => nth j (nth i (arT itau l) []) f0).
  Local Transparent tab seq arT tab2. unfold arT. destruct (0 <? itau)%Z; reflexivity.
  Local Opaque tab seq arT tab2.
Qed.

Lemma gwf_set_ar c s itau l : gwf c s -> gwf c (set_g_ar (arT itau l) s).
Proof.
  intros [Hs H1 H2 H3 H4 H5 H6 H7 H8 H9 H10].
  constructor; gsimp; try assumption; try reflexivity.
  - now apply (gstatic_ext s).
  - apply arT_tab2.
Qed.

Lemma gwf_alr itau c s : gwf c s -> gwf (gal_cache c s) (galr_st itau c s).
Proof.
  intros H. apply gwf_set_ar. apply (gwf_set_cache c).
  apply gwf_set_xold; [apply nxold_length|assumption].
Qed.

Lemma arT_01 itau l : get2 (arT itau l) 0 1 = Some (arS l 1).
Proof. Local Transparent arT. unfold arT. destruct (0 <? itau)%Z; reflexivity. Qed.
Lemma arT_02 itau l : get2 (arT itau l) 0 2 = Some (arS l 2).
Proof. unfold arT. destruct (0 <? itau)%Z; reflexivity. Qed.
Lemma arT_00 l : get2 (arT 1 l) 0 0 = Some (arS l 0). Proof. reflexivity. Qed.
Lemma arT_03 l : get2 (arT 1 l) 0 3 = Some (arS l 3). Proof. reflexivity. Qed.
Lemma arT_10 l : get2 (arT 1 l) 1 0 = Some (arS l 4). Proof. reflexivity. Qed.
Lemma arT_11 l : get2 (arT 1 l) 1 1 = Some (arS l 5). Proof. reflexivity. Qed.
Lemma arT_12 l : get2 (arT 1 l) 1 2 = Some (arS l 6). Proof. reflexivity. Qed.
Lemma arT_20 l : get2 (arT 1 l) 2 0 = Some (arS l 7). Proof. reflexivity. Qed.
Local Opaque arT arS.

(* pressure *)
Definition gpz l := f1 + arS l 1.
Definition gpp (l : list (nat -> F)) (t d : F) := d * RGERG * t * gpz l.
Definition gpdpdd (l : list (nat -> F)) (t : F) := RGERG * t * (f1 + f2 * arS l 1 + arS l 2).
Definition gpress_st c (s : Gerg) : Gerg :=
  set_g_dpddsave (gpdpdd (gal_terms c s) (g_t s))
    (set_g_z (gpz (gal_terms c s)) (galr_st 0 c s)).

Lemma gpress_tail s l : g_ar s = arT 0 l ->
  (ar01 <- get2 (g_ar s) 0 1 ;; ar02 <- get2 (g_ar s) 0 2 ;;
   let s := set_g_z (f1 + ar01) s in
   let p := g_d s * RGERG * g_t s * g_z s in
   let s := set_g_dpddsave (RGERG * g_t s * (f1 + f2 * ar01 + ar02)) s in
   Some (s, p))
  = Some (set_g_dpddsave (gpdpdd l (g_t s)) (set_g_z (gpz l) s), gpp l (g_t s) (g_d s)).
Proof. intros ->. rewrite arT_01, arT_02. reflexivity. Qed.

Lemma galr_ar itau c s : g_ar (galr_st itau c s) = arT itau (gal_terms c s).
Proof. reflexivity. Qed.
Lemma galr_t itau c s : g_t (galr_st itau c s) = g_t s.
Proof. reflexivity. Qed.
Lemma galr_d itau c s : g_d (galr_st itau c s) = g_d s.
Proof. reflexivity. Qed.

Lemma gpressure_ok c s : gwf c s ->
  gerg_pressure s = Some (gpress_st c s, gpp (gal_terms c s) (g_t s) (g_d s)).
Proof.
  intros H. unfold gerg_pressure. refine (bind_some _ _ _ _ (galphar_ok 0 c s H) _).
  exact (gpress_tail _ _ (galr_ar 0 c s)).
Qed.

(* writes to fields that are neither inputs nor caches keep gwf *)
Definition gwf_fields_eq (s s' : Gerg) : Prop :=
  gstatic s' /\ g_x s' = g_x s /\ g_xold s' = g_xold s /\ length (g_a0 s') = 3%nat
  /\ g_ar s' = g_ar s /\ g_drold s' = g_drold s /\ g_trold s' = g_trold s /\ g_told s' = g_told s
  /\ g_trold2 s' = g_trold2 s /\ g_taup s' = g_taup s /\ g_taupijk s' = g_taupijk s.
Lemma gwf_ext c s s' : gwf c s -> gwf_fields_eq s s' -> gwf c s'.
Proof.
  intros [Hs H1 H2 H3 H4 H5 H6 H7 H8 H9 H10] (E0 & E1 & E2 & E3 & E4 & E5 & E6 & E7 & E8 & E9 & E10).
  constructor; trivial; try congruence. destruct H4 as [f H4]. exists f. congruence.
Qed.
Ltac gwf_setter :=
  match goal with H : gwf ?c ?s |- gwf ?c ?s' =>
    apply (gwf_ext c s s' H); unfold gwf_fields_eq; gsimp; repeat split; trivial;
    try (apply (gw_a0 _ _ H)); try (apply (gstatic_ext s s' (gw_static _ _ H)); reflexivity)
  end.
Lemma gwf_set_z c s v : gwf c s -> gwf c (set_g_z v s).
Proof. intros H. gwf_setter. Qed.
Lemma gwf_set_save c s v : gwf c s -> gwf c (set_g_dpddsave v s).
Proof. intros H. gwf_setter. Qed.
Lemma gwf_set_d c s v : gwf c s -> gwf c (set_g_d v s).
Proof. intros H. gwf_setter. Qed.
Lemma gwf_set_mm c s v : gwf c s -> gwf c (set_g_mm v s).
Proof. intros H. gwf_setter. Qed.
Lemma gwf_set_a0 c s l : length l = 3%nat -> gwf c s -> gwf c (set_g_a0 l s).
Proof. intros Hl H. gwf_setter. Qed.

Lemma gwf_press c s : gwf c s -> gwf (gal_cache c s) (gpress_st c s).
Proof. intros H. apply gwf_set_save, gwf_set_z, gwf_alr. exact H. Qed.

(* molar mass *)
Lemma gmm_ok s : length (g_x s) = 22%nat ->
  gerg_molar_mass s = Some (set_g_mm (gmm (xf (g_x s))) s).
Proof.
  intros Hx. unfold gerg_molar_mass.
  change (length G_MMI_GERG) with 22%nat.
  rewrite (for_fold (fun i a => a + xf (g_x s) i * lv G_MMI_GERG i)); [reflexivity|].
  intros i a Hi. rewrite (get_nth (g_x s) i f0) by lia. cbn [bind].
  rewrite lget_lv by (cbn; lia). reflexivity.
Qed.

(* ideal gas part *)
Lemma galpha0_hyp_ok s i : gstatic s -> (i < 22)%nat -> galpha0_hyp s i = Some (ghyp (g_t s) i).
Proof.
  intros Hs Hi. unfold galpha0_hyp, ghyp.
  rewrite (for_fold (fun j st => ghyp_step (g_t s) i j st)); [reflexivity|].
  intros j [[h0 h1] h2] Hj.
  rewrite (lget2_lv 22 8) by (reflexivity || lia). cbn [bind]. unfold ghyp_step.
  destruct (lv2 G_TH0I i j >? GEPSILON); [|reflexivity].
  rewrite (gs_n0i s Hs), get2_tab2 by lia. cbn [bind].
  destruct (_ || _); reflexivity.
Qed.

Lemma galpha0_ok c s : gwf c s ->
  gerg_alpha0 s = Some (set_g_a0 (ga0 (xf (g_x s)) (g_t s) (g_d s)) s).
Proof.
  intros H. unfold gerg_alpha0. change (length G_TH0I) with 22%nat.
  rewrite (for_fold (fun i st => ga0_step (xf (g_x s)) (g_t s) (g_d s) i st)).
  - cbn [bind]. change (22 - 1)%nat with 21%nat.
    unfold ga0. fold (ga0sum (xf (g_x s)) (g_t s) (g_d s)).
    destruct (ga0sum _ _ _) as [[a0 a1] a2].
    destruct (g_a0 s) as [|u [|v [|w [|]]]] eqn:E; pose proof (gw_a0 _ _ H) as Hl;
      rewrite E in Hl; cbn in Hl; try discriminate. reflexivity.
  - intros i [[a0 a1] a2] Hi.
    rewrite (get_nth (g_x s) i f0) by (rewrite (gw_x _ _ H); lia). cbn [bind].
    unfold ga0_step, act. fold (xf (g_x s) i).
    destruct (xf (g_x s) i >? GEPSILON); [|reflexivity].
    rewrite galpha0_hyp_ok by (apply H || lia). cbn [bind].
    destruct (ghyp (g_t s) i) as [[h0 h1] h2].
    rewrite (gs_n0i s (gw_static _ _ H)), !get2_tab2 by lia. reflexivity.
Qed.

Lemma ga0_length X t d : length (ga0 X t d) = 3%nat.
Proof. unfold ga0. destruct (ga0sum X t d) as [[a0 a1] a2]. reflexivity. Qed.

Local Opaque ga0 gmm.
(* properties: the values written *)
Section Props.
Variables (l : list (nat -> F)) (X : nat -> F) (t d : F).
Definition grt := RGERG * t.
Definition gqz := f1 + arS l 1.
Definition gqp := d * grt * gqz.
Definition gqdpdd := grt * (f1 + f2 * arS l 1 + arS l 2).
Definition gqdpdt := d * RGERG * (f1 + arS l 1 - arS l 5).
Definition gqd2pdtd := RGERG * (f1 + f2 * arS l 1 + arS l 2 - f2 * arS l 5 - arS l 6).
Definition gqa := grt * xf (ga0 X t d) 0 + arS l 0.
Definition gqg := grt * (f1 + arS l 1 + xf (ga0 X t d) 0 + arS l 0).
Definition gqu := grt * (xf (ga0 X t d) 1 + arS l 4).
Definition gqh := grt * (f1 + arS l 1 + xf (ga0 X t d) 1 + arS l 4).
Definition gqs := RGERG * (xf (ga0 X t d) 1 + arS l 4 - xf (ga0 X t d) 0 - arS l 0).
Definition gqcv := (- RGERG) * (xf (ga0 X t d) 2 + arS l 7).
Definition gqdense := d >? GEPSILON.
Definition gqcp :=
  if gqdense then gqcv + t * (gqdpdt / d) * (gqdpdt / d) / gqdpdd else gqcv + RGERG.
Definition gqd2pdd2 :=
  if gqdense then grt * (f2 * arS l 1 + f4 * arS l 2 + arS l 3) / d else f0.
Definition gqjt :=
  if gqdense then (t / d * gqdpdt / gqdpdd - f1) / gqcp / d else flit (L 1 20).
Definition gqw2 := flit (L 1000 0) * gqcp / gqcv * gqdpdd / gmm X.
Definition gqw := fsqrt (if gqw2 <? f0 then f0 else gqw2).
Definition gqkappa := fpowi gqw 2 * gmm X / (grt * flit (L 1000 0) * gqz).
End Props.

(* all result fields at once *)
Definition gset_results (z dpdd d2 d2dt dpdt u h ss cv cp w g jt kappa a : F) (s : Gerg) : Gerg :=
  mkGerg (g_t s) (g_p s) (g_d s) z (g_mm s) dpdd d2 d2dt dpdt u h ss cv cp w g jt kappa
    (g_x s) (g_drold s) (g_trold s) (g_told s) (g_trold2 s) (g_xold s) a (g_a0 s) (g_ar s)
    (g_dpddsave s) (g_taup s) (g_taupijk s) (g_coik s) (g_doik s) (g_toik s) (g_dijk s)
    (g_tijk s) (g_cijk s) (g_eijk s) (g_gijk s) (g_nijk s) (g_n0i s) (g_bvij s) (g_gvij s)
    (g_btij s) (g_gtij s).
Definition gres_st (l : list (nat -> F)) (X : nat -> F) (t d : F) (s : Gerg) : Gerg :=
  gset_results (gqz l) (gqdpdd l t) (gqd2pdd2 l t d) (gqd2pdtd l) (gqdpdt l d) (gqu l X t d)
    (gqh l X t d) (gqs l X t d) (gqcv l X t d) (gqcp l X t d) (gqw l X t d) (gqg l X t d)
    (gqjt l X t d) (gqkappa l X t d) (gqa l X t d) s.

Lemma gprops_first_eq r00 r01 r02 r10 r11 r12 r20 a0 a1 a2 s :
  let rt := RGERG * g_t s in
  gprops_first r00 r01 r02 r10 r11 r12 r20 a0 a1 a2 s
  = gset_results (f1 + r01) (rt * (f1 + f2 * r01 + r02)) (g_d2p_dd2 s)
      (RGERG * (f1 + f2 * r01 + r02 - f2 * r11 - r12)) (g_d s * RGERG * (f1 + r01 - r11))
      (rt * (a1 + r10)) (rt * (f1 + r01 + a1 + r10)) (RGERG * (a1 + r10 - a0 - r00))
      ((- RGERG) * (a2 + r20)) (g_cp s) (g_w s) (rt * (f1 + r01 + a0 + r00)) (g_jt s)
      (g_kappa s) (rt * a0 + r00) s.
Proof. destruct s. reflexivity. Qed.

Lemma gprops_tail_ok l X t d s :
  g_ar s = arT 1 l -> g_a0 s = ga0 X t d -> g_t s = t -> g_d s = d -> g_mm s = gmm X ->
  gprops_results s = Some (gres_st l X t d s, gqp l t d).
Proof.
  intros Har Ha0 Ht Hd Hm. unfold gprops_results. rewrite Har, Ha0.
  rewrite arT_00, arT_01, arT_02, arT_03, arT_10, arT_11, arT_12, arT_20. cbn [bind].
  rewrite !(get_nth (ga0 X t d) _ f0) by (rewrite ga0_length; lia).
  cbn [bind].
  fold (xf (ga0 X t d) 0). fold (xf (ga0 X t d) 1). fold (xf (ga0 X t d) 2).
  apply f_equal. clear Har Ha0. unfold gres_st.
  unfold gqkappa, gqw, gqw2, gqjt, gqcp, gqd2pdd2, gqdense.
  unfold gqu, gqcv, gqs, gqa, gqh, gqg, gqd2pdtd, gqdpdt, gqdpdd, gqp, gqz, grt.
  generalize (xf (ga0 X t d) 0) (xf (ga0 X t d) 1) (xf (ga0 X t d) 2) (arS l 0) (arS l 1)
    (arS l 2) (arS l 3) (arS l 4) (arS l 5) (arS l 6) (arS l 7).
  intros a0 a1 a2 r00 r01 r02 r03 r10 r11 r12 r20. rewrite <- Hm. clear Hm.
  subst t d. rewrite gprops_first_eq. cbv zeta. unfold gset_results. gsimp.
  destruct (g_d s >? GEPSILON); reflexivity.
Qed.

Definition gpre_st c (s : Gerg) : Gerg :=
  galr_st 1 c (set_g_a0 (ga0 (xf (g_x s)) (g_t s) (g_d s)) (set_g_mm (gmm (xf (g_x s))) s)).
Definition gprops_st (c : gcache) (s : Gerg) : Gerg :=
  gres_st (gal_terms c s) (xf (g_x s)) (g_t s) (g_d s) (gpre_st c s).

Lemma gpre_wf c s : gwf c s -> gwf (gal_cache c s) (gpre_st c s).
Proof.
  intros H. apply (gwf_set_mm _ _ (gmm (xf (g_x s)))) in H.
  apply (gwf_set_a0 _ _ _ (ga0_length (xf (g_x s)) (g_t s) (g_d s))) in H.
  apply (gwf_alr 1) in H. exact H.
Qed.

Lemma gproperties_ok c s : gwf c s ->
  gerg_properties s = Some (gprops_st c s, gqp (gal_terms c s) (g_t s) (g_d s)).
Proof.
  intros H. unfold gerg_properties. rewrite gmm_ok by apply H. cbn [bind].
  pose proof (gwf_set_mm _ _ (gmm (xf (g_x s))) H) as H1.
  rewrite (galpha0_ok _ _ H1). cbn [bind]. gsimp.
  pose proof (gwf_set_a0 _ _ _ (ga0_length (xf (g_x s)) (g_t s) (g_d s)) H1) as H2.
  rewrite (galphar_ok 1 _ _ H2). cbn [bind]. clear H1 H2.
  apply (gprops_tail_ok (gal_terms c s) (xf (g_x s)) (g_t s) (g_d s)); reflexivity.
Qed.

Lemma gwf_props c s : gwf c s -> gwf (gal_cache c s) (gprops_st c s).
Proof.
  intros H. apply gpre_wf in H. unfold gprops_st. revert H. generalize (gpre_st c s).
  intros s1 H1. apply (gwf_ext _ _ _ H1). unfold gwf_fields_eq. repeat split; trivial;
  try apply (gw_a0 _ _ H1);
  apply (gstatic_ext s1 _ (gw_static _ _ H1)); reflexivity.
Qed.

(* density *)
Lemma pcp_ok s : length (g_x s) = 22%nat ->
  pseudocriticalpoint s = Some (gdcx (xf (g_x s)), gtcx (xf (g_x s))).
Proof.
  intros Hx. unfold pseudocriticalpoint, for_incl, NC_GERG.
  rewrite (for_fold (fun i st => (fst st + xf (g_x s) i * lv G_TC i, snd st + xf (g_x s) i / lv G_DC i))).
  - cbn [bind]. unfold gdcx, gtcx. change (22 - 1)%nat with 21%nat.
    change (fold_left _ (seq 1 21) (f0, f0)) with (gpc (xf (g_x s))).
    destruct (gpc (xf (g_x s))) as [a b]. reflexivity.
  - intros i [a b] Hi. rewrite (get_nth (g_x s) i f0) by lia. cbn [bind].
    rewrite !lget_lv by (cbn; lia). reflexivity.
Qed.

Lemma gwf_dens_start iflag dcx c s : gwf c s -> gwf c (gdensity_start iflag dcx s).
Proof.
  intros H. unfold gdensity_start. destruct (_ >? _); [|now apply gwf_set_d].
  cbv zeta. destruct (_ =? _)%Z; repeat apply gwf_set_d; assumption.
Qed.

Definition live (r : option (Gerg * result DensityError)) : Prop :=
  exists s' r' c', r = Some (s', r') /\ gwf c' s'.

Lemma gdensity_fail_wf c s : gwf c s -> live (Some (gdensity_fail s)).
Proof.
  intros H. unfold gdensity_fail. do 3 eexists. split; [reflexivity|].
  apply gwf_set_d. eassumption.
Qed.

Lemma gdensity_check_wf c s : gwf c s -> live (gdensity_check s).
Proof.
  intros H. unfold gdensity_check. rewrite (gproperties_ok c s H). cbn [bind].
  apply gwf_props in H. destruct (_ || _).
  - eapply gdensity_fail_wf; eassumption.
  - do 3 eexists. split; [reflexivity|]. eassumption.
Qed.

Lemma gdensity_step_wf iflag dcx plog it ifail vlog c s k : gwf c s ->
  (forall ifail vlog c s, gwf c s -> live (k ifail vlog s)) ->
  live (gdensity_step iflag dcx plog it ifail vlog s k).
Proof.
  intros H Hk. unfold gdensity_step. cbv zeta.
  apply (gwf_set_d _ _ (fexp (- vlog))) in H. rewrite (gpressure_ok _ _ H). cbn [bind].
  apply gwf_press in H. destruct (_ || _); [eapply Hk; eassumption|].
  destruct (fabs _ <? _); [|eapply Hk; eassumption].
  destruct (_ <? f0); [eapply Hk; eassumption|].
  match goal with |- context [set_g_d ?v ?s] => apply (gwf_set_d _ s v) in H end.
  destruct (0 <? iflag)%Z; [eapply gdensity_check_wf; eassumption|].
  do 3 eexists. split; [reflexivity|]. eassumption.
Qed.

Lemma gdensity_loop_wf n iflag dcx plog : forall it nfail ifail vlog c s, gwf c s ->
  live (gdensity_loop n iflag dcx plog it nfail ifail vlog s).
Proof.
  induction n as [|n IH]; intros it nfail ifail vlog c s H; cbn [gdensity_loop].
  - eapply gdensity_fail_wf; eassumption.
  - destruct (negb _ || _ || _ || _ || _).
    + destruct (Nat.ltb 2 nfail); [eapply gdensity_fail_wf; eassumption|].
      cbv zeta. eapply gdensity_step_wf; [apply gwf_set_d; eassumption|].
      intros; eapply IH; eassumption.
    + eapply gdensity_step_wf; [eassumption|]. intros; eapply IH; eassumption.
Qed.

Lemma gdensity_wf iflag c s : gwf c s ->
  exists s' r c', gerg_density iflag s = Some (s', r) /\ gwf c' s'.
Proof.
  intros H. unfold gerg_density. rewrite pcp_ok by apply H. cbn [bind].
  apply (gdensity_loop_wf 50 iflag _ _ 1 0 false _ c). now apply gwf_dens_start.
Qed.

(* set_composition *)
Lemma gset_composition_ok c s : length (g_x s) = 22%nat ->
  gerg_set_composition c s
  = Some (match comp_check c with
          | RErr e => (s, RErr e)
          | ROk => (set_g_x (f0 :: comp_slots c) s, ROk)
          end).
Proof.
  intros H. unfold gerg_set_composition. destruct (comp_check c); [|reflexivity].
  revert H. generalize (g_x s). intros l H.
  do 22 (destruct l as [|? l]; [discriminate H|]). destruct l; [reflexivity|discriminate H].
Qed.
End Eval.

Lemma gwf_default {A : Arith} : @gwf A gp_zero gc_zero gerg_default.
Proof.
  constructor; try reflexivity.
  - apply gerg_default_static.
  - exists (fun _ _ => f0). apply (rep2_tab 4 4 f0).
Qed.
Lemma gwf_fresh {A : Arith} : @gwf A gp_new gc_zero gerg_fresh.
Proof.
  constructor; try reflexivity.
  - apply gerg_fresh_static.
  - exists (fun _ _ => f0). apply (rep2_tab 4 4 f0).
Qed.
