(* The pressure of the GERG-2008 model is the published equation (SpecGerg). *)
From Coq Require Import Reals ZArith List Bool Lra Lia.
From Coquelicot Require Import Coquelicot.
From Verif Require Import FArith Prelude Tab Composition DetailModel DetailPure GergTables GergModel GergPure
  GergRefine GergEval Api ApiSafe BasicProofs HistoryGerg ArithR RSum SpecReal Thermo DetailReal DetailThermo GergReal GergIdeal GergThermo
  SpecDetail SpecGerg DetailEos.
Import ListNotations.
Local Open Scope R_scope.
Local Existing Instance ArithR.
Local Instance PN : @GParams ArithR := gp_new.

Lemma sumf_rsum a n f : sumf a n f = rsum f (seq (1 + a) n).
Proof.
  unfold sumf. rewrite sum_rsum. replace (seq (1 + a) n) with (map (fun m => a + S m)%nat (seq 0 n)).
  - symmetry. apply rsum_map.
  - assert (forall n b, map (fun m => a + S m)%nat (seq b n) = seq (1 + a + b) n) as H.
    { clear. induction n as [|n IH]; intros b; [reflexivity|]. cbn [seq map]. rewrite IH.
      f_equal; [lia|f_equal; lia]. }
    rewrite H. f_equal. lia.
Qed.

(* tables *)
Lemma entry_alookup {T} (l : list ((nat * nat) * T)) i j : entry l i j = alookup l i j.
Proof.
  unfold entry, alookup. induction l as [|e l IH] using rev_ind; [reflexivity|].
  rewrite rev_app_distr, fold_left_app. cbn [rev app find fold_left].
  destruct (_ && _)%bool; [reflexivity|exact IH].
Qed.
Lemma cell_aval l i j : @aval ArithR l i j f0 = cell l i j.
Proof. unfold aval, cell. rewrite entry_alookup. destruct (alookup l i j); reflexivity. Qed.

Definition used (i k : nat) : bool := (Nat.leb 1 k && Nat.leb k (kpol i + kexp i))%bool.
Lemma forallb2_at (f : nat -> nat -> bool) l l' i j :
  forallb (fun i => forallb (f i) l') l = true -> In i l -> In j l' -> f i j = true.
Proof. intros H Hi Hj. rewrite forallb_forall in H. specialize (H i Hi). rewrite forallb_forall in H. auto. Qed.
Definition exps_at_ok (i k : nat) : bool := if used i k then
     (Nat.eqb (nv2 G_DOIK i k) (dexp i k) && Nat.leb 1 (dexp i k) && Nat.eqb (nv2 G_COIK i k) (cexp i k)
      && (Nat.leb k (kpol i) || Nat.leb 1 (cexp i k))
      && match expo G_setup_toik_all G_setup_toik_long G_setup_toik i k with
         | Some l => lit_eqb (nth k (nth i G_TOIK []) (L 0 0)) l
                     && lit_eqb (nth k (nth (if short_form i then 5 else i) G_TOIK []) (L 0 0)) l
         | None => false end)%bool else true.
Lemma exps_checked : forallb (fun i => forallb (exps_at_ok i) (seq 0 25)) (seq 1 21) = true.
Proof. vm_compute. reflexivity. Qed.
Definition mused (m k : nat) : bool := (Nat.leb 1 k && Nat.leb k (kpolij m + kexpij m))%bool.
Definition models : list nat := [1; 2; 3; 4; 5; 6; 7; 10]%nat.
Definition mexps_ok : bool :=
  forallb (fun m => forallb (fun k => if mused m k then
     (Nat.eqb (nv2 G_DIJK m k) (ncell G_setup_dijk m k) && Nat.leb 1 (ncell G_setup_dijk m k))%bool
     else true) (seq 0 13)) models.
Lemma mexps_checked : mexps_ok = true. Proof. vm_compute. reflexivity. Qed.
Definition mnumb_ok : bool := forallb (fun i => forallb (fun j =>
  existsb (Nat.eqb (mnumb i j)) (0%nat :: models)) (seq 0 22)) (seq 0 22).
Lemma mnumb_checked : mnumb_ok = true. Proof. vm_compute. reflexivity. Qed.
Lemma mnumb_in i j : (i < 22)%nat -> (j < 22)%nat -> (0 < mnumb i j)%nat -> In (mnumb i j) models.
Proof.
  intros Hi Hj Hm. pose proof mnumb_checked as H. unfold mnumb_ok in H. rewrite forallb_forall in H.
  specialize (H i ltac:(apply in_seq; lia)). rewrite forallb_forall in H.
  specialize (H j ltac:(apply in_seq; lia)). apply existsb_exists in H as (m & Hm' & E).
  apply Nat.eqb_eq in E. rewrite E in *. destruct Hm' as [<-|Hm']; [lia|exact Hm'].
Qed.
Lemma kk_lt i : (1 <= i < 22)%nat -> (kpol i + kexp i < 25)%nat.
Proof. intros Hi. do 22 (destruct i as [|i]; [cbv; lia|]). lia. Qed.
Lemma mk_lt m : In m models -> (kpolij m + kexpij m < 13)%nat.
Proof. unfold models. intros H. repeat (destruct H as [<-|H]; [cbv; lia|]). destruct H. Qed.
Lemma exps_at i k : (1 <= i < 22)%nat -> (1 <= k <= kpol i + kexp i)%nat ->
  nv2 G_DOIK i k = dexp i k /\ (1 <= dexp i k)%nat /\ nv2 G_COIK i k = cexp i k /\
  ((kpol i < k)%nat -> (1 <= cexp i k)%nat) /\ @lv2 ArithR G_TOIK i k = texp i k /\
  @lv2 ArithR G_TOIK (if short_form i then 5 else i) k = texp i k.
Proof.
  intros Hi Hk. pose proof (kk_lt i Hi).
  pose proof (forallb2_at _ _ _ i k exps_checked ltac:(apply in_seq; lia) ltac:(apply in_seq; lia)) as H0.
  unfold exps_at_ok in H0.
  assert (used i k = true) as U. { apply andb_true_iff. split; apply Nat.leb_le; lia. }
  rewrite U in H0. rewrite !andb_true_iff, orb_true_iff in H0.
  destruct H0 as [[[[H1 H2] H3] H4] H5]. apply Nat.eqb_eq in H1, H3. apply Nat.leb_le in H2. rewrite !Nat.leb_le in H4.
  unfold texp. destruct (expo G_setup_toik_all _ _ i k) as [l|]; [|discriminate].
  apply andb_true_iff in H5 as [H5 H6]. apply lit_eqb_ok in H5, H6.
  unfold lv2. rewrite H5, H6. rewrite H1, H3. split; [reflexivity|]. split; [exact H2|]. split; [reflexivity|].
  split; [lia|]. split; reflexivity.
Qed.
Lemma mexps_at m k : In m models -> (1 <= k <= kpolij m + kexpij m)%nat ->
  nv2 G_DIJK m k = ncell G_setup_dijk m k /\ (1 <= ncell G_setup_dijk m k)%nat.
Proof.
  intros Hm Hk. pose proof (mk_lt m Hm). pose proof mexps_checked as H0. unfold mexps_ok in H0.
  rewrite forallb_forall in H0. specialize (H0 m Hm). rewrite forallb_forall in H0.
  specialize (H0 k ltac:(apply in_seq; lia)).
  assert (mused m k = true) as U. { apply andb_true_iff. split; apply Nat.leb_le; lia. }
  rewrite U in H0. apply andb_true_iff in H0 as [H1 H2]. apply Nat.eqb_eq in H1. apply Nat.leb_le in H2. now split.
Qed.

Lemma gdelp_pow (del : R) k : (1 <= k)%nat -> @gdelp ArithR del k = del ^ k.
Proof.
  destruct k as [|k]; [lia|]. intros _. induction k as [|k IH]; [symmetry; apply pow_1|].
  change ((@gdelp ArithR del (S k) : R) * del = del ^ S (S k)). rewrite IH. cbn [pow]. ring.
Qed.
Lemma gexpd_exp (del : R) k : (1 <= k)%nat -> @gexpd ArithR del k = exp (- del ^ k).
Proof. intros H. rewrite <- gdelp_pow by assumption. destruct k; [lia|reflexivity]. Qed.

Lemma act_ac (x : nat -> R) i : @act ArithR (x i) = true -> ac x i = x i.
Proof. unfold act. rar. intros H. apply Rltb_true in H. rewrite glit15 in H. unfold ac. destruct (Rlt_dec _ _); [reflexivity|contradiction]. Qed.
Lemma nact_ac (x : nat -> R) i : @act ArithR (x i) = false -> ac x i = 0.
Proof. unfold act. rar. intros H. apply Rltb_false in H. rewrite glit15 in H. unfold ac. destruct (Rlt_dec _ _); [lra|reflexivity]. Qed.

Section Sum.
Variables (xl : list R) (t d : R).
Local Notation X := (@xf ArithR xl).
Local Notation del := (d / @gdr ArithR PN X).
Local Notation tau := (@gtr ArithR PN X / t).
Lemma pure_alpha i : (1 <= i < 22)%nat ->
  rsum (fun c => c 0%nat) (@pure_terms ArithR PN X del (@cTP ArithR PN xl t) i) = ac X i * alpha_o del tau i.
Proof.
  intros Hi. unfold pure_terms. destruct (@act ArithR (X i)) eqn:E.
  2: { apply nact_ac in E. rewrite E. change (0 = 0 * alpha_o del tau i). ring. }
  rewrite (act_ac X i E), rsum_app, !rsum_map. unfold alpha_o.
  rewrite !sumf_rsum, Rmult_plus_distr_l, <- !rsum_scal.
  f_equal; apply rsum_ext; intros k Hk; apply in_seq in Hk; fold (kpol i) in *; fold (kexp i) in *.
  - destruct (exps_at i k Hi ltac:(lia)) as (E1 & E2 & E3 & E4 & E5 & E6).
    unfold pterm, pol_c, cTP, clntau. cbn [q_doik q_toik PN gp_new]. rewrite E1, E6, gdelp_pow by assumption. unfold Rpower, tb2. rar. unfold lv2. rar. ring.
  - destruct (exps_at i k Hi ltac:(lia)) as (E1 & E2 & E3 & E4 & E5 & E6).
    unfold eterm, exp_c, cTP, clntau. cbn [q_doik q_toik q_coik PN gp_new]. rewrite E1, E3, E6, gdelp_pow, gexpd_exp by (assumption || (apply E4; lia)).
    unfold Rpower, tb2. rar. unfold lv2. rar. ring.
Qed.
End Sum.
Section Mix.
Variables (xl : list R) (t d : R).
Local Notation X := (@xf ArithR xl).
Local Notation del := (d / @gdr ArithR PN X).
Local Notation tau := (@gtr ArithR PN X / t).
Lemma gec_exp (c e b g D : R) : - c * D ^ 2 + (2 * c * e - b) * D + (- c * (e * e) + b * g)
  = - c * (D - e) ^ 2 - b * (D - g).
Proof. ring. Qed.
Lemma mix_alpha i j : (1 <= i < 22)%nat -> (1 <= j < 22)%nat -> @act ArithR (X i) = true ->
  rsum (fun c => c 0%nat) (@mix_terms ArithR PN X del (@clntau ArithR PN xl t) (@cTM ArithR PN xl t) i j)
  = departure (ac X) del tau i j.
Proof.
  intros Hi Hj Ai. unfold mix_terms, departure. fold (nv2 G_MNUMB i j). fold (mnumb i j).
  destruct (@act ArithR (X j)) eqn:E.
  2: { apply nact_ac in E. rewrite E. destruct (mnumb i j); [reflexivity|].
       change (0 = ac X i * 0 * tb2 G_FIJ i j * alpha_m del tau (S n)). ring. }
  rewrite (act_ac X j E), (act_ac X i Ai).
  destruct (mnumb i j) as [|m'] eqn:Em; [reflexivity|].
  pose proof (mnumb_in i j (proj2 Hi) (proj2 Hj) ltac:(lia)) as Hm. rewrite Em in Hm.
  set (m := S m') in *. change (Nat.ltb 0 m) with true. cbv iota.
  assert (1 <= m)%nat as Hm1 by (unfold m; lia). clearbody m.
  rewrite rsum_app, !rsum_map. unfold alpha_m.
  rewrite !sumf_rsum, Rmult_plus_distr_l, <- !rsum_scal.
  f_equal; apply rsum_ext; intros k Hk; apply in_seq in Hk; fold (kpolij m) in *; fold (kexpij m) in *.
  - destruct (mexps_at m k Hm ltac:(lia)) as (E1 & E2).
    unfold mpterm, pol_c, cTM, clntau. cbn [q_dijk q_tijk q_nijk PN gp_new]. rewrite E1, gdelp_pow by assumption.
    rewrite !cell_aval. unfold Rpower, tb2. rar. unfold lv2. rar. ring.
  - destruct (mexps_at m k Hm ltac:(lia)) as (E1 & E2).
    unfold meterm, mexp_c, clntau. cbn [q_dijk q_tijk q_nijk q_cijk q_eijk q_gijk PN gp_new].
    unfold Gcijk, Geijk, Ggijk, ingec.
    assert ((Nat.leb 1 m && Nat.leb 1 k)%bool = true) as ->.
    { apply andb_true_iff. split; apply Nat.leb_le; lia. }
    rewrite !cell_aval. rewrite E1, !gdelp_pow by (assumption || lia). unfold f2. rar. cbn [Rlit].
    rewrite powi2. rewrite <- gec_exp. unfold Rpower, tb2, lv2. rar.
    rewrite exp_plus. ring.
Qed.
Lemma pairs1_rows f : rsum (fun i => rsum (fun j => f i j) (seq (i + 1) (21 - i))) (seq 1 20) = pairs1 21 f.
Proof.
  unfold pairs1. rewrite <- pairs_rows. change (seq 0 21) with (seq 0 20 ++ [20%nat]).
  rewrite rsum_app, rsum_cons. change (seq 21 (21 - 21)) with (@nil nat). change (rsum _ []) with 0.
  change (rsum _ []) with 0. rewrite !Rplus_0_r, <- seq_shift, rsum_map. apply rsum_ext. intros i Hi. apply in_seq in Hi.
  rewrite Nat.add_1_r, <- seq_shift, rsum_map. reflexivity.
Qed.
Lemma departure_0 x D T i j : x i = 0 -> departure x D T i j = 0.
Proof. intros H. unfold departure. rewrite H. destruct (nth j _ _); [reflexivity|ring]. Qed.
Lemma AR0_alphar : @AR PN xl 0 t d = alphar (ac X) del tau.
Proof.
  unfold AR, can_terms, gterms. rewrite arS_rsum, rsum_app. unfold alphar. apply f_equal2.
  - rewrite rsum_flat_map, sumf_rsum. apply rsum_ext. intros i Hi. apply in_seq in Hi.
    apply pure_alpha. lia.
  - rewrite rsum_flat_map, <- pairs1_rows. apply rsum_ext. intros i Hi. apply in_seq in Hi.
    unfold mixrow. destruct (@act ArithR (X i)) eqn:E.
    + rewrite rsum_flat_map. apply rsum_ext. intros j Hj. apply in_seq in Hj. apply mix_alpha; [lia|lia|exact E].
    + symmetry. rewrite (rsum_ext (fun j => departure _ _ _ i j) (fun _ => 0)); [rewrite rsum_0; reflexivity|]. intros j Hj. apply departure_0.
      now apply nact_ac.
Qed.
End Mix.

(* reducing functions *)
Section Red.
Variable X : nat -> R.
Let x := ac X.
Definition vterm i j : R := 2 * x i * x j * tb2 G_GVIJ i j * (x i + x j) / (cell G_setup_bvij i j ^ 2 * x i + x j).
Definition tterm i j : R := 2 * x i * x j * tb2 G_GTIJ i j * (x i + x j) / (tb2 G_BTIJ i j * x i + x j).
Lemma rfold_eq i l : (1 <= i)%nat -> @act ArithR (X i) = true -> (forall j, In j l -> (i < j < 22)%nat) ->
  forall v w : R, fold_left (fun st j => @rstep ArithR PN X i j st) l (v, w, @f2 ArithR)
  = (v + rsum (vterm i) l, w + rsum (tterm i) l, @f2 ArithR).
Proof.
  intros Hi Ai. induction l as [|j l IH]; intros Hl v w.
  - cbn [fold_left]. change (rsum _ []) with 0. change (rsum (tterm i) []) with 0. now rewrite !Rplus_0_r.
  - cbn [fold_left]. rewrite !rsum_cons. specialize (IH (fun j H => Hl j (or_intror H))).
    pose proof (Hl j (or_introl eq_refl)) as Hj. unfold rstep at 2. destruct (@act ArithR (X j)) eqn:E.
    + rar. rewrite IH. rewrite <- !Rplus_assoc. unfold vterm, tterm.
      unfold x. rewrite (act_ac X i Ai), (act_ac X j E). cbn [q_bvij PN gp_new]. unfold Gbvij, inred.
      assert ((Nat.leb 1 i && Nat.leb i j)%bool = true) as ->.
      { apply andb_true_iff. split; apply Nat.leb_le; lia. }
      assert (Nat.eqb i j = false) as -> by (apply Nat.eqb_neq; lia).
      rewrite cell_aval. rar. rewrite powi2. unfold f2, lv2, tb2. rar. cbn [Rlit].
      apply f_equal2; [apply f_equal2|reflexivity]; apply f_equal2; trivial; apply f_equal2; trivial;
      unfold Rdiv; apply f_equal2; trivial; try ring; apply f_equal; ring.
    + apply nact_ac in E. rewrite IH. unfold vterm, tterm. unfold x. rewrite E. unfold Rdiv.
      rewrite !Rmult_0_r, !Rmult_0_l, !Rplus_0_l. reflexivity.
Qed.
Definition one_lit (l : lit) : bool := lit_eqb l (L 1 0).
Lemma bt_diag : forallb (fun i => one_lit (nth i (nth i G_BTIJ []) (L 0 0))) (seq 1 21) = true.
Proof. reflexivity. Qed.
Lemma bt_one i : (1 <= i < 22)%nat -> @lv2 ArithR G_BTIJ i i = 1.
Proof.
  intros Hi. pose proof bt_diag as H. rewrite forallb_forall in H.
  specialize (H i ltac:(apply in_seq; lia)). apply lit_eqb_ok in H. unfold lv2. rewrite H. reflexivity.
Qed.
Lemma rrow_eq i : (1 <= i < 22)%nat -> @act ArithR (X i) = true -> forall v w : R,
  @rrow ArithR PN X i (v, w)
  = (v + (x i ^ 2 * tb2 G_GVIJ i i + rsum (vterm i) (seq (i + 1) (21 - i))),
     w + (x i ^ 2 * tb2 G_GTIJ i i + rsum (tterm i) (seq (i + 1) (21 - i)))).
Proof.
  intros Hi Ai v w. unfold rrow. replace (22 - i)%nat with (S (21 - i)) by lia. cbn [seq fold_left].
  replace (i + 1)%nat with (S i) by lia.
  assert (@rstep ArithR PN X i i (v, w, @f1 ArithR) = (v + x i ^ 2 * tb2 G_GVIJ i i, w + x i ^ 2 * tb2 G_GTIJ i i, @f2 ArithR)) as E.
  { unfold rstep. rewrite Ai. unfold x. rewrite (act_ac X i Ai). pose proof (act_pos X i Ai) as Xi.
    cbn [q_bvij PN gp_new]. unfold Gbvij, inred.
    assert ((Nat.leb 1 i && Nat.leb i i)%bool = true) as ->.
    { apply andb_true_iff. split; apply Nat.leb_le; lia. }
    rewrite Nat.eqb_refl, bt_one by assumption. unfold f1, tb2, lv2. rar. cbn [Rlit]. 
    apply f_equal2; [apply f_equal2|reflexivity]; apply f_equal2; trivial; field; lra. }
  etransitivity; [apply f_equal, f_equal; exact E|].
  rewrite rfold_eq; [|lia|assumption|intros j Hj; apply in_seq in Hj; lia].
  cbn [fst]. now rewrite !Rplus_assoc.
Qed.
Lemma gred_eq : @gred ArithR PN X = (vred x, tred x).
Proof.
  unfold gred, vred, tred. rewrite !sumf_rsum.
  change (pairs1 21 (fun i j => 2 * x i * x j * tb2 G_GVIJ i j * (x i + x j) / (cell G_setup_bvij i j ^ 2 * x i + x j))) with (pairs1 21 vterm).
  change (pairs1 21 (fun i j => 2 * x i * x j * tb2 G_GTIJ i j * (x i + x j) / (tb2 G_BTIJ i j * x i + x j))) with (pairs1 21 tterm).
  assert (forall f, rsum (fun i => rsum (f i) (seq (i + 1) (21 - i))) (seq 1 21) = pairs1 21 f) as Er.
  { intros f. rewrite <- pairs1_rows. set (g := fun i => rsum (f i) (seq (i + 1) (21 - i))).
    change (rsum g (seq 1 20 ++ [21%nat]) = rsum g (seq 1 20)). rewrite rsum_app.
    change (rsum g (seq 1 20) + (0 + 0) = rsum g (seq 1 20)). ring. }
  rewrite <- !Er, <- !rsum_plus. change (1 + 0)%nat with 1%nat.
  assert (forall l (v w : R), (forall i, In i l -> (1 <= i < 22)%nat) ->
    fold_left (fun st i => if @act ArithR (X i) then @rrow ArithR PN X i st else st) l (v, w)
    = (v + rsum (fun i => x i ^ 2 * tb2 G_GVIJ i i + rsum (vterm i) (seq (i + 1) (21 - i))) l,
       w + rsum (fun i => x i ^ 2 * tb2 G_GTIJ i i + rsum (tterm i) (seq (i + 1) (21 - i))) l)) as H.
  { induction l as [|i l IH]; intros v w Hl.
    - cbn [fold_left]. change (rsum _ []) with 0. rewrite Rplus_0_r. change (rsum _ []) with 0. now rewrite Rplus_0_r.
    - cbn [fold_left]. rewrite !rsum_cons. destruct (@act ArithR (X i)) eqn:E.
      + rewrite rrow_eq; [|apply Hl; now left|exact E]. rewrite IH by (intros; apply Hl; now right). 
        rewrite !(Rplus_assoc v), !(Rplus_assoc w). reflexivity.
      + rewrite IH by (intros; apply Hl; now right). apply nact_ac in E.
        assert (forall l, rsum (vterm i) l = 0) as ->.
        { intros l'. rewrite (rsum_ext _ (fun _ => 0)); [apply rsum_0|]. intros j _. unfold vterm, x. rewrite E. unfold Rdiv. ring. }
        assert (forall l, rsum (tterm i) l = 0) as ->.
        { intros l'. rewrite (rsum_ext _ (fun _ => 0)); [apply rsum_0|]. intros j _. unfold tterm, x. rewrite E. unfold Rdiv. ring. }
        change (ac X i = 0) with (x i = 0) in E. rewrite E. apply f_equal2; ring. }
  etransitivity; [exact (H (seq 1 21) _ _ ltac:(intros i Hi; apply in_seq in Hi; lia))|].
  unfold f0. rar. cbn [Rlit]. now rewrite !Rplus_0_l.
Qed.
End Red.

Section Ext.
Variables x y : nat -> R.
Hypothesis H : forall i, (1 <= i < 22)%nat -> x i = y i.
Lemma sumf_ext a n f g : (forall i, (a < i <= a + n)%nat -> f i = g i) -> sumf a n f = sumf a n g.
Proof. intros E. apply sum_ext. intros m Hm. apply E. lia. Qed.
Lemma pairs1_ext n f g : (forall i j, (1 <= i < j)%nat -> (j <= n)%nat -> f i j = g i j) -> pairs1 n f = pairs1 n g.
Proof. intros E. apply pairs_ext. intros i j Hij. apply E; lia. Qed.
Lemma vred_ext : vred x = vred y.
Proof.
  unfold vred. f_equal; [apply sumf_ext; intros i Hi; now rewrite H by lia|].
  apply pairs1_ext. intros i j Hi Hj. now rewrite (H i), (H j) by lia.
Qed.
Lemma tred_ext : tred x = tred y.
Proof.
  unfold tred. f_equal; [apply sumf_ext; intros i Hi; now rewrite H by lia|].
  apply pairs1_ext. intros i j Hi Hj. now rewrite (H i), (H j) by lia.
Qed.
Lemma alphar_ext D T : alphar x D T = alphar y D T.
Proof.
  unfold alphar. f_equal; [apply sumf_ext; intros i Hi; now rewrite H by lia|].
  apply pairs1_ext. intros i j Hi Hj. unfold departure. now rewrite (H i), (H j) by lia.
Qed.
End Ext.

(* size of the reducing volume *)
Definition ge20 (l : lit) : bool := let '(L m e) := l in ((e <=? 0) && (10 ^ (- e) <=? 20 * m))%Z%bool.
Lemma ge20_ok l : ge20 l = true -> 1 / 20 <= Rlit l.
Proof.
  destruct l as [m e]. cbn [ge20]. intros H. apply andb_true_iff in H as [H1 H2].
  apply Z.leb_le in H1, H2. unfold Rlit. destruct e as [|e|e]; [|lia|].
  - change (10 ^ - 0)%Z with 1%Z in H2. apply IZR_le in H2. rewrite mult_IZR in H2. lra.
  - change (- Z.neg e)%Z with (Z.pos e) in H2. assert (0 < IZR (10 ^ Z.pos e)) as Hp.
    { apply IZR_lt. apply Z.pow_pos_nonneg; lia. }
    apply IZR_le in H2. rewrite mult_IZR in H2. apply Rmult_le_reg_r with (IZR (10 ^ Z.pos e)); [exact Hp|].
    unfold Rdiv at 2. rewrite Rmult_assoc, Rinv_l by lra. lra.
Qed.
Lemma gv_diag : forallb (fun i => ge20 (nth i (nth i G_GVIJ []) (L 0 0))) (seq 1 21) = true.
Proof. reflexivity. Qed.
Lemma gv_ge i : (1 <= i < 22)%nat -> 1 / 20 <= tb2 G_GVIJ i i.
Proof.
  intros Hi. pose proof gv_diag as H. rewrite forallb_forall in H.
  specialize (H i ltac:(apply in_seq; lia)). now apply ge20_ok in H.
Qed.
Section Pos.
Variable x : nat -> R.
Hypothesis Hx : forall i, (1 <= i < 22)%nat -> 0 <= x i.
Lemma vpair_ge0 i j : (1 <= i < j)%nat -> (j <= 21)%nat ->
  0 <= 2 * x i * x j * tb2 G_GVIJ i j * (x i + x j) / (cell G_setup_bvij i j ^ 2 * x i + x j).
Proof.
  intros Hi Hj. pose proof (Hx i ltac:(lia)). pose proof (Hx j ltac:(lia)).
  pose proof (upper_pos_ok _ i j gvij_pos ltac:(lia) ltac:(lia) ltac:(lia)) as G. change (0 < tb2 G_GVIJ i j) in G.
  pose proof (pow2_ge_0 (cell G_setup_bvij i j)).
  assert (0 <= cell G_setup_bvij i j ^ 2 * x i + x j) as D.
  { apply Rplus_le_le_0_compat; [apply Rmult_le_pos; assumption|assumption]. }
  destruct (Req_dec (cell G_setup_bvij i j ^ 2 * x i + x j) 0) as [E|E].
  - rewrite E. unfold Rdiv. rewrite Rinv_0. lra.
  - apply Rmult_le_pos; [|apply Rlt_le, Rinv_0_lt_compat; lra].
    repeat (apply Rmult_le_pos; try lra).
Qed.
Lemma vred_ge i : (1 <= i < 22)%nat -> x i ^ 2 / 20 <= vred x.
Proof.
  intros Hi. unfold vred.
  assert (x i ^ 2 / 20 <= sumf 0 21 (fun i => x i ^ 2 * tb2 G_GVIJ i i)) as H1.
  { rewrite sumf_rsum. eapply Rle_trans; [|apply (rsum_in _ _ i)].
    - pose proof (gv_ge i Hi). pose proof (pow2_ge_0 (x i)). unfold Rdiv.
      apply Rmult_le_compat_l; [assumption|lra].
    - intros n Hn. apply in_seq in Hn. apply Rmult_le_pos; [apply pow2_ge_0|]. pose proof (gv_ge n ltac:(lia)). lra.
    - apply in_seq. lia. }
  assert (0 <= pairs1 21 (fun i j => 2 * x i * x j * tb2 G_GVIJ i j * (x i + x j) / (cell G_setup_bvij i j ^ 2 * x i + x j))) as H2.
  { apply pairs_ge0. intros a b Hab. apply vpair_ge0; lia. }
  lra.
Qed.
End Pos.
Lemma ac_ge0 x i : 0 <= ac x i.
Proof. unfold ac. destruct (Rlt_dec _ _); lra. Qed.
Lemma ac_big x i : 1 / 1000000000000000 < x i -> ac x i = x i.
Proof. intros H. unfold ac. destruct (Rlt_dec _ _); [reflexivity|contradiction]. Qed.

(* the API *)
Section Api.
Variable x : nat -> R.
Hypothesis Hs : exists i, (1 <= i < 22)%nat /\ 1 / 1000000 < x i.
Variable t : R.
Hypothesis Ht : 1 / 10000000 < t.
Local Notation X := (gX x).
Lemma Hsome : some_present x.
Proof. destruct Hs as (i & Hi & H). exists i. split; [exact Hi|lra]. Qed.
Lemma ac_gX i : (1 <= i < 22)%nat -> ac X i = ac x i.
Proof. intros Hi. unfold ac, gX. now rewrite gxl_i by lia. Qed.
Lemma vred_big : 1 / 100000000000000 < vred (ac x).
Proof.
  destruct Hs as (i & Hi & H). pose proof (vred_ge (ac x) ltac:(intros; apply ac_ge0) i Hi) as G.
  rewrite ac_big in G by lra. assert (1 / 1000000 * (1 / 1000000) <= x i * x i) by (apply Rmult_le_compat; lra).
  cbn [pow] in G. lra.
Qed.
Lemma gdr_eq : @gdr ArithR PN X = 1 / vred (ac x).
Proof.
  unfold gdr. rewrite gred_eq. cbn [fst]. rewrite (vred_ext (ac X) (ac x)) by (intros; now apply ac_gX).
  pose proof vred_big. rar. rewrite glit15.
  assert (Rltb (1 / 1000000000000000) (vred (ac x)) = true) as -> by (apply Rltb_true; lra).
  reflexivity.
Qed.
Lemma gtr_eq : @gtr ArithR PN X = tred (ac x).
Proof. unfold gtr. rewrite gred_eq. cbn [snd]. apply tred_ext. intros; now apply ac_gX. Qed.
Lemma gpres_alphar d : let v := vred (ac x) in let tau := tred (ac x) / t in
  exists a', is_derive (fun delta => alphar (ac x) delta tau) (d * v) a' /\
  gpres New x t d = d * Rg * t * (1 + d * v * a') /\ gprop New PZ x t d = 1 + d * v * a'.
Proof.
  cbv zeta. pose proof vred_big as Hv. assert (0 < t) as Ht0 by lra.
  destruct (@A_good New x Hsome t d Ht0) as ((h1 & h2 & _ & E2 & G) & _).
  change (gpar New) with PN in *. cbv beta in *.
  set (r := 1 / vred (ac x)). assert (0 < r) as Hr by (apply Rdiv_lt_0_compat; lra).
  assert (Ed : d / r = d * vred (ac x)) by (unfold r; field; lra).
  exists (h2 * r). split; [|].
  - rewrite <- Ed. apply (is_derive_ext (fun q => @AR PN (gxl x) 0 t (q * r))).
    { intros q. rewrite AR0_alphar. change (@xf ArithR (gxl x)) with X. rewrite gdr_eq, gtr_eq. fold r.
      rewrite (alphar_ext (ac X) (ac x)) by (intros; now apply ac_gX). f_equal. field. lra. }
    replace (h2 * r) with (h1 * 0 + h2 * r) by ring.
    apply (G (fun _ => t) (fun q => q * r)); [reflexivity|field; lra|apply (@is_derive_const R_AbsRing R_NormedModule)|].
    auto_derive; [trivial|ring].
  - assert (E : d * vred (ac x) * (h2 * r) = @AR PN (gxl x) 1 t d).
    { rewrite <- Ed, <- E2. field. lra. }
    rewrite E. rewrite gpres_ok, gprop_ok by (exact Hsome || exact Ht). split.
    + rewrite w_p. change (gpar New) with PN. replace (@RGERG ArithR) with Rg by reflexivity. rar. ring.
    + reflexivity.
Qed.
End Api.
