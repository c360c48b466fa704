(* GERG-2008 over the reals: the API functions of SpecReal.v and their derivatives. *)
From Coq Require Import Reals ZArith List Bool Lra Lia.
From Coquelicot Require Import Coquelicot.
From Verif Require Import FArith Prelude Tab Composition DetailModel DetailPure GergTables GergModel GergPure
  GergRefine GergEval Api ApiSafe BasicProofs HistoryGerg ArithR RSum SpecReal Thermo DetailReal
  GergReal GergIdeal.
Import ListNotations.
Local Open Scope R_scope.
Local Existing Instance ArithR.
Local Notation GEPSILON := (@GEPSILON ArithR).
Local Notation RG := (@RGERG ArithR).

Lemma glit15 : GEPSILON = 1 / 1000000000000000.
Proof. reflexivity. Qed.

(* positive tables *)
Definition lpos (l : lit) : bool := let '(L m _) := l in Z.ltb 0 m.
Lemma lpos_ok l : lpos l = true -> 0 < Rlit l.
Proof. destruct l as [m e]. cbn [lpos]. intros H. apply Rlit_pos. now apply Z.ltb_lt. Qed.
Definition upper_pos (tb : list (list lit)) : bool :=
  forallb (fun i => forallb (fun j => lpos (nth j (nth i tb []) (L 0 0))) (seq i (22 - i))) (seq 1 21).
Lemma upper_pos_ok tb i j : upper_pos tb = true -> (1 <= i)%nat -> (i <= j)%nat -> (j < 22)%nat ->
  0 < @lv2 ArithR tb i j.
Proof.
  intros H Hi Hij Hj. unfold upper_pos in H. rewrite forallb_forall in H.
  specialize (H i ltac:(apply in_seq; lia)). rewrite forallb_forall in H.
  specialize (H j ltac:(apply in_seq; lia)). apply lpos_ok in H. exact H.
Qed.
Lemma gvij_pos : upper_pos G_GVIJ = true. Proof. reflexivity. Qed.
Lemma gtij_pos : upper_pos G_GTIJ = true. Proof. reflexivity. Qed.
Lemma btij_pos : upper_pos G_BTIJ = true. Proof. reflexivity. Qed.

(* the reducing functions are positive *)
Section Red.
Context {P : @GParams ArithR}.
Hypothesis Hb : forall i j, (1 <= i <= j)%nat -> (j < 22)%nat -> 0 <= @q_bvij ArithR P i j.
Variable X : nat -> R.
Lemma act_pos i : @act ArithR (X i) = true -> 0 < X i.
Proof. unfold act. rar. intros H. apply Rltb_true in H. pose proof GEPS_pos. rar. lra. Qed.
Local Notation rs := (@rstep ArithR P X).
Local Notation q1 := (@p1 R R R).
Local Notation q2 := (@p2 R R R).
Local Notation q3 := (@p3 R R R).
Lemma rstep_mono i j (st : trip) : (1 <= i <= j)%nat -> (j < 22)%nat -> @act ArithR (X i) = true -> 0 < q3 st ->
  q1 st <= q1 (rs i j st) /\ q2 st <= q2 (rs i j st) /\ 0 < q3 (rs i j st) /\
  (@act ArithR (X j) = true -> q1 st < q1 (rs i j st) /\ q2 st < q2 (rs i j st)).
Proof.
  destruct st as [[v w] f]. unfold p1, p2, p3. cbn [fst snd].
  intros Hi Hj Ai Hf. unfold rstep. destruct (@act ArithR (X j)) eqn:Aj; cbn [fst snd].
  2:{ repeat split; try lra; discriminate. }
  rar. unfold f2. rar. cbn [Rlit].
  pose proof (act_pos i Ai) as Xi. pose proof (act_pos j Aj) as Xj.
  pose proof (upper_pos_ok _ i j gvij_pos (proj1 Hi) (proj2 Hi) Hj) as G1.
  pose proof (upper_pos_ok _ i j gtij_pos (proj1 Hi) (proj2 Hi) Hj) as G2.
  pose proof (upper_pos_ok _ i j btij_pos (proj1 Hi) (proj2 Hi) Hj) as G3.
  pose proof (Hb i j Hi Hj) as G4. rar.
  assert (0 < f * (X i * X j) * (X i + X j)) as H1.
  { apply Rmult_lt_0_compat; [apply Rmult_lt_0_compat; [assumption|now apply Rmult_lt_0_compat]|lra]. }
  assert (0 < f * (X i * X j) * (X i + X j) * @lv2 ArithR G_GVIJ i j / (@q_bvij ArithR P i j * X i + X j)) as H2.
  { apply Rdiv_lt_0_compat; [now apply Rmult_lt_0_compat|].
    pose proof (Rmult_le_pos _ _ G4 (Rlt_le _ _ Xi)). rar. lra. }
  assert (0 < f * (X i * X j) * (X i + X j) * @lv2 ArithR G_GTIJ i j / (@lv2 ArithR G_BTIJ i j * X i + X j)) as H3.
  { apply Rdiv_lt_0_compat; [now apply Rmult_lt_0_compat|].
    pose proof (Rmult_lt_0_compat _ _ G3 Xi). rar. lra. }
  rar. repeat split; try lra.
Qed.
Lemma rfold_mono i l : (1 <= i)%nat -> @act ArithR (X i) = true -> (forall j, In j l -> (i <= j < 22)%nat) ->
  forall st : trip, 0 < q3 st ->
  let st' := fold_left (fun st j => rs i j st) l st in
  q1 st <= q1 st' /\ q2 st <= q2 st'.
Proof.
  intros Hi Ai. induction l as [|j l IH]; intros Hl st Hf; cbn [fold_left]; [split; apply Rle_refl|].
  destruct (rstep_mono i j st (conj Hi (proj1 (Hl j (or_introl eq_refl)))) (proj2 (Hl j (or_introl eq_refl))) Ai Hf)
    as (H1 & H2 & H3 & _).
  destruct (IH (fun j H => Hl j (or_intror H)) (rs i j st) H3) as [K1 K2].
  split; [exact (Rle_trans _ _ _ H1 K1)|exact (Rle_trans _ _ _ H2 K2)].
Qed.
Local Notation rr := (@rrow ArithR P X).
Local Notation r1 := (@fst R R).
Local Notation r2 := (@snd R R).
Lemma rrow_mono i (st : R * R) : (1 <= i < 22)%nat -> @act ArithR (X i) = true ->
  r1 st < r1 (rr i st) /\ r2 st < r2 (rr i st).
Proof.
  intros Hi Ai. unfold rrow. replace (22 - i)%nat with (S (21 - i)) by lia. cbn [seq fold_left].
  set (st1 := (st, @f1 ArithR) : trip).
  assert (0 < q3 st1) as Hf by (unfold p3, st1, f1; rar; cbn [Rlit snd]; lra).
  destruct (rstep_mono i i st1 ltac:(lia) (proj2 Hi) Ai Hf) as (H1 & H2 & H3 & H4).
  destruct (H4 Ai) as [H5 H6].
  destruct (rfold_mono i (seq (S i) (21 - i)) (proj1 Hi) Ai ltac:(intros j Hj; apply in_seq in Hj; lia) _ H3) as [K1 K2].
  split; [exact (Rlt_le_trans _ _ _ H5 K1)|exact (Rlt_le_trans _ _ _ H6 K2)].
Qed.
Local Notation gf := (fun st i => if @act ArithR (X i) then rr i st else st).
Lemma gred_fold_mono l : (forall j, In j l -> (1 <= j < 22)%nat) -> forall st : R * R,
  r1 st <= r1 (fold_left gf l st) /\ r2 st <= r2 (fold_left gf l st).
Proof.
  induction l as [|i l IH]; intros Hl st; cbn [fold_left]; [split; apply Rle_refl|].
  specialize (IH (fun j H => Hl j (or_intror H))).
  destruct (@act ArithR (X i)) eqn:Ai; [|apply IH].
  destruct (rrow_mono i st (Hl i (or_introl eq_refl)) Ai) as [H1 H2].
  destruct (IH (rr i st)) as [K1 K2].
  split; [exact (Rle_trans _ _ _ (Rlt_le _ _ H1) K1)|exact (Rle_trans _ _ _ (Rlt_le _ _ H2) K2)].
Qed.
Lemma gred_pos i : (1 <= i < 22)%nat -> @act ArithR (X i) = true ->
  0 < r1 (@gred ArithR P X) /\ 0 < r2 (@gred ArithR P X).
Proof.
  intros Hi Ai. unfold gred. replace 21%nat with ((i - 1) + S (21 - i))%nat by lia.
  rewrite seq_app, fold_left_app. replace (1 + (i - 1))%nat with i by lia. cbn [seq fold_left].
  destruct (gred_fold_mono (seq 1 (i - 1)) ltac:(intros j Hj; apply in_seq in Hj; lia) (@f0 ArithR, @f0 ArithR)) as [A1 A2].
  set (st := fold_left _ (seq 1 (i - 1)) _) in *. rewrite Ai.
  destruct (rrow_mono i st Hi Ai) as [B1 B2].
  destruct (gred_fold_mono (seq (S i) (21 - i)) ltac:(intros j Hj; apply in_seq in Hj; lia) (rr i st)) as [C1 C2].
  unfold f0 in A1, A2. rar. cbn [Rlit fst snd] in A1, A2. split.
  - exact (Rle_lt_trans _ _ _ A1 (Rlt_le_trans _ _ _ B1 C1)).
  - exact (Rle_lt_trans _ _ _ A2 (Rlt_le_trans _ _ _ B2 C2)).
Qed.
Lemma gtr_pos i : (1 <= i < 22)%nat -> @act ArithR (X i) = true -> 0 < @gtr ArithR P X.
Proof. intros Hi Ai. exact (proj2 (gred_pos i Hi Ai)). Qed.
End Red.

(* both parameter sets qualify *)
Lemma gpar_bvij k i j : (1 <= i <= j)%nat -> (j < 22)%nat -> 0 <= @q_bvij ArithR (gpar k) i j.
Proof.
  intros Hi Hj. destruct k; cbn [gpar gp_new gp_zero q_bvij].
  - unfold Gbvij, inred.
    assert ((Nat.leb 1 i && Nat.leb i j)%bool = true) as ->.
    { apply andb_true_iff. split; apply Nat.leb_le; lia. }
    destruct (Nat.eqb i j); [unfold f1; rar; cbn [Rlit]; lra|]. rar. rewrite powi2. apply Rle_0_sqr.
  - unfold f0; rar; cbn [Rlit]; lra.
Qed.
Definition lit_eqb (a b : lit) : bool := let '(L m e) := a in let '(L n f) := b in (Z.eqb m n && Z.eqb e f)%bool.
Lemma lit_eqb_ok a b : lit_eqb a b = true -> a = b.
Proof. destruct a, b. cbn [lit_eqb]. intros H. apply andb_true_iff in H as [H1 H2]. apply Z.eqb_eq in H1, H2. congruence. Qed.
Definition short_same : bool :=
  forallb (fun i => if short_form i then forallb (fun k => lit_eqb (nth k (nth 5 G_TOIK []) (L 0 0)) (nth k (nth i G_TOIK []) (L 0 0))) (seq 0 25) else true) (seq 0 22).
Lemma short_same_ok : short_same = true. Proof. reflexivity. Qed.
Lemma gpar_short k i n : (i < 22)%nat -> short_form i = true -> (n < 25)%nat ->
  @q_toik ArithR (gpar k) 5 n = @q_toik ArithR (gpar k) i n.
Proof.
  intros Hi Hs Hn. destruct k; cbn [gpar gp_new gp_zero q_toik]; [|reflexivity].
  pose proof short_same_ok as H. unfold short_same in H. rewrite forallb_forall in H.
  specialize (H i ltac:(apply in_seq; lia)). rewrite Hs, forallb_forall in H.
  specialize (H n ltac:(apply in_seq; lia)). apply lit_eqb_ok in H. unfold lv2. now rewrite H.
Qed.

(* the API functions *)
Lemma glit7 : @flit ArithR (L 1 (-7)) = 1 / 10000000.
Proof. reflexivity. Qed.
Section S.
Variables (k : start) (x : nat -> R).
Definition gxl : list R := map x (seq 0 22).
Definition gbase : @Gerg ArithR :=
  match k with New => gerg_fresh | Default => gerg_default end.
Definition gins (t d : R) : @Gerg ArithR := set_g_d (d : F) (set_g_t (t : F) (set_g_x (gxl : list F) gbase)).
Lemma gbase_ok : gstart k = Some gbase.
Proof. unfold gbase. destruct k; [exact gerg_new_ok|reflexivity]. Qed.
Lemma gbase_wf : @gwf _ (gpar k) gc_zero gbase.
Proof. unfold gbase. destruct k; [exact gwf_fresh|exact gwf_default]. Qed.
Lemma gins_wf t d : @gwf _ (gpar k) gc_zero (gins t d).
Proof.
  unfold gins. apply (@gwf_poke _ (gpar k) PD), (@gwf_poke _ (gpar k) PT), gwf_set_x.
  - unfold gxl. now rewrite map_length, seq_length.
  - apply gbase_wf.
Qed.
Lemma gins_run t d o : gexec k (inputs x t d ++ [o])
  = ('(s, r) <- gstep o (gins t d) ;; Some (s, [OUnit; OUnit; OUnit; r])).
Proof.
  unfold gexec. rewrite gbase_ok. unfold inputs, gins, gxl. cbn [app grun bind gstep gpoke].
  destruct (gstep o _) as [[s r]|]; reflexivity.
Qed.
Lemma gins_xold t d : g_xold (gins t d) = repeat f0 22.
Proof. unfold gins, gbase. destruct k; reflexivity. Qed.
Lemma gxl_i i : (i < 22)%nat -> @xf ArithR gxl i = x i.
Proof.
  intros Hi. unfold xf, gxl. rewrite (nth_indep _ _ (x 0%nat)) by (rewrite map_length, seq_length; exact Hi).
  rewrite map_nth. now rewrite seq_nth.
Qed.
Definition some_present : Prop := exists i, (1 <= i < 22)%nat /\ 1 / 10000000 < x i.
Hypothesis Hsome : some_present.
Lemma gins_diff : @gx_diff ArithR gxl (repeat f0 22) = true.
Proof.
  destruct Hsome as (i & Hi & Hx). unfold gx_diff. apply existsb_exists. exists i.
  split; [apply in_seq; lia|]. unfold differs. rewrite gxl_i by lia.
  unfold xf. rewrite nth_repeat. unfold f0. rar. cbn [Rlit]. change (IZR (10 ^ 7)) with 10000000.
  rewrite Rminus_0_r, Rabs_right by lra. now apply Rltb_true.
Qed.
Lemma gins_can t d : 1 / 10000000 < t -> @gcan ArithR (gpar k) gxl t (@gal_cache _ (gpar k) gc_zero (gins t d)).
Proof.
  intros Ht. unfold gal_cache. rewrite gins_xold. unfold gins at 1 2. gsimp. unfold gc_next.
  assert (@gc_red ArithR (gpar k) gxl (repeat f0 22) gc_zero
    = mkGC (@gdr ArithR (gpar k) (xf gxl)) (@gtr ArithR (gpar k) (xf gxl)) f0 f0 (fun _ _ => f0) (fun _ _ => f0)) as E.
  { unfold gc_red. now rewrite gins_diff. }
  rewrite E. apply tau_fresh; [reflexivity|reflexivity|].
  unfold gc_fresh. cbn [gc_told]. apply orb_true_iff. left. unfold differs, f0. rar. cbn [Rlit].
  change (IZR (10 ^ 7)) with 10000000. rewrite Rminus_0_r, Rabs_right by lra. now apply Rltb_true.
Qed.
Definition gT (t d : R) := @can_terms ArithR (gpar k) gxl t d.
Lemma gins_terms t d : 1 / 10000000 < t -> @gal_terms _ (gpar k) gc_zero (gins t d) = gT t d.
Proof. intros Ht. unfold gal_terms. exact (@can_cterms ArithR (gpar k) gxl t d _ (gins_can t d Ht)). Qed.
Lemma gpres_ok t d : 1 / 10000000 < t -> gpres k x t d = gpp (gT t d) t d.
Proof.
  intros Ht. unfold gpres. rewrite gins_run. cbn [gstep].
  rewrite (@gpressure_ok _ (gpar k) _ _ (gins_wf t d)). cbn [bind]. rewrite gins_terms by assumption.
  reflexivity.
Qed.
Definition gX : nat -> R := @xf ArithR gxl.
Definition gvals (f : pfield) (t d : R) : R :=
  match f with
  | PT => t | PD => d | PP => 0 | PZ => gqz (gT t d) | PMM => @gmm ArithR gX
  | PDpDd => gqdpdd (gT t d) t | PD2pDd2 => gqd2pdd2 (gT t d) t d | PD2pDtd => gqd2pdtd (gT t d)
  | PDpDt => gqdpdt (gT t d) d | PU => @gqu ArithR (gpar k) (gT t d) gX t d
  | PH => @gqh ArithR (gpar k) (gT t d) gX t d | PS => @gqs ArithR (gpar k) (gT t d) gX t d
  | PCv => @gqcv ArithR (gpar k) (gT t d) gX t d | PCp => @gqcp ArithR (gpar k) (gT t d) gX t d
  | PW => @gqw ArithR (gpar k) (gT t d) gX t d | PG => @gqg ArithR (gpar k) (gT t d) gX t d
  | PJt => @gqjt ArithR (gpar k) (gT t d) gX t d | PKappa => @gqkappa ArithR (gpar k) (gT t d) gX t d
  end.
Lemma gins_p t d : g_p (gins t d) = f0.
Proof. unfold gins, gbase. destruct k; reflexivity. Qed.
Lemma gprop_ok f t d : 1 / 10000000 < t -> gprop k f x t d = gvals f t d.
Proof.
  intros Ht. unfold gprop. rewrite gins_run. cbn [gstep].
  rewrite (@gproperties_ok _ (gpar k) _ _ (gins_wf t d)). cbn [bind].
  rewrite gprops_flat. cbv zeta. rewrite gins_terms by assumption.
  destruct f; try reflexivity. exact (gins_p t d).
Qed.

Lemma act_total_rsum n : act_total x n = rsum (fun i => if Rlt_dec (1/1000000000000000) (x i) then x i else 0) (seq 1 n).
Proof.
  induction n as [|n IH]; [reflexivity|]. cbn [act_total]. rewrite seq_S, rsum_app, IH.
  cbn [Nat.add]. rewrite rsum_cons. change (rsum _ []) with 0. ring.
Qed.
Lemma gpsum_ok : gpsum gX = act_total x 21.
Proof.
  rewrite act_total_rsum. unfold gpsum. apply rsum_ext. intros i Hi. apply in_seq in Hi.
  unfold gpx, gX. rewrite gxl_i by lia. rewrite glit15. unfold Rltb. destruct (Rlt_dec _ _); reflexivity.
Qed.
Lemma tr_pos : 0 < @gtr ArithR (gpar k) gX.
Proof.
  destruct Hsome as (i & Hi & Hx). apply (@gtr_pos (gpar k) (gpar_bvij k) gX i Hi).
  unfold act, gX. rewrite gxl_i by lia. rar. apply Rltb_true. rewrite glit15. lra.
Qed.
Local Notation E0 := (@ge0 (gpar k) gX).
Local Notation E1 := (@ge1 (gpar k) gX).
Local Notation E2 := (@ge2 (gpar k) gX).
Local Notation A e := (fun t d => @AR (gpar k) gxl e t d).
Lemma A_good t d : 0 < t -> good (fun t d e => @AR (gpar k) gxl e t d) t d.
Proof. intros Ht. apply AR_good; [exact tr_pos|exact (gpar_short k)|exact Ht]. Qed.

Lemma w_p t d : gpp (gT t d) t d = d * (RG * t * (1 + A 1%nat t d)).
Proof. unfold gpp, gpz. rar. unfold f1; rar; cbn [Rlit]. unfold AR, gT. rar. ring. Qed.
Lemma w_dpdd t d : gvals PDpDd t d = RG * t * (1 + 2 * A 1%nat t d + A 2%nat t d).
Proof. reflexivity. Qed.
Lemma w_dpdt t d : gvals PDpDt t d = d * RG * (1 + A 1%nat t d - A 5%nat t d).
Proof. reflexivity. Qed.
Lemma w_dtd t d : gvals PD2pDtd t d = RG * (1 + 2 * A 1%nat t d + A 2%nat t d - 2 * A 5%nat t d - A 6%nat t d).
Proof. reflexivity. Qed.
Lemma w_s t d : gvals PS t d = RG * (E1 t d + A 4%nat t d - E0 t d - A 0%nat t d).
Proof. reflexivity. Qed.
Lemma w_u t d : gvals PU t d = RG * t * (E1 t d + A 4%nat t d).
Proof. reflexivity. Qed.
Lemma w_h t d : gvals PH t d = RG * t * (1 + A 1%nat t d + E1 t d + A 4%nat t d).
Proof. reflexivity. Qed.
Lemma w_g t d : gvals PG t d = RG * t * (1 + A 1%nat t d + E0 t d + A 0%nat t d).
Proof. reflexivity. Qed.
Lemma w_cv t d : gvals PCv t d = - RG * (E2 t d + A 7%nat t d).
Proof. reflexivity. Qed.
Lemma gdense_true d : 1 / 1000000000000000 < d -> @gqdense ArithR d = true.
Proof. intros H. unfold gqdense. rar. rewrite glit15. now apply Rltb_true. Qed.

Lemma sd_gP t d : 0 < t -> sd (fun t d => d * (RG * t * (1 + A 1%nat t d))) t d
  (t * gvals PDpDt t d) (d * gvals PDpDd t d).
Proof.
  intros Ht. destruct (A_good t d Ht) as (G0 & G1 & G2 & G4).
  eapply sd_conv; [apply sd_mult; [apply sd_d|apply sd_mult; [apply (sd_scal RG), sd_t
    |apply sd_plus; [exact (sd_const 1 t d)|exact G1]]]| |];
  rewrite ?w_dpdt, ?w_dpdd; cbv beta; rar; ring.
Qed.
Lemma sd_gdpdd t d : 0 < t -> sd (fun t d => RG * t * (1 + 2 * A 1%nat t d + A 2%nat t d)) t d
  (t * gvals PD2pDtd t d) (RG * t * (2 * A 1%nat t d + 4 * A 2%nat t d + A 3%nat t d)).
Proof.
  intros Ht. destruct (A_good t d Ht) as (G0 & G1 & G2 & G4).
  eapply sd_conv; [apply sd_mult; [apply (sd_scal RG), sd_t
    |apply sd_plus; [apply sd_plus; [exact (sd_const 1 t d)|apply (sd_scal 2); exact G1]|exact G2]]| |];
  rewrite ?w_dtd; cbv beta; rar; ring.
Qed.
Section Unit.
Hypothesis Hx : act_total x 21 = 1.
Lemma sd_gA t d : 0 < t -> GEPSILON < d -> sd (fun t d => RG * t * (E0 t d + A 0%nat t d)) t d
  (- t * gvals PS t d) (RG * t * (1 + A 1%nat t d)).
Proof.
  intros Ht Hd. destruct (A_good t d Ht) as (G0 & G1 & G2 & G4).
  eapply sd_conv; [apply sd_mult; [apply (sd_scal RG), sd_t|apply sd_plus; [apply sd_ge0; assumption|exact G0]]| |].
  - rewrite w_s. cbv beta. rar. ring.
  - rewrite gpsum_ok, Hx. cbv beta. rar. ring.
Qed.
Lemma sd_gS t d : 0 < t -> GEPSILON < d -> sd (fun t d => RG * (E1 t d + A 4%nat t d - E0 t d - A 0%nat t d)) t d
  (gvals PCv t d) (- gvals PDpDt t d / d).
Proof.
  intros Ht Hd. pose proof GEPS_pos. destruct (A_good t d Ht) as (G0 & G1 & G2 & G4).
  eapply sd_conv; [apply (sd_scal RG); apply sd_minus; [apply sd_minus; [apply sd_plus; [apply sd_ge1; assumption|exact G4]
    |apply sd_ge0; assumption]|exact G0]| |].
  - rewrite w_cv. cbv beta. rar. ring.
  - rewrite gpsum_ok, Hx, w_dpdt. cbv beta. rar. field. lra.
Qed.
End Unit.

Local Notation V f := (gprop k f x).
Local Notation VP := (gpres k x).
Section At.
Variables (t d : R).
Hypotheses (Ht : 1 / 10000000 < t) (Hd : 1 / 1000000000000000 < d).
Let Ht0 : 0 < t. Proof. lra. Qed.
Let Hd0 : 0 < d. Proof. lra. Qed.
Let Hde : GEPSILON < d. Proof. rewrite glit15. exact Hd. Qed.
Lemma g_p' : diff VP t d (V PDpDt t d) (V PDpDd t d).
Proof.
  apply (diff_ext_gt2 (1/10000000) (1/1000000000000000) (fun t d => d * (RG * t * (1 + A 1%nat t d)))); [assumption..| |].
  - intros s e Hs He. rewrite gpres_ok, w_p by assumption. reflexivity.
  - rewrite !gprop_ok by assumption. eapply diff_conv; [apply sd_diff; [| |apply sd_gP]| |]; try lra;
    field; lra.
Qed.
Lemma g_dpdd' : diff (V PDpDd) t d (V PD2pDtd t d) (V PD2pDd2 t d).
Proof.
  apply (diff_ext_gt2 (1/10000000) (1/1000000000000000) (fun t d => RG * t * (1 + 2 * A 1%nat t d + A 2%nat t d))); [assumption..| |].
  - intros s e Hs He. rewrite gprop_ok, w_dpdd by assumption. reflexivity.
  - rewrite !gprop_ok by assumption. eapply diff_conv; [apply sd_diff; [| |apply sd_gdpdd]| |]; try lra.
    + field; lra.
    + cbn [gvals]. unfold gqd2pdd2, grt. rewrite gdense_true by assumption. reflexivity.
Qed.
Lemma g_h' s e : 1 / 10000000 < s -> 1 / 1000000000000000 < e -> V PH s e = V PU s e + VP s e / e.
Proof.
  intros Hs He. rewrite !gprop_ok, gpres_ok, w_p, w_h, w_u by assumption. field. lra.
Qed.
Lemma g_g' : V PG t d = V PH t d - t * V PS t d.
Proof. rewrite !gprop_ok, w_h, w_g, w_s by assumption. ring. Qed.
Lemma g_z' : V PZ t d = VP t d / (d * RG * t).
Proof.
  assert (forall z r : R, 0 < r -> z = d * (r * t * z) / (d * r * t)) as H by (intros; field; lra).
  rewrite gprop_ok, gpres_ok, w_p by assumption. apply H, RG_pos.
Qed.
Lemma g_cp' : V PCp t d = V PCv t d + t * (V PDpDt t d / d * (V PDpDt t d / d)) / V PDpDd t d.
Proof.
  rewrite !gprop_ok by assumption. cbn [gvals]. unfold gqcp. rewrite gdense_true by assumption. rar.
  apply f_equal. unfold Rdiv. ring.
Qed.
Lemma g_jt' : V PJt t d = (t / d * V PDpDt t d / V PDpDd t d - 1) / V PCp t d / d.
Proof.
  rewrite !gprop_ok by assumption. cbn [gvals]. unfold gqjt. rewrite gdense_true by assumption. reflexivity.
Qed.
Lemma g_w' : V PW t d = sqrt (if Rltb (1000 * V PCp t d / V PCv t d * V PDpDd t d / V PMM t d) 0 then 0
  else 1000 * V PCp t d / V PCv t d * V PDpDd t d / V PMM t d).
Proof. rewrite !gprop_ok by assumption. reflexivity. Qed.
Lemma g_k' : V PKappa t d = V PW t d * V PW t d * V PMM t d / (RG * t * 1000 * V PZ t d).
Proof. rewrite !gprop_ok by assumption. cbn [gvals]. unfold gqkappa. rar. rewrite powi2. reflexivity. Qed.
Lemma g_r' : RG <> 0. Proof. pose proof RG_pos. rar. lra. Qed.

Lemma gerg_pressure_derivatives : pressure_derivatives VP (V PDpDd) (V PD2pDd2) (V PDpDt) t d
  /\ is_derive (fun t => V PDpDd t d) t (V PD2pDtd t d).
Proof.
  pose proof g_dpdd' as H. split; [split; [exact g_p'|]|].
  - replace (V PD2pDd2 t d) with (V PD2pDtd t d * 0 + V PD2pDd2 t d * 1) by ring.
    apply (H (fun _ => t) (fun r => r)); [reflexivity|reflexivity|apply is_derive_cst|apply is_derive_idR].
  - replace (V PD2pDtd t d) with (V PD2pDtd t d * 1 + V PD2pDd2 t d * 0) by ring.
    apply (H (fun r => r) (fun _ => d)); [reflexivity|reflexivity|apply is_derive_idR|apply is_derive_cst].
Qed.
Section U.
Hypothesis Hx : act_total x 21 = 1.
Lemma g_a' : diff (fun t d => V PU t d - t * V PS t d) t d (- V PS t d) (VP t d / (d * d)).
Proof.
  apply (diff_ext_gt2 (1/10000000) (1/1000000000000000) (fun t d => RG * t * (E0 t d + A 0%nat t d))); [assumption..| |].
  - intros s e Hs He. rewrite !gprop_ok by assumption. rewrite w_u, w_s. ring.
  - rewrite gprop_ok, gpres_ok, w_p by assumption.
    eapply diff_conv; [apply sd_diff; [| |apply sd_gA]| |]; try assumption; try lra; field; lra.
Qed.
Lemma g_s' : diff (V PS) t d (V PCv t d / t) (- V PDpDt t d / (d * d)).
Proof.
  apply (diff_ext_gt2 (1/10000000) (1/1000000000000000) (fun t d => RG * (E1 t d + A 4%nat t d - E0 t d - A 0%nat t d))); [assumption..| |].
  - intros s e Hs He. rewrite !gprop_ok, w_s by assumption. reflexivity.
  - rewrite !gprop_ok by assumption. eapply diff_conv; [apply sd_diff; [| |apply sd_gS]| |]; try assumption; try lra;
    field; lra.
Qed.
Lemma gerg_surface_at :
  potentials RG VP (V PDpDt) (V PZ) (V PU) (V PH) (V PS) (V PCv) (V PG) t d /\
  isobaric_cp VP (V PDpDd) (V PH) (V PCp) t d /\
  isenthalpic_jt VP (V PDpDd) (V PH) (V PCp) (V PJt) t d /\
  isentropic_w (V PMM t d) VP (V PDpDd) (V PS) (V PCv) (V PCp) (V PW) (V PKappa) t d.
Proof.
  pose (m := 1/10000000). pose (n := 1/1000000000000000).
  split; [eapply (T_potentials) with (m := m) (n := n); try exact Ht0; try exact Hd0; try exact Ht; try exact Hd; [exact g_a'|exact g_s'|exact g_h'|exact g_g'|exact g_z']|].
  split; [eapply (T_cp) with (m := m) (n := n); try exact Ht0; try exact Hd0; try exact Ht; try exact Hd; [exact g_a'|exact g_s'|exact g_p'|exact g_h'|exact g_cp']|].
  split; [eapply (T_jt) with (m := m) (n := n); try exact Ht0; try exact Hd0; try exact Ht; try exact Hd; [exact g_a'|exact g_s'|exact g_p'|exact g_h'|exact g_cp'|exact g_jt']|].
  eapply T_w; try exact Ht0; try exact Hd0; try exact g_r'; [exact g_s'|exact g_p'|exact g_z'|exact g_cp'|exact g_w'|exact g_k'].
Qed.
End U.
End At.
End S.
Lemma act_total_bound x n : (exists i, (1 <= i <= n)%nat /\ 1 / 10000000 < x i) \/
  act_total x n <= INR n * (1 / 10000000).
Proof.
  induction n as [|n [(i & Hi & H)|IH]].
  - right. cbn. lra.
  - left. exists i. split; [lia|exact H].
  - destruct (Rlt_dec (1 / 10000000) (x (S n))) as [H|H].
    + left. exists (S n). split; [lia|exact H].
    + right. cbn [act_total]. rewrite S_INR. destruct (Rlt_dec _ _); lra.
Qed.
Lemma act_total_some x : act_total x 21 = 1 -> some_present x.
Proof.
  intros H. destruct (act_total_bound x 21) as [(i & Hi & K)|K].
  - exists i. split; [lia|exact K].
  - exfalso. rewrite H in K. change (INR 21) with (IZR (Z.of_nat 21)) in K || rewrite INR_IZR_INZ in K. cbn in K. lra.
Qed.
Lemma gerg_surface k x : act_total x 21 = 1 ->
  forall t d, 1 / 10000000 < t -> 1 / 1000000000000000 < d ->
  let V f := gprop k f x in let p := gpres k x in
  potentials RG p (V PDpDt) (V PZ) (V PU) (V PH) (V PS) (V PCv) (V PG) t d /\
  isobaric_cp p (V PDpDd) (V PH) (V PCp) t d /\
  isenthalpic_jt p (V PDpDd) (V PH) (V PCp) (V PJt) t d /\
  isentropic_w (V PMM t d) p (V PDpDd) (V PS) (V PCv) (V PCp) (V PW) (V PKappa) t d.
Proof. intros Hx t d Ht Hd. exact (gerg_surface_at k x (act_total_some x Hx) t d Ht Hd Hx). Qed.
Lemma gerg_derivatives k x : (exists i, (1 <= i <= 21)%nat /\ 1 / 10000000 < x i) ->
  forall t d, 1 / 10000000 < t -> 1 / 1000000000000000 < d ->
  pressure_derivatives (gpres k x) (gprop k PDpDd x) (gprop k PD2pDd2 x) (gprop k PDpDt x) t d
  /\ is_derive (fun t => gprop k PDpDd x t d) t (gprop k PD2pDtd x t d).
Proof.
  intros (i & Hi & H) t d Ht Hd. apply gerg_pressure_derivatives; [|exact Ht|exact Hd].
  exists i. split; [lia|exact H].
Qed.
(* pressure() alone, at every density *)
Lemma gerg_pressure_derive k x : (exists i, (1 <= i <= 21)%nat /\ 1 / 10000000 < x i) ->
  forall t d, 1 / 10000000 < t ->
  is_derive (fun d => gpres k x t d) d (gprop k PDpDd x t d) /\
  is_derive (fun t => gpres k x t d) t (gprop k PDpDt x t d).
Proof.
  intros (i & Hi & H) t d Ht.
  assert (some_present x) as Hs by (exists i; split; [lia|exact H]).
  assert (0 < t) as Ht0 by lra.
  rewrite !gprop_ok by assumption. split.
  - apply (is_derive_ext (fun e => e * (RG * t * (1 + @AR (gpar k) (gxl x) 1 t e)))).
    { intros e. rewrite gpres_ok, w_p by assumption. reflexivity. }
    destruct (A_good k x Hs t d Ht0) as (_ & G1 & _).
    assert (sd (fun t d => RG * t * (1 + @AR (gpar k) (gxl x) 1 t d)) t d
      (RG * t * (1 + @AR (gpar k) (gxl x) 1 t d) - RG * t * @AR (gpar k) (gxl x) 5 t d)
      (RG * t * (@AR (gpar k) (gxl x) 1 t d + @AR (gpar k) (gxl x) 2 t d))) as K.
    { eapply sd_conv; [apply sd_mult; [apply (sd_scal RG), sd_t|apply sd_plus; [exact (sd_const 1 t d)|exact G1]]| |];
      cbv beta; rar; ring. }
    pose proof (sd_dmul _ _ _ _ _ K) as K'.
    match type of K' with is_derive _ _ ?v => match goal with |- is_derive _ _ ?w => replace w with v; [exact K'|] end end.
    rewrite w_dpdd. rar. ring.
  - pose proof (sd_gP k x Hs t d Ht0) as K.
    apply (is_derive_ext_loc (fun s => d * (RG * s * (1 + @AR (gpar k) (gxl x) 1 s d)))).
    { apply (filter_imp (fun s => 1 / 10000000 < s)).
      - intros s Hs'. rewrite gpres_ok, w_p by assumption. reflexivity.
      - apply (locally_gt (fun s => s) t 1); [apply is_derive_idR|exact Ht]. }
    apply (sd_dt _ _ _ _ _ _ K); [reflexivity|lra].
Qed.
