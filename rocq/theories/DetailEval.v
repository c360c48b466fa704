(* Refinement of x_terms, alphar, alpha0_detail, molar_mass, pressure, density and properties. *)
From Coq Require Import ZArith List Bool Lia.
From Verif Require Import FArith Prelude Tab Composition DetailTables DetailModel DetailPure
  DetailRefine.
Import ListNotations.

Section Eval.
Context {A : Arith} {P : DParams}.
Local Open Scope bool_scope.
Local Open Scope F_scope.
Local Opaque tab seq.

(* An object in a state reachable by the code: constant part as set by setup, array sizes, and
   cached terms computed for the composition cx and the temperature ct (None: not yet computed). *)
Record wf (cx : option (list F)) (ct : option F) (s : Detail) : Prop := {
  wf_static : static s;
  wf_x : length (d_x s) = 21%nat;
  wf_xold : length (d_xold s) = 21%nat;
  wf_a0 : length (d_a0 s) = 3%nat;
  wf_ar : exists f, d_ar s = tab2 4 4 f;
  wf_k3 : d_k3 s = cK3 cx;
  wf_bs : d_bs s = tab 18 (cBs cx);
  wf_csn : d_csn s = tab 58 (cCsn cx);
  wf_tun : d_tun s = tab 58 (cTun ct) }.

(* change detection *)
Lemma x_changed_ok x xo : length x = 21%nat -> length xo = 21%nat ->
  x_changed x xo = Some (x_diff x xo, x).
Proof.
  intros Hx Ho. unfold x_changed. rewrite Hx.
  apply (for_seq' (fun i =>
    (existsb (fun k => differs (xf x k) (xf xo k)) (seq 0 i),
     tab 21 (fun j => if Nat.ltb j i then xf x j else xf xo j)))); [lia| | |].
  - f_equal. transitivity (tab 21 (xf xo)); [exact (list_tab' 21 xo f0 Ho)|]. apply tab_ext. intros; nat_cases; reflexivity.
  - unfold x_diff. f_equal. transitivity (tab 21 (xf x)); [|symmetry; exact (list_tab' 21 x f0 Hx)].
    apply tab_ext; intros; nat_cases; reflexivity.
  - intros i Hi. rewrite (get_nth x i f0) by lia. rewrite get_tab by lia. cbn [bind].
    rewrite upd_tab by lia. cbn [bind]. f_equal. f_equal.
    + rewrite seq_S, existsb_app. cbn [existsb plus]. rewrite orb_false_r.
      unfold differs, xf. destruct (Nat.ltb_spec i i); [lia|].
      destruct (existsb _ _), (flt _ _); reflexivity.
    + apply tab_ext; intros; nat_cases; subst; reflexivity.
Qed.

(* mixing sums up to index n *)
Definition accn (n : nat) (X g : nat -> F) (a : F) : F :=
  fold_left (fun a i => if pos (X i) then a + g i else a) (seq 0 n) a.
Definition accrown (n : nat) (X g : nat -> F) (i : nat) (a : F) : F :=
  fold_left (fun a j => if pos (X j) then a + f2 * X i * X j * g j else a) (seq (S i) n) a.
Definition accppn (n : nat) (X : nat -> F) (g : nat -> nat -> F) (a : F) : F :=
  fold_left (fun a i => if pos (X i) then accrow X (g i) i a else a) (seq 0 n) a.

Lemma accn_S n X g a :
  accn (S n) X g a = if pos (X n) then accn n X g a + g n else accn n X g a.
Proof. unfold accn. rewrite seq_S, fold_left_app. reflexivity. Qed.
Lemma accrown_S n X g i a :
  accrown (S n) X g i a
  = if pos (X (S i + n)%nat)
    then accrown n X g i a + f2 * X i * X (S i + n)%nat * g (S i + n)%nat
    else accrown n X g i a.
Proof. unfold accrown. rewrite seq_S, fold_left_app. reflexivity. Qed.
Lemma accppn_S n X g a :
  accppn (S n) X g a
  = if pos (X n) then accrow X (g n) n (accppn n X g a) else accppn n X g a.
Proof. unfold accppn. rewrite seq_S, fold_left_app. reflexivity. Qed.

Lemma bs_add_ok (B c : nat -> F) (x : F) (rd : nat -> option F) :
  (forall n, (n < 18)%nat -> rd n = Some (c n)) ->
  for_ 0 18 (fun n bs => b <- get bs n ;; c <- rd n ;; upd bs n (b + x * c)) (tab 18 B)
  = Some (tab 18 (fun n => B n + x * c n)).
Proof.
  intros H. apply (for_fill_all 18 (fun n v => v + x * c n)). intros i f Hi.
  rewrite get_tab by lia. cbn [bind]. rewrite H by lia. cbn [bind]. now rewrite upd_tab by lia.
Qed.

Lemma mkAcc_eq k u g q f b k' u' g' q' f' b' :
  k = k' -> u = u' -> g = g' -> q = q' -> f = f' -> b = b' ->
  mkAcc k u g q f b = mkAcc k' u' g' q' f' b'.
Proof. now intros -> -> -> -> -> ->. Qed.

Lemma x_pure_ok s : static s -> length (d_x s) = 21%nat ->
  let X := xf (d_x s) in
  x_pure s (mkAcc f0 f0 f0 f0 f0 (tab 18 (fun _ => f0)))
  = Some (mkAcc (accp X (fun i => X i * q_ki25 i) f0) (accp X (fun i => X i * q_ei25 i) f0)
                (accp X (fun i => X i * lv D_GI i) f0) (pQ X) (pF X)
                (tab 18 (fun n => accp X (fun i => fpowi (X i) 2 * q_bsn2 i i n) f0))).
Proof.
  intros Hs Hx X. unfold x_pure. rewrite Hx.
  apply (for_seq' (fun i => mkAcc
    (accn i X (fun i => X i * q_ki25 i) f0) (accn i X (fun i => X i * q_ei25 i) f0)
    (accn i X (fun i => X i * lv D_GI i) f0) (accn i X (fun i => X i * lv D_QI i) f0)
    (accn i X (fun i => fpowi (X i) 2 * lv D_FI i) f0)
    (tab 18 (fun n => accn i X (fun i => fpowi (X i) 2 * q_bsn2 i i n) f0))));
    [lia|reflexivity|reflexivity|].
  intros i Hi. rewrite (get_nth (d_x s) i f0) by lia. cbn [bind].
  change (nth i (d_x s) f0) with (X i). rewrite !accn_S. unfold pos.
  destruct (X i >? f0) eqn:E.
  - rewrite (st_ki25 s Hs), (st_ei25 s Hs), !get_tab, !lget_lv by (cbn; lia).
    cbn [bind ac_k3 ac_u ac_g ac_q ac_f ac_bs].
    rewrite (bs_add_ok _ (fun n => q_bsn2 i i n)).
    + cbn [bind]. f_equal. apply mkAcc_eq; try reflexivity.
      apply tab_ext; intros n Hn. rewrite accn_S. unfold pos. now rewrite E.
    + intros n Hn. rewrite (st_bsnij2 s Hs). now rewrite get3_tab3 by lia.
  - f_equal. apply mkAcc_eq; try reflexivity.
    apply tab_ext; intros n Hn. rewrite accn_S. unfold pos. now rewrite E.
Qed.

Lemma x_pairs_ok s k u g q f B : static s -> length (d_x s) = 21%nat ->
  let X := xf (d_x s) in
  x_pairs s (mkAcc k u g q f (tab 18 B))
  = Some (mkAcc (accpp X q_kij5 k) (accpp X q_uij5 u) (accpp X q_gij5 g) q f
                (tab 18 (fun n => accpp X (fun i j => q_bsn2 i j n) (B n)))).
Proof.
  intros Hs Hx X. unfold x_pairs. rewrite Hx.
  apply (for_seq' (fun i => mkAcc
    (accppn i X q_kij5 k) (accppn i X q_uij5 u) (accppn i X q_gij5 g) q f
    (tab 18 (fun n => accppn i X (fun i j => q_bsn2 i j n) (B n)))));
    [lia|reflexivity|reflexivity|].
  intros i Hi. rewrite (get_nth (d_x s) i f0) by lia. cbn [bind].
  change (nth i (d_x s) f0) with (X i). rewrite !accppn_S.
  destruct (X i >? f0) eqn:E.
  - assert (Ep : pos (X i) = true) by exact E. rewrite !Ep.
    apply (for_seq' (fun j => mkAcc
      (accrown (j - S i) X (q_kij5 i) i (accppn i X q_kij5 k))
      (accrown (j - S i) X (q_uij5 i) i (accppn i X q_uij5 u))
      (accrown (j - S i) X (q_gij5 i) i (accppn i X q_gij5 g)) q f
      (tab 18 (fun n => accrown (j - S i) X (fun j => q_bsn2 i j n) i
                          (accppn i X (fun i j => q_bsn2 i j n) (B n)))))); [lia| | |].
    + rewrite Nat.sub_diag. reflexivity.
    + apply mkAcc_eq; try reflexivity. apply tab_ext; intros n Hn. rewrite accppn_S.
      now rewrite Ep.
    + intros j Hj. rewrite (get_nth (d_x s) j f0) by lia. cbn [bind].
      change (nth j (d_x s) f0) with (X j).
      replace (S j - S i)%nat with (S (j - S i)) by lia. rewrite !accrown_S.
      replace (S i + (j - S i))%nat with j by lia. unfold pos. destruct (X j >? f0) eqn:Ej.
      * rewrite (st_kij5 s Hs), (st_uij5 s Hs), (st_gij5 s Hs), !get2_tab2 by lia.
        cbn [bind ac_k3 ac_u ac_g ac_q ac_f ac_bs].
        rewrite (bs_add_ok _ (fun n => q_bsn2 i j n)).
        -- cbn [bind]. f_equal. apply mkAcc_eq; try reflexivity.
           apply tab_ext; intros n Hn. rewrite accrown_S.
           replace (S i + (j - S i))%nat with j by lia. unfold pos. now rewrite Ej.
        -- intros n Hn. rewrite (st_bsnij2 s Hs). now rewrite get3_tab3 by lia.
      * f_equal. apply mkAcc_eq; try reflexivity.
        apply tab_ext; intros n Hn. rewrite accrown_S.
        replace (S i + (j - S i))%nat with j by lia. unfold pos. now rewrite Ej.
  - f_equal. assert (Ep : pos (X i) = false) by exact E. rewrite !Ep.
    apply mkAcc_eq; try reflexivity.
    apply tab_ext; intros n Hn. rewrite accppn_S. now rewrite Ep.
Qed.

Lemma x_csn_ok u g q f (c : nat -> F) :
  x_csn u g q f (tab 58 c)
  = Some (tab 58 (fun n => if Nat.leb 12 n then csn_of u g q f n else c n)).
Proof.
  unfold x_csn.
  rewrite (for_fill 58 (fun n _ => csn_of u g q f n)); [|lia|].
  - apply f_equal. apply tab_ext; intros; nat_cases; reflexivity.
  - intros i h Hi. rewrite !lget_lv by (cbn; lia). cbn [bind].
    rewrite !(get_nth _ i 0%nat) by (cbn; lia). cbn [bind].
    rewrite upd_tab by lia. cbn [bind]. unfold csn_of, fl.
    destruct (Nat.eqb (nth i D_GN 0%nat) 1), (Nat.eqb (nth i D_QN 0%nat) 1),
      (Nat.eqb (nth i D_FN 0%nat) 1);
    repeat (rewrite ?get_tab by lia; cbn [bind]; rewrite ?upd_tab by lia; cbn [bind]);
    f_equal; apply tab_ext; intros; rewrite ?Nat.eqb_refl;
    destruct (Nat.eqb_spec i0 i); reflexivity.
Qed.

Lemma x_recompute_ok s (B C : nat -> F) : static s -> length (d_x s) = 21%nat ->
  d_bs s = tab 18 B -> d_csn s = tab 58 C ->
  let X := xf (d_x s) in
  x_recompute s = Some (set_d_csn (tab 58 (fun n => if Nat.leb 12 n then pCsn X n else C n))
                          (set_d_bs (tab 18 (pBs X)) (set_d_k3 (pK3 X) s))).
Proof.
  intros Hs Hx HB HC X. unfold x_recompute. rewrite HB.
  rewrite (for_fill_all 18 (fun _ _ => f0)) by (intros; now rewrite upd_tab by lia).
  cbn [bind]. rewrite x_pure_ok by assumption.
  cbn [bind ac_k3 ac_u ac_g ac_q ac_f ac_bs].
  rewrite x_pairs_ok by assumption. cbn [bind ac_k3 ac_u ac_g ac_q ac_f ac_bs].
  rewrite HC, x_csn_ok. cbn [bind]. do 2 apply f_equal.
  apply f_equal2; [|reflexivity]. apply tab_ext; intros n Hn. unfold pCsn.
  destruct (Nat.leb 12 n); reflexivity.
Qed.

(* the object after x_terms *)
Definition xt_st (cx : option (list F)) (s : Detail) : Detail :=
  let cx' := new_cx (d_x s) (d_xold s) cx in
  set_d_csn (tab 58 (cCsn cx')) (set_d_bs (tab 18 (cBs cx'))
    (set_d_k3 (cK3 cx') (set_d_xold (d_x s) s))).

Lemma cCsn_low cx n : (n < 12)%nat -> cCsn cx n = f0.
Proof.
  intros H. destruct cx; cbn [cCsn]; [unfold pCsn; nat_cases|]; reflexivity.
Qed.

Lemma x_terms_ok cx ct s : wf cx ct s -> x_terms s = Some (xt_st cx s).
Proof.
  intros H. unfold x_terms. rewrite x_changed_ok by apply H. cbn [bind].
  unfold xt_st, new_cx. destruct (x_diff (d_x s) (d_xold s)).
  - rewrite (x_recompute_ok _ (cBs cx) (cCsn cx)).
    + dsimp. apply f_equal. apply f_equal2; [|reflexivity].
      apply tab_ext; intros n Hn.
      destruct (Nat.leb_spec 12 n); [reflexivity|]. now rewrite !cCsn_low.
    + destruct H as [Hs]. destruct Hs. now constructor.
    + apply H.
    + apply H.
    + apply H.
  - destruct H as [Hs H1 H2 H3 H4 H5 H6 H7 H8]. clear -H5 H6 H7.
    destruct s; dsimp_in H5; dsimp_in H6; dsimp_in H7. subst. reflexivity.
Qed.

Lemma static_ext (s s' : Detail) : static s ->
  d_ki25 s' = d_ki25 s -> d_ei25 s' = d_ei25 s -> d_bsnij2 s' = d_bsnij2 s ->
  d_kij5 s' = d_kij5 s -> d_uij5 s' = d_uij5 s -> d_gij5 s' = d_gij5 s ->
  d_n0i s' = d_n0i s -> static s'.
Proof. intros [] ? ? ? ? ? ? ?. constructor; congruence. Qed.

Lemma wf_xt cx ct s : wf cx ct s -> wf (new_cx (d_x s) (d_xold s) cx) ct (xt_st cx s).
Proof.
  intros [Hs H1 H2 H3 H4 H5 H6 H7 H8]. unfold xt_st. constructor; dsimp; try assumption;
    try reflexivity.
  apply (static_ext s); trivial.
Qed.

(* alphar *)
Definition tun_st (ct : option F) (s : Detail) : Detail :=
  set_d_told (d_t s) (set_d_tun (tab 58 (cTun (new_ct (d_t s) (d_told s) ct))) s).

Lemma alphar_tun_ok ct s : d_tun s = tab 58 (cTun ct) ->
  alphar_tun s = Some (tun_st ct s).
Proof.
  intros H. unfold alphar_tun, tun_st, new_ct, differs.
  destruct (fabs (d_t s - d_told s) >? flit (L 1 (-7))).
  - rewrite H. rewrite (for_fill_all 58 (fun n _ => fpowf (d_t s) (- lv D_UN n))).
    + cbn [bind]. dsimp. reflexivity.
    + intros i f Hi. rewrite lget_lv by (cbn; lia). cbn [bind]. now rewrite upd_tab by lia.
  - cbn [bind]. rewrite H. reflexivity.
Qed.

Lemma alphar_dknn_ok dred : alphar_dknn dred = Some (tab 10 (fpw dred)).
Proof.
  unfold alphar_dknn. rewrite repeat_tab, upd_tab by lia. cbn [bind].
  apply (for_seq' (fun n => tab 10 (fun j => if Nat.ltb j n then fpw dred j else f0))); [lia| | |].
  - apply tab_ext; intros. destruct i as [|i]; cbn [Nat.eqb]; nat_cases; reflexivity.
  - apply tab_ext; intros; nat_cases; reflexivity.
  - intros i Hi. rewrite get_tab by lia. cbn [bind]. rewrite upd_tab by lia. f_equal.
    apply tab_ext; intros; nat_cases; subst; try reflexivity.
    destruct i as [|i]; [lia|]. cbn [fpw]. now rewrite Nat.sub_succ, Nat.sub_0_r.
Qed.

Lemma alphar_expn_ok dred : alphar_expn (tab 10 (fpw dred)) = Some (tab 5 (pexpn dred)).
Proof.
  unfold alphar_expn. rewrite repeat_tab, upd_tab by lia. cbn [bind].
  apply (for_seq' (fun n => tab 5 (fun j => if Nat.ltb j n then pexpn dred j else f0))); [lia| | |].
  - apply tab_ext; intros. destruct i as [|i]; cbn [Nat.eqb]; nat_cases; reflexivity.
  - apply tab_ext; intros; nat_cases; reflexivity.
  - intros i Hi. rewrite get_tab by lia. cbn [bind]. rewrite upd_tab by lia. f_equal.
    apply tab_ext; intros; nat_cases; subst; try reflexivity.
    destruct i as [|i]; [lia|]. reflexivity.
Qed.

Definition upto (n : nat) (f : nat -> F) : list F :=
  tab 58 (fun j => if Nat.ltb j n then f j else f0).

Lemma upd_upto n f v : (n < 58)%nat -> v = f n -> upd (upto n f) n v = Some (upto (S n) f).
Proof.
  intros H ->. unfold upto. rewrite upd_tab by lia. apply f_equal. apply tab_ext; intros.
  nat_cases; subst; reflexivity.
Qed.
Lemma upd_upto' n f v : (n < 58)%nat -> v = f n -> upd (upto (S n) f) n v = Some (upto (S n) f).
Proof.
  intros H ->. unfold upto. rewrite upd_tab by lia. apply f_equal. apply tab_ext; intros.
  nat_cases; subst; reflexivity.
Qed.
Lemma get_upto n f : (n < 58)%nat -> get (upto (S n) f) n = Some (f n).
Proof. intros H. unfold upto. rewrite get_tab by lia. nat_cases; reflexivity. Qed.

Definition terms_of (k : cache) (dred d : F) (n : nat) : Terms :=
  mkTerms (upto n (tsum0 k dred)) (upto n (tsumb k dred d)) (upto n (cd1 dred))
          (upto n (cd2 dred)) (upto n (cd3 dred)) (upto n ct1) (upto n ct2).

Lemma bn_bound n : (n < 58)%nat -> (bn n < 10)%nat.
Proof.
  intros H. assert (E : forallb (fun b => Nat.ltb b 10) D_BN = true) by reflexivity.
  rewrite forallb_forall in E. apply Nat.ltb_lt. apply E. apply nth_In. exact H.
Qed.
Lemma kn_bound n : (n < 58)%nat -> (kn n < 5)%nat.
Proof.
  intros H. assert (E : forallb (fun b => Nat.ltb b 5) D_KN = true) by reflexivity.
  rewrite forallb_forall in E. apply Nat.ltb_lt. apply E. apply nth_In. exact H.
Qed.

Lemma upd_zero_then n f v w : (n < 58)%nat -> v = f0 -> w = f n ->
  (l <- upd (upto n f) n v ;; upd l n w) = Some (upto (S n) f).
Proof.
  intros H -> ->. unfold upto. rewrite upd_tab by lia. cbn [bind]. rewrite upd_tab by lia.
  apply f_equal. apply tab_ext; intros. nat_cases; subst; reflexivity.
Qed.

Lemma upto_0 f : upto 0 f = repeat f0 58.
Proof. unfold upto. rewrite repeat_tab. apply tab_ext; intros; nat_cases; reflexivity. Qed.

Lemma alphar_terms_ok k s :
  d_bs s = tab 18 (ca_bs k) -> d_csn s = tab 58 (ca_csn k) -> d_tun s = tab 58 (ca_tun k) ->
  forall dred,
  alphar_terms s dred (tab 10 (fpw dred)) (tab 5 (pexpn dred))
  = Some (terms_of k dred (d_d s) 58).
Proof.
  intros HB HC HT dred. unfold alphar_terms.
  apply (for_seq' (terms_of k dred (d_d s))); [lia| |reflexivity|].
  - unfold terms_of, terms0. rewrite !upto_0. reflexivity.
  - intros n Hn. rewrite lget_lv by (cbn; lia). cbn [bind].
    unfold terms_of, upto.
    cbn [tm_sum0 tm_sumb tm_coefd1 tm_coefd2 tm_coefd3 tm_coeft1 tm_coeft2].
    rewrite HB, HC, HT.
    rewrite (get_nth D_BN n 0%nat), (get_nth D_KN n 0%nat) by (cbn; lia).
    change (nth n D_BN 0%nat) with (bn n). change (nth n D_KN 0%nat) with (kn n).
    pose proof (bn_bound n ltac:(lia)). pose proof (kn_bound n ltac:(lia)).
    destruct (Nat.leb_spec n 17) as [Hn17|Hn17], (Nat.leb_spec 12 n) as [Hn12|Hn12]; try lia;
    repeat (first [rewrite get_tab by lia | rewrite upd_tab by lia | rewrite Nat.eqb_refl];
            cbn [bind]);
    apply f_equal; f_equal; apply tab_ext; intros j Hj;
    (destruct (Nat.eqb_spec j n) as [->|Hjn];
     [replace (Nat.ltb n (S n)) with true by (symmetry; apply Nat.ltb_lt; lia)
     |replace (Nat.ltb j (S n)) with (Nat.ltb j n) by (nat_cases; reflexivity); reflexivity]);
    unfold tsum0, tsumb, cd1, cd3; unfold cd2, ct2; nat_cases; reflexivity.
Qed.

(* ar *)
Lemma ar_zero_ok f : ar_zero (tab2 4 4 f) = Some (mk_ar f0 f0 f0 f0 f0 f0 f0 f0).
Proof. Local Transparent tab seq. reflexivity. Local Opaque tab seq. Qed.

Definition facn (n : nat) (g : nat -> F) : F := fold_left (fun a n => a + g n) (seq 0 n) f0.
Definition fdcn (n : nat) (g : nat -> F) : F := fold_left (fun a n => a - g n) (seq 0 n) f0.
Lemma facn_S n g : facn (S n) g = facn n g + g n.
Proof. unfold facn. now rewrite seq_S, fold_left_app. Qed.
Lemma fdcn_S n g : fdcn (S n) g = fdcn n g - g n.
Proof. unfold fdcn. now rewrite seq_S, fold_left_app. Qed.

Lemma get_upto58 f n : (n < 58)%nat -> get (upto 58 f) n = Some (f n).
Proof. intros H. unfold upto. rewrite get_tab by lia. nat_cases; reflexivity. Qed.

Lemma alphar_sums_ok itau k t d dred : dred = dr k d ->
  alphar_sums itau (RDETAIL * t) (terms_of k dred d 58) (mk_ar f0 f0 f0 f0 f0 f0 f0 f0)
  = Some (ar_of itau k t d).
Proof.
  intros ->. unfold alphar_sums, ar_of. destruct (0 <? itau)%Z.
  - apply (for_seq' (fun n => mk_ar
      (facn n (fun n => RDETAIL * t * ts0 k (dr k d) d n))
      (facn n (fun n => RDETAIL * t * ts1 k (dr k d) d n))
      (facn n (fun n => RDETAIL * t * ts2 k (dr k d) n))
      (facn n (fun n => RDETAIL * t * ts3 k (dr k d) n))
      (fdcn n (fun n => ct1 n * ts0 k (dr k d) d n))
      (fdcn n (fun n => ct1 n * ts1 k (dr k d) d n)) f0
      (facn n (fun n => ct2 n * ts0 k (dr k d) d n)))); [lia|reflexivity|reflexivity|].
    intros n Hn. unfold terms_of.
    cbn [tm_sum0 tm_sumb tm_coefd1 tm_coefd2 tm_coefd3 tm_coeft1 tm_coeft2].
    rewrite !get_upto58 by lia. cbn [bind]. rewrite !facn_S, !fdcn_S. reflexivity.
  - apply (for_seq' (fun n => mk_ar
      (facn n (fun n => RDETAIL * t * ts0 k (dr k d) d n))
      (facn n (fun n => RDETAIL * t * ts1 k (dr k d) d n))
      (facn n (fun n => RDETAIL * t * ts2 k (dr k d) n))
      (facn n (fun n => RDETAIL * t * ts3 k (dr k d) n)) f0 f0 f0 f0));
      [lia|reflexivity|reflexivity|].
    intros n Hn. unfold terms_of.
    cbn [tm_sum0 tm_sumb tm_coefd1 tm_coefd2 tm_coefd3 tm_coeft1 tm_coeft2].
    rewrite !get_upto58 by lia. cbn [bind]. rewrite !facn_S. reflexivity.
Qed.

Definition alr_st (itau : Z) cx (ct : option F) (s : Detail) : Detail :=
  set_d_ar (ar_of itau (cache_of cx (new_ct (d_t s) (d_told s) ct)) (d_t s) (d_d s))
    (tun_st ct s).

Lemma alphar_ok itau cx ct s : wf cx ct s -> alphar itau s = Some (alr_st itau cx ct s).
Proof.
  intros H. unfold alphar. destruct (wf_ar _ _ _ H) as [f Hf]. rewrite Hf, ar_zero_ok.
  cbn [bind]. rewrite (alphar_tun_ok ct) by apply H. cbn [bind].
  rewrite alphar_dknn_ok. cbn [bind]. rewrite alphar_expn_ok. cbn [bind].
  rewrite (alphar_terms_ok (cache_of cx (new_ct (d_t s) (d_told s) ct))).
  - cbn [bind]. rewrite alphar_sums_ok; [reflexivity|].
    unfold dr, tun_st. dsimp. cbn [ca_k3 cache_of]. now rewrite (wf_k3 _ _ _ H).
  - unfold tun_st; dsimp. apply H.
  - unfold tun_st; dsimp. apply H.
  - reflexivity.
Qed.

Lemma ar_of_tab2 itau k t d : exists f, ar_of itau k t d = tab2 4 4 f.
Proof.
  exists (fun i j => nth j (nth i (ar_of itau k t d) []) f0).
  Local Transparent tab seq.
  unfold ar_of. destruct (0 <? itau)%Z; reflexivity. Local Opaque tab seq.
Qed.

Lemma ar_of_00 itau k t d : get2 (ar_of itau k t d) 0 0 = Some (ar00 k t d).
Proof. unfold ar_of. destruct (0 <? itau)%Z; reflexivity. Qed.
Lemma ar_of_01 itau k t d : get2 (ar_of itau k t d) 0 1 = Some (ar01 k t d).
Proof. unfold ar_of. destruct (0 <? itau)%Z; reflexivity. Qed.
Lemma ar_of_02 itau k t d : get2 (ar_of itau k t d) 0 2 = Some (ar02 k t d).
Proof. unfold ar_of. destruct (0 <? itau)%Z; reflexivity. Qed.
Lemma ar_of_03 itau k t d : get2 (ar_of itau k t d) 0 3 = Some (ar03 k t d).
Proof. unfold ar_of. destruct (0 <? itau)%Z; reflexivity. Qed.
Lemma ar_of_10 k t d : get2 (ar_of 2 k t d) 1 0 = Some (ar10 k d).
Proof. reflexivity. Qed.
Lemma ar_of_11 k t d : get2 (ar_of 2 k t d) 1 1 = Some (ar11 k d).
Proof. reflexivity. Qed.
Lemma ar_of_20 k t d : get2 (ar_of 2 k t d) 2 0 = Some (ar20 k d).
Proof. reflexivity. Qed.

Lemma wf_alr itau cx ct s : wf cx ct s ->
  wf cx (new_ct (d_t s) (d_told s) ct) (alr_st itau cx ct s).
Proof.
  intros [Hs H1 H2 H3 H4 H5 H6 H7 H8]. unfold alr_st, tun_st.
  constructor; dsimp; try assumption; try reflexivity.
  - now apply (static_ext s).
  - apply ar_of_tab2.
Qed.

Local Opaque ar_of ar00 ar01 ar02 ar03 ar10 ar11 ar20 cTun cBs cCsn cK3 x_diff.
(* pressure *)
Section Press.
Variables (cx : option (list F)) (ct : option F) (s : Detail).
Definition ncx := new_cx (d_x s) (d_xold s) cx.
Definition nct := new_ct (d_t s) (d_told s) ct.
Definition ncache := cache_of ncx nct.
Definition press_st : Detail :=
  set_d_dp_dd_save (pdpdd ncache (d_t s) (d_d s))
    (set_d_z (pz ncache (d_t s) (d_d s)) (alr_st 0 ncx ct (xt_st cx s))).
End Press.

Lemma alr_ar itau cx ct s :
  d_ar (alr_st itau cx ct s)
  = ar_of itau (cache_of cx (new_ct (d_t s) (d_told s) ct)) (d_t s) (d_d s).
Proof. reflexivity. Qed.
Lemma alr_t itau cx ct s : d_t (alr_st itau cx ct s) = d_t s.
Proof. reflexivity. Qed.
Lemma alr_d itau cx ct s : d_d (alr_st itau cx ct s) = d_d s.
Proof. reflexivity. Qed.
Lemma xt_t cx s : d_t (xt_st cx s) = d_t s.
Proof. reflexivity. Qed.
Lemma xt_told cx s : d_told (xt_st cx s) = d_told s.
Proof. reflexivity. Qed.
Lemma xt_d cx s : d_d (xt_st cx s) = d_d s.
Proof. reflexivity. Qed.
Lemma xt_x cx s : d_x (xt_st cx s) = d_x s.
Proof. reflexivity. Qed.

Lemma pressure_tail s a01 a02 :
  get2 (d_ar s) 0 1 = Some a01 -> get2 (d_ar s) 0 2 = Some a02 ->
  (ar01 <- get2 (d_ar s) 0 1 ;; ar02 <- get2 (d_ar s) 0 2 ;;
   let s := set_d_z (f1 + ar01 / RDETAIL / d_t s) s in
   let p := d_d s * RDETAIL * d_t s * d_z s in
   let s := set_d_dp_dd_save (RDETAIL * d_t s + f2 * ar01 + ar02) s in
   Some (s, p))
  = Some (set_d_dp_dd_save (RDETAIL * d_t s + f2 * a01 + a02)
            (set_d_z (f1 + a01 / RDETAIL / d_t s) s),
          d_d s * RDETAIL * d_t s * (f1 + a01 / RDETAIL / d_t s)).
Proof. intros -> ->. reflexivity. Qed.

Lemma pressure_ok cx ct s : wf cx ct s ->
  pressure s = Some (press_st cx ct s, pp (ncache cx ct s) (d_t s) (d_d s)).
Proof.
  intros H. unfold pressure. rewrite (x_terms_ok cx ct) by assumption. cbn [bind].
  rewrite (alphar_ok 0 (ncx cx s) ct) by now apply wf_xt. cbn [bind].
  rewrite (pressure_tail _ _ _
    (eq_trans (f_equal (fun a => get2 a 0 1) (alr_ar _ _ _ _)) (ar_of_01 _ _ _ _))
    (eq_trans (f_equal (fun a => get2 a 0 2) (alr_ar _ _ _ _)) (ar_of_02 _ _ _ _))).
  rewrite !alr_t, !alr_d, !xt_t, !xt_d, !xt_told. reflexivity.
Qed.

(* writes to fields that are neither inputs nor caches keep wf *)
Definition wf_fields_eq (s s' : Detail) : Prop :=
  static s' /\ d_x s' = d_x s /\ d_xold s' = d_xold s /\ d_a0 s' = d_a0 s
  /\ d_ar s' = d_ar s /\ d_k3 s' = d_k3 s /\ d_bs s' = d_bs s /\ d_csn s' = d_csn s
  /\ d_tun s' = d_tun s.
Lemma wf_ext cx ct s s' : wf cx ct s -> wf_fields_eq s s' -> wf cx ct s'.
Proof.
  intros [Hs H1 H2 H3 H4 H5 H6 H7 H8] (E0 & E1 & E2 & E3 & E4 & E5 & E6 & E7 & E8).
  constructor; trivial; try congruence. destruct H4 as [f H4]. exists f. congruence.
Qed.
Ltac wf_setter :=
  match goal with H : wf ?cx ?ct ?s |- wf ?cx ?ct ?s' =>
    apply (wf_ext cx ct s s' H); unfold wf_fields_eq; dsimp; repeat split; trivial;
    try (apply (wf_static _ _ _ H)); apply (static_ext s s' (wf_static _ _ _ H)); reflexivity
  end.
Lemma wf_set_z cx ct s v : wf cx ct s -> wf cx ct (set_d_z v s).
Proof. intros H. wf_setter. Qed.
Lemma wf_set_save cx ct s v : wf cx ct s -> wf cx ct (set_d_dp_dd_save v s).
Proof. intros H. wf_setter. Qed.

Lemma wf_press cx ct s : wf cx ct s -> wf (ncx cx s) (nct ct s) (press_st cx ct s).
Proof.
  intros H. apply wf_xt in H. apply (wf_alr 0) in H.
  apply wf_set_save, wf_set_z. exact H.
Qed.

(* density *)
Lemma wf_set_d cx ct s v : wf cx ct s -> wf cx ct (set_d_d v s).
Proof.
  intros [Hs H1 H2 H3 H4 H5 H6 H7 H8]. constructor; dsimp; try assumption.
  now apply (static_ext s).
Qed.

Lemma wf_dens_start cx ct s : wf cx ct s -> wf cx ct (density_start s).
Proof. intros H. unfold density_start. destruct (_ >? _); now apply wf_set_d. Qed.

Lemma density_loop_wf n plog : forall vlog cx ct s, wf cx ct s ->
  exists s' r cx' ct', density_loop n plog vlog s = Some (s', r) /\ wf cx' ct' s'.
Proof.
  induction n as [|n IH]; intros vlog cx ct s H; cbn [density_loop].
  - unfold density_fail. do 4 eexists. split; [reflexivity|]. apply wf_set_d; eassumption.
  - destruct (negb _).
    + unfold density_fail. do 4 eexists. split; [reflexivity|]. apply wf_set_d; eassumption.
    + apply (wf_set_d _ _ _ (fexp (- vlog))) in H. rewrite (pressure_ok _ _ _ H). cbn [bind].
      apply wf_press in H. destruct (_ || _); [eapply IH; eassumption|].
      destruct (_ <? _).
      * do 4 eexists. split; [reflexivity|]. apply wf_set_d; eassumption.
      * eapply IH; eassumption.
Qed.

Lemma density_wf cx ct s : wf cx ct s ->
  exists s' r cx' ct', density s = Some (s', r) /\ wf cx' ct' s'.
Proof.
  intros H. unfold density. destruct (_ <? _).
  - do 4 eexists. split; [reflexivity|]. apply wf_set_d; eassumption.
  - eapply density_loop_wf. apply wf_dens_start; eassumption.
Qed.

(* molar mass *)
Lemma molar_mass_ok s : length (d_x s) = 21%nat ->
  molar_mass s = Some (set_d_mm (pmm (xf (d_x s))) s, pmm (xf (d_x s))).
Proof.
  intros Hx. unfold molar_mass.
  rewrite (for_seq' (fun n => fold_left (fun a i => a + xf (d_x s) i * lv D_MMI i) (seq 0 n) f0)
             _ 0 (length D_MMI) f0 (pmm (xf (d_x s)))); [reflexivity|cbn; lia|reflexivity|
             reflexivity|].
  intros i Hi. rewrite lget_lv by lia. cbn [bind].
  rewrite (get_nth (d_x s) i f0) by (cbn in Hi; lia). cbn [bind].
  rewrite seq_S, fold_left_app. reflexivity.
Qed.

Lemma wf_set_mm cx ct s v : wf cx ct s -> wf cx ct (set_d_mm v s).
Proof.
  intros [Hs H1 H2 H3 H4 H5 H6 H7 H8]. constructor; dsimp; try assumption.
  now apply (static_ext s).
Qed.

(* ideal gas part *)
Lemma alpha0_hyp_ok s i : static s -> (i < 21)%nat -> alpha0_hyp s i = Some (phyp (d_t s) i).
Proof.
  intros Hs Hi. unfold alpha0_hyp, phyp.
  apply (for_seq' (fun j => fold_left (fun st j => hyp_step (d_t s) i j st) (seq 3 (j - 3))
                              (f0, f0, f0))); [lia|reflexivity|reflexivity|].
  intros j Hj. replace (S j - 3)%nat with (S (j - 3)) by lia. rewrite seq_S, fold_left_app.
  cbn [fold_left]. replace (3 + (j - 3))%nat with j by lia.
  destruct (fold_left _ _ _) as [[h0 h1] h2].
  rewrite (lget2_lv 21 7) by (reflexivity || lia). cbn [bind]. unfold hyp_step.
  destruct (_ >? _); [|reflexivity].
  rewrite (st_n0i s Hs), get2_tab2 by lia. cbn [bind].
  destruct (_ || _); reflexivity.
Qed.

Lemma alpha0_ok cx ct s : wf cx ct s ->
  alpha0_detail s = Some (set_d_a0 (pa0 (xf (d_x s)) (d_t s) (d_d s)) s).
Proof.
  intros H. unfold alpha0_detail. rewrite (wf_x _ _ _ H).
  rewrite (for_seq' (fun n => fold_left (fun st i => a0_step (xf (d_x s)) (d_t s) (d_d s) i st)
                                (seq 0 n) (f0, f0, f0)) _ 0 21 _
                    (pa0sum (xf (d_x s)) (d_t s) (d_d s))); [|lia|reflexivity|reflexivity|].
  - cbn [bind]. unfold pa0. destruct (pa0sum _ _ _) as [[a0 a1] a2].
    destruct (d_a0 s) as [|u [|v [|w [|]]]] eqn:E; pose proof (wf_a0 _ _ _ H) as Hl;
      rewrite E in Hl; cbn in Hl; try discriminate. reflexivity.
  - intros i Hi. rewrite seq_S, fold_left_app. cbn [fold_left plus].
    destruct (fold_left _ _ _) as [[a0 a1] a2].
    rewrite (get_nth (d_x s) i f0) by (rewrite (wf_x _ _ _ H); lia). cbn [bind].
    unfold a0_step, pos. change (nth i (d_x s) f0) with (xf (d_x s) i).
    destruct (_ >? _); [|reflexivity].
    rewrite alpha0_hyp_ok by (apply H || lia). cbn [bind].
    destruct (phyp (d_t s) i) as [[h0 h1] h2].
    rewrite (st_n0i s (wf_static _ _ _ H)), !get2_tab2 by lia. reflexivity.
Qed.

Lemma pa0_length X t d : length (pa0 X t d) = 3%nat.
Proof. unfold pa0. destruct (pa0sum X t d) as [[a0 a1] a2]. reflexivity. Qed.

Lemma wf_set_a0 cx ct s l : length l = 3%nat -> wf cx ct s -> wf cx ct (set_d_a0 l s).
Proof.
  intros Hl [Hs H1 H2 H3 H4 H5 H6 H7 H8]. constructor; dsimp; try assumption.
  now apply (static_ext s).
Qed.

Local Opaque pa0 pmm.
(* properties: the values written *)
Section Props.
Variables (k : cache) (X : nat -> F) (t d : F).
Definition qrt := RDETAIL * t.
Definition qz := f1 + ar01 k t d / qrt.
Definition qp := d * qrt * qz.
Definition qdpdd := qrt + f2 * ar01 k t d + ar02 k t d.
Definition qdpdt := d * RDETAIL + d * ar11 k d.
Definition qa := xf (pa0 X t d) 0 + ar00 k t d.
Definition qs := - xf (pa0 X t d) 1 - ar10 k d.
Definition qu := qa + t * qs.
Definition qcv := - (xf (pa0 X t d) 2 + ar20 k d).
Definition qdense := d >? EPSILON.
Definition qh := if qdense then qu + qp / d else qu + qrt.
Definition qg := if qdense then qa + qp / d else qa + qrt.
Definition qcp := if qdense then qcv + t * fpowi (qdpdt / d) 2 / qdpdd else qcv + RDETAIL.
Definition qd2pdd2 :=
  if qdense then (f2 * ar01 k t d + f4 * ar02 k t d + ar03 k t d) / d else f0.
Definition qjt :=
  if qdense then (t / d * qdpdt / qdpdd - f1) / qcp / d else flit (L 1 20).
Definition qw2 := flit (L 1000 0) * qcp / qcv * qdpdd / pmm X.
Definition qw := fsqrt (if qw2 <? f0 then f0 else qw2).
Definition qkappa := qw * qw * pmm X / (qrt * flit (L 1000 0) * qz).
End Props.

(* all result fields at once *)
Definition set_results (p z dpdd d2 dpdt u h ss cv cp w g jt kappa : F) (s : Detail) : Detail :=
  mkDetail (d_dp_dd_save s) (d_t s) p (d_d s) z (d_mm s) dpdd d2 f0 dpdt u h ss cv cp w g jt
    kappa (d_x s) (d_xold s) (d_told s) (d_ki25 s) (d_ei25 s) (d_bsnij2 s) (d_bs s) (d_kij5 s)
    (d_uij5 s) (d_gij5 s) (d_k3 s) (d_csn s) (d_a0 s) (d_ar s) (d_tun s) (d_n0i s).
Definition res_st (k : cache) (X : nat -> F) (t d : F) (s : Detail) : Detail :=
  set_results (qp k t d) (qz k t d) (qdpdd k t d) (qd2pdd2 k t d) (qdpdt k d) (qu k X t d)
    (qh k X t d) (qs k X t d) (qcv k X t d) (qcp k X t d) (qw k X t d) (qg k X t d)
    (qjt k X t d) (qkappa k X t d) s.

Lemma props_first_eq r00 r01 r02 r10 r11 r20 a0 a1 a2 s :
  let rt := RDETAIL * d_t s in
  props_first r00 r01 r02 r10 r11 r20 a0 a1 a2 s
  = mkDetail (d_dp_dd_save s) (d_t s) (d_d s * rt * (f1 + r01 / rt)) (d_d s) (f1 + r01 / rt)
      (d_mm s) (rt + f2 * r01 + r02) (d_d2p_dd2 s) (d_d2p_dtd s) (d_d s * RDETAIL + d_d s * r11)
      (a0 + r00 + d_t s * (- a1 - r10)) (d_h s) (- a1 - r10) (- (a2 + r20)) (d_cp s) (d_w s)
      (d_g s) (d_jt s) (d_kappa s) (d_x s) (d_xold s) (d_told s) (d_ki25 s) (d_ei25 s)
      (d_bsnij2 s) (d_bs s) (d_kij5 s) (d_uij5 s) (d_gij5 s) (d_k3 s) (d_csn s) (d_a0 s)
      (d_ar s) (d_tun s) (d_n0i s).
Proof. destruct s. reflexivity. Qed.

Lemma props_tail_ok k X t d s :
  d_ar s = ar_of 2 k t d -> d_a0 s = pa0 X t d -> d_t s = t -> d_d s = d ->
  props_results (pmm X) s = Some (res_st k X t d s).
Proof.
  intros Har Ha0 Ht Hd. unfold props_results. rewrite Har, Ha0.
  rewrite ar_of_00, ar_of_01, ar_of_02, ar_of_03, ar_of_10, ar_of_11, ar_of_20. cbn [bind].
  rewrite !(get_nth (pa0 X t d) _ f0) by (rewrite pa0_length; lia).
  cbn [bind].
  fold (xf (pa0 X t d) 0). fold (xf (pa0 X t d) 1). fold (xf (pa0 X t d) 2).
  apply f_equal. clear Har Ha0. unfold res_st.
  unfold qkappa, qw, qw2, qjt, qcp, qg, qh, qd2pdd2, qdense.
  unfold qu, qcv, qs, qa, qdpdt, qdpdd, qp, qz, qrt.
  generalize (xf (pa0 X t d) 0) (xf (pa0 X t d) 1) (xf (pa0 X t d) 2) (ar00 k t d) (ar01 k t d)
    (ar02 k t d) (ar03 k t d) (ar10 k d) (ar11 k d) (ar20 k d) (pmm X).
  intros a0 a1 a2 r00 r01 r02 r03 r10 r11 r20 mm.
  subst t d. rewrite props_first_eq. cbv zeta. dsimp.
  destruct (d_d s >? EPSILON); reflexivity.
Qed.

Definition pre_st cx ct (s : Detail) : Detail :=
  let s := set_d_mm (pmm (xf (d_x s))) s in
  alr_st 2 (ncx cx s) ct (set_d_a0 (pa0 (xf (d_x s)) (d_t s) (d_d s)) (xt_st cx s)).
Definition props_st (cx : option (list F)) (ct : option F) (s : Detail) : Detail :=
  res_st (ncache cx ct s) (xf (d_x s)) (d_t s) (d_d s) (pre_st cx ct s).

Lemma pre_wf cx ct s : wf cx ct s -> wf (ncx cx s) (nct ct s) (pre_st cx ct s).
Proof.
  intros H. apply (wf_set_mm _ _ _ (pmm (xf (d_x s)))) in H. apply wf_xt in H.
  apply (wf_set_a0 _ _ _ _ (pa0_length (xf (d_x s)) (d_t s) (d_d s))) in H.
  apply (wf_alr 2) in H. exact H.
Qed.

Lemma properties_ok cx ct s : wf cx ct s -> properties s = Some (props_st cx ct s).
Proof.
  intros H. unfold properties. rewrite molar_mass_ok by apply H. cbn [bind].
  pose proof (wf_set_mm _ _ _ (pmm (xf (d_x s))) H) as H1.
  rewrite (x_terms_ok cx ct) by assumption. cbn [bind]. apply wf_xt in H1.
  rewrite (alpha0_ok _ _ _ H1). cbn [bind].
  rewrite !xt_t, !xt_d, !xt_x. cbn [d_x d_t d_d set_d_mm].
  pose proof (wf_set_a0 _ _ _ _ (pa0_length (xf (d_x s)) (d_t s) (d_d s)) H1) as H2.
  rewrite (alphar_ok 2 _ _ _ H2). cbn [bind]. clear H1 H2.
  apply (props_tail_ok (ncache cx ct s) (xf (d_x s)) (d_t s) (d_d s)); reflexivity.
Qed.

Lemma wf_props cx ct s : wf cx ct s -> wf (ncx cx s) (nct ct s) (props_st cx ct s).
Proof.
  intros H. apply pre_wf in H. unfold props_st. revert H. generalize (pre_st cx ct s).
  intros s1 H1. apply (wf_ext _ _ _ _ H1). unfold wf_fields_eq. repeat split; trivial;
  apply (static_ext s1 _ (wf_static _ _ _ H1)); reflexivity.
Qed.

(* set_composition *)
Lemma set_composition_ok c s : length (d_x s) = 21%nat ->
  set_composition c s
  = Some (match comp_check c with
          | RErr e => (s, RErr e)
          | ROk => (set_d_x (comp_slots c) s, ROk)
          end).
Proof.
  intros H. unfold set_composition. destruct (comp_check c); [|reflexivity].
  revert H. generalize (d_x s). intros l H.
  do 21 (destruct l as [|? l]; [discriminate H|]). destruct l; [reflexivity|discriminate H].
Qed.
End Eval.

Lemma wf_fresh {A : Arith} : @wf A dp_new None None detail_fresh.
Proof.
  constructor; try reflexivity.
  - apply detail_fresh_static.
  - exists (fun _ _ => f0). unfold tab2. now rewrite <- !repeat_tab.
Qed.
Lemma wf_default {A : Arith} : @wf A dp_zero None None detail_default.
Proof.
  constructor; try reflexivity.
  - apply detail_default_static.
  - exists (fun _ _ => f0). unfold tab2. now rewrite <- !repeat_tab.
Qed.
