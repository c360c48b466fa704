(* The precomputed reducing constants of GERG-2008 (C37). *)
From Coq Require Import Reals ZArith QArith Qreals List Bool Lra Lia.
From Verif Require Import FArith GergTables ArithR SpecDetail SpecGerg SpecTables.
Import ListNotations.
Local Open Scope R_scope.

Definition qlit (l : lit) : Q := let '(L m e) := l in
  match e with
  | Z0 => inject_Z m
  | Zpos p => inject_Z (m * 10 ^ Zpos p)
  | Zneg p => Qmake m (10 ^ p)
  end.
Lemma Q2R_inject z : Q2R (inject_Z z) = IZR z.
Proof. unfold Q2R, inject_Z. cbn [Qnum Qden]. field. Qed.
Lemma qlit_ok l : Q2R (qlit l) = Rlit l.
Proof.
  destruct l as [m [|p|p]]; cbn [qlit Rlit]; [apply Q2R_inject|apply Q2R_inject|].
  unfold Q2R. cbn [Qnum Qden]. rewrite Pos2Z.inj_pow. reflexivity.
Qed.
Definition qcell (l : list ((nat * nat) * lit)) i j : Q :=
  match entry l i j with Some v => qlit v | None => 0%Q end.
Lemma qcell_ok l i j : Q2R (qcell l i j) = cell l i j.
Proof. unfold qcell, cell. destruct (entry l i j); [apply qlit_ok|apply RMicromega.Q2R_0]. Qed.
Definition qtb (l : list lit) i : Q := qlit (nth i l (L 0 0)).
Definition qtb2 (l : list (list lit)) i j : Q := qlit (nth j (nth i l []) (L 0 0)).
Lemma qtb_ok l i : Q2R (qtb l i) = tb l i. Proof. apply qlit_ok. Qed.
Lemma qtb2_ok l i j : Q2R (qtb2 l i j) = tb2 l i j. Proof. apply qlit_ok. Qed.
Lemma qle (a b : Q) : Qle_bool a b = true -> Q2R a <= Q2R b.
Proof. intros H. apply Qle_Rle. now apply Qle_bool_iff. Qed.
Definition roots : list Z :=
  [0;
   46202279075270641969;
   44716613740751906347;
   45487350789646721642;
   52601292451246044501;
   58480186778454004537;
   63747849365628543027;
   63421623851139247688;
   67365853829494019647;
   67750681636400809476;
   71762452013456183990;
   75589716237100125837;
   78637647187869445662;
   82055395240515514904;
   84797955997932384411;
   40602221942306482618;
   41863420955754733513;
   45170693048299479901;
   38246795017339758921;
   46125590459860634834;
   38591521736752489088;
   42093802359930798177]%Z.
(* lower and upper bounds of rhoc^(-1/3) *)
Definition rlo i : Q := Qmake (nth i roots 0%Z) (10 ^ 20).
Definition rhi i : Q := Qmake (nth i roots 0%Z + 1) (10 ^ 20).
Definition cube (q : Q) : Q := (q * q * q)%Q.
Definition eps : Q := (1 # 100000000000000).
Definition up (q : Q) : Q := (q * (1 + eps))%Q.
Definition dn (q : Q) : Q := (q * (1 - eps))%Q.
Definition root_ok i : bool :=
  (Qle_bool 0 (rlo i) && Qle_bool (cube (rlo i) * qtb G_DC i) 1 && Qle_bool 1 (cube (rhi i) * qtb G_DC i)
   && Qle_bool (1 # 1000) (qtb G_DC i))%bool.
Lemma roots_checked : forallb root_ok (seq 1 21) = true.
Proof. vm_compute. reflexivity. Qed.
Definition v_ok i j : bool :=
  if Nat.eqb i j then
    (Qle_bool (1 - eps) (qtb2 G_GVIJ i i * qtb G_DC i) && Qle_bool (qtb2 G_GVIJ i i * qtb G_DC i) (1 + eps))%bool
  else
    let bg := (qcell G_setup_bvij i j * qcell G_setup_gvij i j)%Q in
    (Qle_bool 0 bg && Qle_bool (dn bg * cube (rhi i + rhi j)) (8 * qtb2 G_GVIJ i j)
     && Qle_bool (8 * qtb2 G_GVIJ i j) (up bg * cube (rlo i + rlo j)))%bool.
Definition t_ok i j : bool :=
  if Nat.eqb i j then (Qle_bool (qtb2 G_GTIJ i i) (qtb G_TC i) && Qle_bool (qtb G_TC i) (qtb2 G_GTIJ i i)
    && Qle_bool 0 (qtb G_TC i))%bool
  else
    let bg := (qcell G_setup_btij i j * qcell G_setup_gtij i j)%Q in
    let P := (qtb G_TC i * qtb G_TC j)%Q in
    let g := qtb2 G_GTIJ i j in
    (Qle_bool 0 bg && Qle_bool 0 g && Qle_bool 0 P && Qle_bool (dn bg * dn bg * P) (g * g) && Qle_bool (g * g) (up bg * up bg * P))%bool.
Definition b_ok i j : bool :=
  let g := qtb2 G_BTIJ i j in
  if Nat.eqb i j then (Qle_bool g 1 && Qle_bool 1 g)%bool
  else let b := qcell G_setup_btij i j in
    (Qle_bool (dn (b * b)) g && Qle_bool g (up (b * b)))%bool.
Definition upper (f : nat -> nat -> bool) : bool := forallb (fun i => forallb (f i) (seq i (22 - i))) (seq 1 21).
Lemma v_checked : upper v_ok = true. Proof. vm_compute. reflexivity. Qed.
Lemma t_checked : upper t_ok = true. Proof. vm_compute. reflexivity. Qed.
Lemma b_checked : upper b_ok = true. Proof. vm_compute. reflexivity. Qed.
Lemma upper_at f i j : upper f = true -> (1 <= i <= j)%nat -> (j < 22)%nat -> f i j = true.
Proof.
  intros H Hi Hj. unfold upper in H. rewrite forallb_forall in H. specialize (H i ltac:(apply in_seq; lia)).
  rewrite forallb_forall in H. apply H, in_seq. lia.
Qed.
Lemma Q2R_1 : Q2R 1 = 1. Proof. unfold Q2R. cbn. lra. Qed.
Lemma Q2R_0 : Q2R 0 = 0. Proof. unfold Q2R. cbn. lra. Qed.
Definition e14 : R := 1 / 100000000000000.
Lemma eps_ok : Q2R eps = e14. Proof. unfold Q2R, e14, eps. cbn [Qnum Qden]. lra. Qed.
Lemma up_ok q : Q2R (up q) = Q2R q * (1 + e14).
Proof. unfold up. rewrite Q2R_mult, Q2R_plus, Q2R_1, eps_ok. reflexivity. Qed.
Lemma dn_ok q : Q2R (dn q) = Q2R q * (1 - e14).
Proof. unfold dn. rewrite Q2R_mult, Q2R_minus, Q2R_1, eps_ok. reflexivity. Qed.
Lemma cube_ok q : Q2R (cube q) = Q2R q ^ 3.
Proof. unfold cube. rewrite !Q2R_mult. ring. Qed.
Lemma e14_small : 0 < e14 < 1 / 2. Proof. unfold e14. lra. Qed.

(* (1 - e) b <= a <= (1 + e) b *)
Lemma close_of a b : b * (1 - e14) <= a -> a <= b * (1 + e14) -> close a b.
Proof. intros H1 H2. unfold close. apply Rabs_le. fold e14. lra. Qed.

(* cube roots *)
Definition cr (y : R) : R := Rpower y (- (1 / 3)).
Lemma cr3 y : 0 < y -> cr y ^ 3 = / y.
Proof.
  intros Hy. unfold cr. rewrite <- Rpower_pow by apply exp_pos. rewrite Rpower_mult.
  replace (- (1 / 3) * INR 3) with (- (1)) by (cbn [INR]; field). rewrite Rpower_Ropp, Rpower_1 by assumption. reflexivity.
Qed.
Lemma cr_pos y : 0 < cr y. Proof. apply exp_pos. Qed.
Lemma pow3_le a b : 0 <= b -> a ^ 3 <= b ^ 3 -> a <= b.
Proof.
  intros Hb H. destruct (Rle_lt_dec a b) as [|Hl]; [assumption|exfalso].
  assert (b ^ 3 < a ^ 3); [|lra]. cbn [pow]. rewrite !Rmult_1_r.
  assert (b * b <= a * a) by (apply Rmult_le_compat; lra).
  destruct (Req_dec b 0) as [->|Hn].
  - rewrite !Rmult_0_l. apply Rmult_lt_0_compat; [lra|apply Rmult_lt_0_compat; lra].
  - apply Rlt_le_trans with (a * (b * b)); [apply Rmult_lt_compat_r; [apply Rmult_lt_0_compat; lra|assumption]|].
    apply Rmult_le_compat_l; lra.
Qed.
Lemma root_bounds i : (1 <= i < 22)%nat -> 0 <= Q2R (rlo i) <= cr (rhoc i) /\ cr (rhoc i) <= Q2R (rhi i) /\ 0 < rhoc i.
Proof.
  intros Hi. pose proof roots_checked as H. rewrite forallb_forall in H.
  specialize (H i ltac:(apply in_seq; lia)). unfold root_ok in H. rewrite !andb_true_iff in H.
  destruct H as [[[H1 H2] H3] H4]. apply qle in H1, H2, H3, H4.
  rewrite Q2R_0 in H1. rewrite Q2R_mult, cube_ok, qtb_ok, Q2R_1 in H2, H3. rewrite qtb_ok in H4. fold (rhoc i) in *.
  assert (0 < rhoc i) as Hr. { unfold Q2R in H4. cbn in H4. lra. }
  assert (cr (rhoc i) ^ 3 * rhoc i = 1) as E by (rewrite cr3 by assumption; field; lra).
  pose proof (cr_pos (rhoc i)) as Hc.
  assert (Q2R (rlo i) <= cr (rhoc i)) as L1.
  { apply pow3_le; [lra|]. apply (Rmult_le_reg_r (rhoc i)); lra. }
  split; [split; assumption|]. split; [|assumption].
  apply pow3_le.
  - assert (0 <= Q2R (rhi i)); [|assumption]. apply Rle_trans with (Q2R (rlo i)); [assumption|].
    apply Qle_Rle. unfold rlo, rhi, Qle. cbn [Qnum Qden]. lia.
  - apply (Rmult_le_reg_r (rhoc i)); lra.
Qed.
Lemma v_close i j : (1 <= i <= j)%nat -> (j < 22)%nat -> close (tb2 G_GVIJ i j) (vpub i j).
Proof.
  intros Hi Hj. pose proof (upper_at _ i j v_checked Hi Hj) as H. unfold v_ok in H. unfold vpub.
  destruct (Nat.eqb_spec i j) as [<-|Hn].
  - apply andb_true_iff in H as [H1 H2]. apply qle in H1, H2.
    rewrite Q2R_minus, Q2R_mult, qtb_ok, qtb2_ok, Q2R_1, eps_ok in H1.
    rewrite Q2R_plus, Q2R_mult, qtb_ok, qtb2_ok, Q2R_1, eps_ok in H2. fold (rhoc i) in *.
    destruct (root_bounds i ltac:(lia)) as (_ & _ & Hr).
    apply close_of; apply (Rmult_le_reg_r (rhoc i)); trivial.
    + replace (1 / rhoc i * (1 - e14) * rhoc i) with (1 - e14) by (field; lra). assumption.
    + replace (1 / rhoc i * (1 + e14) * rhoc i) with (1 + e14) by (field; lra). assumption.
  - rewrite !andb_true_iff in H. destruct H as [[H1 H2] H3]. apply qle in H1, H2, H3.
    rewrite Q2R_0 in H1. rewrite !Q2R_mult, dn_ok, cube_ok, Q2R_plus, qtb2_ok in H2.
    rewrite !Q2R_mult, up_ok, cube_ok, Q2R_plus, qtb2_ok in H3. rewrite !Q2R_mult, !qcell_ok in *.
    replace (Q2R 8) with 8 in * by (unfold Q2R; cbn; lra).
    set (bg := cell G_setup_bvij i j * cell G_setup_gvij i j) in *.
    destruct (root_bounds i ltac:(lia)) as ([L1 L2] & L3 & _). destruct (root_bounds j ltac:(lia)) as ([M1 M2] & M3 & _).
    fold (cr (rhoc i)). fold (cr (rhoc j)). pose proof (cr_pos (rhoc i)). pose proof (cr_pos (rhoc j)).
    assert ((Q2R (rlo i) + Q2R (rlo j)) ^ 3 <= (cr (rhoc i) + cr (rhoc j)) ^ 3) as A1 by (apply pow_incr; lra).
    assert ((cr (rhoc i) + cr (rhoc j)) ^ 3 <= (Q2R (rhi i) + Q2R (rhi j)) ^ 3) as A2 by (apply pow_incr; lra).
    pose proof e14_small. set (S := (cr (rhoc i) + cr (rhoc j)) ^ 3) in *.
    assert (bg * (1 - e14) * S <= 8 * tb2 G_GVIJ i j) as B1.
    { eapply Rle_trans; [|exact H2]. apply Rmult_le_compat_l; [apply Rmult_le_pos; lra|exact A2]. }
    assert (8 * tb2 G_GVIJ i j <= bg * (1 + e14) * S) as B2.
    { eapply Rle_trans; [exact H3|]. apply Rmult_le_compat_l; [apply Rmult_le_pos; lra|exact A1]. }
    apply close_of.
    + replace (bg * (1 / 8) * S * (1 - e14)) with (bg * (1 - e14) * S / 8) by field. lra.
    + replace (bg * (1 / 8) * S * (1 + e14)) with (bg * (1 + e14) * S / 8) by field. lra.
Qed.
Lemma t_close i j : (1 <= i <= j)%nat -> (j < 22)%nat -> close (tb2 G_GTIJ i j) (tpub i j).
Proof.
  intros Hi Hj. pose proof (upper_at _ i j t_checked Hi Hj) as H. unfold t_ok in H. unfold tpub.
  pose proof e14_small. destruct (Nat.eqb_spec i j) as [<-|Hn].
  - rewrite !andb_true_iff in H. destruct H as [[H1 H2] H3]. apply qle in H1, H2, H3.
    rewrite ?qtb_ok, ?qtb2_ok, ?Q2R_0 in *. fold (Tc i) in *.
    assert (0 <= Tc i * e14) by (apply Rmult_le_pos; lra). apply close_of; lra.
  - rewrite !andb_true_iff in H. destruct H as [[[[H1 H2] H3] H4] H5]. apply qle in H1, H2, H3, H4, H5.
    rewrite ?Q2R_mult, ?Q2R_0, ?up_ok, ?dn_ok, ?Q2R_mult, ?qcell_ok, ?qtb_ok, ?qtb2_ok in *.
    set (bg := cell G_setup_btij i j * cell G_setup_gtij i j) in *. fold (Tc i) in *. fold (Tc j) in *.
    set (P := Tc i * Tc j) in *. set (g := tb2 G_GTIJ i j) in *.
    assert (0 <= bg * (1 - e14)) by (apply Rmult_le_pos; lra).
    assert (0 <= bg * (1 + e14)) by (apply Rmult_le_pos; lra).
    assert (forall c, 0 <= c -> sqrt (c * c * P) = c * sqrt P) as Sq.
    { intros c Hc. rewrite sqrt_mult by (trivial; apply Rmult_le_pos; lra). now rewrite sqrt_square. }
    apply sqrt_le_1_alt in H4, H5. rewrite Sq, sqrt_square in H4, H5 by assumption.
    apply close_of.
    + replace (bg * sqrt P * (1 - e14)) with (bg * (1 - e14) * sqrt P) by ring. assumption.
    + replace (bg * sqrt P * (1 + e14)) with (bg * (1 + e14) * sqrt P) by ring. assumption.
Qed.
Lemma b_close i j : (1 <= i <= j)%nat -> (j < 22)%nat -> close (tb2 G_BTIJ i j) (bpub i j).
Proof.
  intros Hi Hj. pose proof (upper_at _ i j b_checked Hi Hj) as H. unfold b_ok in H. cbv zeta in H. unfold bpub.
  pose proof e14_small. destruct (Nat.eqb_spec i j) as [<-|Hn]; apply andb_true_iff in H as [H1 H2]; apply qle in H1, H2;
  rewrite ?up_ok, ?dn_ok, ?Q2R_mult, ?Q2R_1, ?qcell_ok, ?qtb2_ok in *.
  - apply close_of; lra.
  - apply close_of; cbn [pow]; rewrite Rmult_1_r; assumption.
Qed.
