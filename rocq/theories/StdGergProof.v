(* The model's GERG-2008 tables hold the printed values, so that the equation over the model's tables
   (SpecGerg) is the printed equation (SpecStd). *)
From Coq Require Import Reals ZArith List Bool Lra Lia.
From Coquelicot Require Import Coquelicot.
From Verif Require Import FArith DetailTables GergTables ArithR SpecDetail SpecGerg SpecTables StdGerg SpecStd
  GergModel GergPure DetailEos GergEos GergLimit TablesReal IdealGas StdDetailProof Prelude Composition Api SpecReal GenericLemmas GergThermo.
Import ListNotations.
Local Open Scope R_scope.

(* sums *)
Lemma lsum_map {T U} (g : T -> U) f l : lsum f (map g l) = lsum (fun a => f (g a)) l.
Proof. induction l as [|a l IH]; [reflexivity|]. unfold lsum in *. cbn. now rewrite IH. Qed.
Lemma lsum_app {T} (f : T -> R) a b : lsum f (a ++ b) = lsum f a + lsum f b.
Proof. unfold lsum. induction a as [|c a IH]; cbn; [ring|]. rewrite IH. ring. Qed.
Lemma lsum_ext {T} (f g : T -> R) l : (forall a, In a l -> f a = g a) -> lsum f l = lsum g l.
Proof.
  unfold lsum. induction l as [|a l IH]; intros H; cbn; [reflexivity|].
  rewrite (H a) by now left. rewrite IH; [reflexivity|]. intros; apply H; now right.
Qed.
Lemma lsum_seq f a n : lsum f (seq (S a) n) = sumf a n f.
Proof.
  unfold sumf. induction n as [|n IH]; [reflexivity|]. rewrite seq_S, lsum_app, IH. cbn [sum lsum fold_right].
  replace (S a + n)%nat with (a + S n)%nat by lia. ring.
Qed.
Lemma lsum_seq0 f n : lsum f (seq 0 n) = sum n f.
Proof.
  induction n as [|n IH]; [reflexivity|]. rewrite seq_S, lsum_app, IH. cbn [sum lsum fold_right Nat.add]. ring.
Qed.
Lemma lsum_filter {T} (f : T -> R) b l : (forall a, b a = false -> f a = 0) -> lsum f (filter b l) = lsum f l.
Proof.
  intros H. induction l as [|a l IH]; [reflexivity|]. cbn [filter]. destruct (b a) eqn:E; cbn [lsum fold_right]; fold (lsum f l).
  - fold (lsum f (filter b l)). now rewrite IH.
  - rewrite IH, (H a E). ring.
Qed.
Definition allp (n : nat) : list (nat * nat) := flat_map (fun j => map (fun i => (S i, S j)) (seq 0 j)) (seq 0 n).
Lemma pairs1_allp n f : pairs1 n f = lsum (fun p => f (fst p) (snd p)) (allp n).
Proof.
  unfold pairs1, pairs, allp. induction n as [|n IH]; [reflexivity|]. cbn [sum]. rewrite seq_S, flat_map_app, lsum_app, <- IH.
  f_equal. cbn [flat_map Nat.add]. rewrite app_nil_r, lsum_map. cbn [fst snd]. symmetry. apply lsum_seq0.
Qed.

(* pure components *)
Definition texpl i k : lit :=
  match expo G_setup_toik_all G_setup_toik_long G_setup_toik i k with Some v => v | None => L 0 0 end.
Lemma texpl_ok i k : texp i k = Rlit (texpl i k).
Proof. unfold texp, texpl. destruct (expo _ _ _ i k); reflexivity. Qed.
Definition mrow i k : lit * nat * lit * nat :=
  (nth k (nth i G_NOIK []) (L 0 0), dexp i k, texpl i k, if Nat.leb k (nth i G_KPOL 0%nat) then 0%nat else cexp i k).
Lemma pure_rows i : (1 <= i < 22)%nat ->
  nth i PURE [] = map (mrow i) (seq 1 (nth i G_KPOL 0 + nth i G_KEXP 0)%nat).
Proof. intros Hi. do 22 (destruct i as [|i]; [try lia; vm_compute; reflexivity|]). lia. Qed.
Lemma pure_std delta tau i : (1 <= i < 22)%nat -> lsum (pure_term delta tau) (nth i PURE []) = alpha_o delta tau i.
Proof.
  intros Hi. rewrite pure_rows by exact Hi. rewrite seq_app, map_app, lsum_app, !lsum_map. unfold alpha_o.
  change (1 + nth i G_KPOL 0)%nat with (S (nth i G_KPOL 0%nat)). rewrite !lsum_seq. f_equal.
  - apply sum_ext'. intros m Hm. unfold mrow, pure_term. rewrite (proj2 (Nat.leb_le _ _)) by lia.
    rewrite texpl_ok, Rmult_1_r. reflexivity.
  - apply sum_ext'. intros m Hm. unfold mrow, pure_term. rewrite (proj2 (Nat.leb_gt _ _)) by lia.
    pose proof (table_exps i (nth i G_KPOL 0 + S m)%nat Hi ltac:(unfold kpol, kexp; lia)) as (_ & _ & H & _). specialize (H ltac:(unfold kpol; lia)).
    destruct (cexp i (nth i G_KPOL 0 + S m)%nat) eqn:E; [lia|]. rewrite texpl_ok. reflexivity.
Qed.

(* departure functions *)
Definition celll (l : list ((nat * nat) * lit)) i j : lit := match entry l i j with Some v => v | None => L 0 0 end.
Lemma celll_ok l i j : cell l i j = Rlit (celll l i j).
Proof. unfold cell, celll. destruct (entry l i j); reflexivity. Qed.
Definition drow m k : lit * nat * lit * list lit :=
  (celll G_setup_nijk m k, ncell G_setup_dijk m k, celll G_setup_tijk m k,
   if Nat.leb k (nth m G_KPOLIJ 0%nat) then [L 0 0; L 0 0; L 0 0; L 0 0]
   else [celll G_setup_cijk m k; celll G_setup_eijk m k; celll G_setup_bijk m k; celll G_setup_gijk m k]).
Definition used : list nat := [1; 2; 3; 4; 5; 6; 7; 10]%nat.
Lemma departure_rows m : In m used -> dep_rows m = map (drow m) (seq 1 (nth m G_KPOLIJ 0 + nth m G_KEXPIJ 0)%nat).
Proof. intros H. repeat (destruct H as [<-|H]; [vm_compute; reflexivity|]). destruct H. Qed.
Lemma dep_std delta tau m : In m used -> lsum (dep_term delta tau) (dep_rows m) = alpha_m delta tau m.
Proof.
  intros Hm. rewrite departure_rows by exact Hm. rewrite seq_app, map_app, lsum_app, !lsum_map. unfold alpha_m.
  change (1 + nth m G_KPOLIJ 0)%nat with (S (nth m G_KPOLIJ 0%nat)). rewrite !lsum_seq. f_equal.
  - apply sum_ext'. intros k Hk. unfold drow, dep_term. rewrite (proj2 (Nat.leb_le _ _)) by lia. cbn [nth].
    rewrite !celll_ok. change (Rlit (L 0 0)) with 0.
    replace (- 0 * _ ^ 2 - 0 * _) with 0 by ring. rewrite exp_0, Rmult_1_r. reflexivity.
  - apply sum_ext'. intros k Hk. unfold drow, dep_term. rewrite (proj2 (Nat.leb_gt _ _)) by lia. cbn [nth].
    rewrite !celll_ok. reflexivity.
Qed.
Definition mn (p : nat * nat) : nat := nth (snd p) (nth (fst p) G_MNUMB []) 0%nat.
Definition has (p : nat * nat) : bool := negb (Nat.eqb (mn p) 0).
Definition dlit (p : nat * nat) : nat * nat * lit * nat :=
  (fst p, snd p, nth (snd p) (nth (fst p) G_FIJ []) (L 0 0), mn p).
Lemma departs_rows : DEPARTS = map dlit (filter has (allp 21)).
Proof. vm_compute. reflexivity. Qed.
Definition usedb (p : nat * nat) : bool := existsb (Nat.eqb (mn p)) used.
Lemma departs_used : forallb usedb (filter has (allp 21)) = true.
Proof. vm_compute. reflexivity. Qed.
Lemma departures_std x delta tau :
  lsum (fun r => let '(i, j, f, m) := r in x i * x j * Rlit f * lsum (dep_term delta tau) (dep_rows m)) DEPARTS
  = pairs1 21 (departure x delta tau).
Proof.
  rewrite departs_rows, lsum_map, pairs1_allp, <- (lsum_filter _ has (allp 21)).
  - apply lsum_ext. intros p Hp. unfold dlit, departure. fold (mn p).
    assert (In (mn p) used) as Hu.
    { pose proof (proj1 (forallb_forall usedb _) departs_used p Hp) as H. unfold usedb in H.
      apply existsb_exists in H. destruct H as (m & Hm & E). apply Nat.eqb_eq in E. now rewrite E. }
    rewrite dep_std by exact Hu. destruct (mn p) eqn:E; [|reflexivity].
    exfalso. cbn in Hu. repeat (destruct Hu as [Hu|Hu]; [lia|]). exact Hu.
  - intros p Hp. unfold has in Hp. apply negb_false_iff, Nat.eqb_eq in Hp. unfold departure. fold (mn p). now rewrite Hp.
Qed.
Lemma residual_std x delta tau : residual x delta tau = alphar x delta tau.
Proof.
  unfold residual, alphar. rewrite departures_std. f_equal. apply sum_ext'. intros m Hm. cbn [Nat.add].
  now rewrite pure_std by lia.
Qed.

(* reducing functions *)
Definition redl (c i j : nat) : lit :=
  match find (fun r => Nat.eqb (fst (fst r)) i && Nat.eqb (snd (fst r)) j)%bool REDUCING with
  | Some r => nth c (snd r) (L 0 0) | None => L 0 0 end.
Lemma red_l c i j : red c i j = Rlit (redl c i j).
Proof. unfold red, redl. destruct (find _ _); reflexivity. Qed.
Definition red_ok (c : nat) (l : list ((nat * nat) * lit)) (p : nat * nat) : bool := liteqb (redl c (fst p) (snd p)) (celll l (fst p) (snd p)).
Lemma bv_checked : forallb (red_ok 0 G_setup_bvij) (allp 21) = true. Proof. vm_compute. reflexivity. Qed.
Lemma gv_checked : forallb (red_ok 1 G_setup_gvij) (allp 21) = true. Proof. vm_compute. reflexivity. Qed.
Lemma bt_checked : forallb (red_ok 2 G_setup_btij) (allp 21) = true. Proof. vm_compute. reflexivity. Qed.
Lemma gt_checked : forallb (red_ok 3 G_setup_gtij) (allp 21) = true. Proof. vm_compute. reflexivity. Qed.
Lemma in_allp n i j : (1 <= i < j)%nat -> (j <= n)%nat -> In (i, j) (allp n).
Proof.
  intros Hi Hj. apply in_flat_map. exists (j - 1)%nat. split; [apply in_seq; lia|]. apply in_map_iff. exists (i - 1)%nat.
  split; [f_equal; lia|apply in_seq; lia].
Qed.
Lemma red_cell c l i j : forallb (red_ok c l) (allp 21) = true -> (1 <= i < j)%nat -> (j < 22)%nat -> red c i j = cell l i j.
Proof.
  intros H Hi Hj. rewrite red_l, celll_ok. f_equal. apply liteqb_ok.
  exact (proj1 (forallb_forall (red_ok c l) (allp 21)) H (i, j) (in_allp 21 i j Hi ltac:(lia))).
Qed.
Lemma rho_std i : rho_c i = rhoc i.
Proof. unfold rho_c, rhoc, tb. f_equal. apply (nth_col fst CRIT (L 0 0, L 0 0)). reflexivity. Qed.
Lemma T_std i : T_c i = Tc i.
Proof. unfold T_c, Tc, tb. f_equal. apply (nth_col snd CRIT (L 0 0, L 0 0)). reflexivity. Qed.
Lemma vred_std x : red_volume x (tb2 G_GVIJ) = vred x.
Proof.
  unfold red_volume, vred. apply f_equal2; [reflexivity|]. unfold pair_sum, pairs1.
  apply (pairs_ext 21 (fun i j => 2 * x (S i) * x (S j) * tb2 G_GVIJ (S i) (S j) * (x (S i) + x (S j)) / (red 0 (S i) (S j) ^ 2 * x (S i) + x (S j)))). intros i j Hij.
  now rewrite (red_cell 0 _ _ _ bv_checked) by lia.
Qed.
Lemma tred_std x : red_temp x (tb2 G_GTIJ) (tb2 G_BTIJ) = tred x.
Proof. reflexivity. Qed.
Lemma v_std i j : (1 <= i <= j)%nat -> (j < 22)%nat -> near (tb2 G_GVIJ i j) (v_red i j).
Proof.
  intros Hi Hj. replace (v_red i j) with (vpub i j); [exact (v_close i j Hi Hj)|]. unfold v_red, vpub. rewrite !rho_std.
  destruct (Nat.eqb_spec i j); [reflexivity|]. now rewrite (red_cell 0 _ _ _ bv_checked), (red_cell 1 _ _ _ gv_checked) by lia.
Qed.
Lemma t_std i j : (1 <= i <= j)%nat -> (j < 22)%nat -> near (tb2 G_GTIJ i j) (t_red i j).
Proof.
  intros Hi Hj. replace (t_red i j) with (tpub i j); [exact (t_close i j Hi Hj)|]. unfold t_red, tpub. rewrite !T_std.
  destruct (Nat.eqb_spec i j); [reflexivity|]. now rewrite (red_cell 2 _ _ _ bt_checked), (red_cell 3 _ _ _ gt_checked) by lia.
Qed.
Lemma b_std i j : (1 <= i <= j)%nat -> (j < 22)%nat -> near (tb2 G_BTIJ i j) (b_red i j).
Proof.
  intros Hi Hj. replace (b_red i j) with (bpub i j); [exact (b_close i j Hi Hj)|]. unfold b_red, bpub.
  destruct (Nat.eqb_spec i j); [reflexivity|]. now rewrite (red_cell 2 _ _ _ bt_checked) by lia.
Qed.
Lemma gerg_std : exists gv gt bt : nat -> nat -> R,
  (forall i j, (1 <= i <= j)%nat -> (j < 22)%nat ->
    near (gv i j) (v_red i j) /\ near (gt i j) (t_red i j) /\ near (bt i j) (b_red i j)) /\
  forall x t d, (exists i, (1 <= i < 22)%nat /\ 1 / 1000000 < x i) -> 1 / 10000000 < t ->
  let delta := d * red_volume (ac x) gv in let tau := red_temp (ac x) gt bt / t in
  exists a' : R, is_derive (fun delta => residual (ac x) delta tau) delta a' /\
    gpres New x t d = d * Rg * t * (1 + delta * a') /\ gprop New PZ x t d = 1 + delta * a'.
Proof.
  exists (tb2 G_GVIJ), (tb2 G_GTIJ), (tb2 G_BTIJ). split.
  - intros i j Hi Hj. split; [now apply v_std|]. split; [now apply t_std|now apply b_std].
  - intros x t d H Ht. cbv zeta. rewrite vred_std, tred_std. destruct (gpres_alphar x H t Ht d) as (a' & Ha & Hp).
    exists a'. split; [|exact Hp]. eapply is_derive_ext; [|exact Ha]. intros e. symmetry. apply residual_std.
Qed.
