(* The checked model of the DETAIL code never panics and computes the closed forms of
   DetailPure.v. *)
From Coq Require Import ZArith List Bool Lia.
From Verif Require Import FArith Prelude Tab Composition DetailTables DetailModel DetailPure.
Import ListNotations.

Definition rect {T} (r c : nat) (t : list (list T)) : bool :=
  Nat.eqb (length t) r && forallb (fun l => Nat.eqb (length l) c) t.

Lemma rect_nth {T} r c (t : list (list T)) i : rect r c t = true -> i < r ->
  length (nth i t []) = c.
Proof.
  unfold rect. intros H Hi. apply andb_true_iff in H. destruct H as [H1 H2].
  apply Nat.eqb_eq in H1. rewrite forallb_forall in H2.
  apply Nat.eqb_eq. apply H2. apply nth_In. lia.
Qed.

Lemma get_nth {T} (l : list T) i d : i < length l -> get l i = Some (nth i l d).
Proof. intros H. now apply nth_error_nth'. Qed.

Lemma get2_nth {T} r c (t : list (list T)) i j d : rect r c t = true -> i < r -> j < c ->
  get2 t i j = Some (nth j (nth i t []) d).
Proof.
  intros H Hi Hj. unfold get2. rewrite (get_nth _ _ []).
  - cbn [bind]. apply get_nth. now rewrite (rect_nth r c).
  - unfold rect in H. apply andb_true_iff in H. destruct H as [H _]. apply Nat.eqb_eq in H. lia.
Qed.

Section Refine.
Context {A : Arith}.
Local Open Scope bool_scope.
Local Open Scope F_scope.

Lemma lget_lv t i : (i < length t)%nat -> lget t i = Some (lv t i).
Proof. intros H. unfold lget, lv. now rewrite (get_nth _ _ (L 0 0)). Qed.

Lemma lget2_lv r c t i j : rect r c t = true -> (i < r)%nat -> (j < c)%nat ->
  lget2 t i j = Some (lv2 t i j).
Proof. intros H Hi Hj. unfold lget2, lv2. now rewrite (get2_nth r c t i j (L 0 0)). Qed.

(* in-range checks of assignment lists *)
Definition in_range {T} (r c : nat) (l : list ((nat * nat) * T)) : bool :=
  forallb (fun e => Nat.ltb (fst (fst e)) r && Nat.ltb (snd (fst e)) c) l.

Lemma alookup_app {T} (l : list ((nat * nat) * T)) e i j :
  alookup (l ++ [e]) i j
  = if Nat.eqb i (fst (fst e)) && Nat.eqb j (snd (fst e)) then Some (snd e) else alookup l i j.
Proof. unfold alookup. now rewrite fold_left_app. Qed.

Lemma assign2_tab r c l (f : nat -> nat -> F) : in_range r c l = true ->
  assign2 l (tab2 r c f) = Some (tab2 r c (fun i j => aval l i j (f i j))).
Proof.
  induction l as [|e l IH] using rev_ind; intros H; [reflexivity|].
  unfold in_range in H. rewrite forallb_app in H. apply andb_true_iff in H.
  destruct H as [H1 H2]. cbn in H2. rewrite andb_true_r in H2.
  apply andb_true_iff in H2. destruct H2 as [H2 H3].
  apply Nat.ltb_lt in H2, H3.
  unfold assign2 in *. rewrite fold_left_app, (IH H1). cbn [fold_left bind].
  rewrite upd2_tab2 by assumption. f_equal. apply tab2_ext. intros i j Hi Hj.
  unfold aval. rewrite alookup_app.
  destruct (Nat.eqb i (fst (fst e)) && Nat.eqb j (snd (fst e))); reflexivity.
Qed.

Ltac tl := rewrite ?lget_lv by (vm_compute; lia).
Ltac rt := try reflexivity.

(* setup *)
Ltac tabf := apply tab_ext; intros; nat_cases; subst; reflexivity.

Lemma setup_pow_ok s : d_ki25 s = repeat f0 21 -> d_ei25 s = repeat f0 21 ->
  setup_pow s = Some (set_d_ei25 (tab 21 Dei25) (set_d_ki25 (tab 21 Dki25) s)).
Proof.
  intros H1 H2. unfold setup_pow.
  apply (for_seq' (fun i =>
    set_d_ei25 (tab 21 (fun j => if Nat.ltb j i then Dei25 j else f0))
      (set_d_ki25 (tab 21 (fun j => if Nat.ltb j i then Dki25 j else f0)) s))).
  - unfold MAXFLDS; lia.
  - destruct s; dsimp_in H1; dsimp_in H2; dsimp. subst. rewrite !repeat_tab.
    dunf. f_equal; tabf.
  - unfold MAXFLDS. apply f_equal2; [tabf|]. apply f_equal2; [tabf|reflexivity].
  - intros i Hi. unfold MAXFLDS in Hi.
    rewrite !lget_lv by (cbn; lia). cbn [bind]. dsimp.
    rewrite !upd_tab by lia. cbn [bind]. dunf.
    f_equal. f_equal; tabf.
Qed.

Lemma setup_bsnij_ok i j n : (i < 21)%nat -> (j < 21)%nat -> (n < 18)%nat ->
  setup_bsnij i j n = Some (Dbsnij i j n).
Proof.
  intros Hi Hj Hn. unfold setup_bsnij.
  rewrite !lget_lv by (cbn; lia). rewrite !(lget2_lv 21 21) by (try reflexivity; lia).
  rewrite !(get_nth _ n 0%nat) by (cbn; lia). cbn [bind]. reflexivity.
Qed.

Lemma setup_bsnij2_ok i j n : (i < 21)%nat -> (j < 21)%nat -> (n < 18)%nat ->
  setup_bsnij2 i j n = Some (Dbsn2 i j n).
Proof.
  intros Hi Hj Hn. unfold setup_bsnij2. rewrite setup_bsnij_ok by assumption.
  rewrite !lget_lv by (cbn; lia). rewrite !(lget2_lv 21 21) by (try reflexivity; lia).
  cbn [bind]. reflexivity.
Qed.

(* cells before (i, j) in row-major order hold g, the others are still zero *)
Definition part2 (g : nat -> nat -> F) (i j a b : nat) : F :=
  if Nat.ltb a i || (Nat.eqb a i && Nat.ltb b j) then g a b else f0.
Definition part3 (g : nat -> nat -> nat -> F) (i j a b n : nat) : F :=
  if Nat.ltb a i || (Nat.eqb a i && Nat.ltb b j) then g a b n else f0.
Definition pairs_st (s : Detail) (i j : nat) : Detail :=
  set_d_gij5 (tab2 21 21 (part2 Dgij5 i j))
    (set_d_uij5 (tab2 21 21 (part2 Duij5 i j))
      (set_d_kij5 (tab2 21 21 (part2 Dkij5 i j))
        (set_d_bsnij2 (tab3 21 21 18 (part3 Dbsn2 i j)) s))).

Ltac tab2f := apply tab2_ext; intros; unfold part2; nat_cases; subst; reflexivity.
Ltac tab3f := apply tab3_ext; intros; unfold part3; nat_cases; subst; reflexivity.

Lemma setup_pair_ok s i j : (i < 21)%nat -> (j < 21)%nat ->
  d_ki25 s = tab 21 Dki25 -> d_ei25 s = tab 21 Dei25 ->
  (b <- for_ 0 18 (fun n b => v <- setup_bsnij2 i j n ;; upd3 b i j n v)
          (d_bsnij2 (pairs_st s i j)) ;;
   setup_pair i j (set_d_bsnij2 b (pairs_st s i j)))
  = Some (pairs_st s i (S j)).
Proof.
  intros Hi Hj H1 H2.
  rewrite (for_seq' (fun n => tab3 21 21 18 (fun a b m =>
     if Nat.eqb a i && Nat.eqb b j && Nat.ltb m n then Dbsn2 a b m else part3 Dbsn2 i j a b m))
     _ 0 18 _ (tab3 21 21 18 (part3 Dbsn2 i (S j)))); [|lia| | |].
  - cbn [bind]. unfold setup_pair, pairs_st. dsimp. rewrite H1, H2, !get_tab by lia.
    rewrite !lget_lv by (cbn; lia). rewrite !(lget2_lv 21 21) by (try reflexivity; lia).
    cbn [bind]. rewrite !upd2_tab2 by lia. cbn [bind]. dunf.
    f_equal. f_equal; tab2f.
  - unfold pairs_st; dsimp. apply tab3_ext; intros. nat_cases; reflexivity.
  - tab3f.
  - intros n Hn. rewrite setup_bsnij2_ok by lia. cbn [bind]. rewrite upd3_tab3 by lia.
    f_equal. tab3f.
Qed.

Lemma setup_pairs_ok s :
  d_ki25 s = tab 21 Dki25 -> d_ei25 s = tab 21 Dei25 ->
  d_bsnij2 s = tab3 21 21 18 (fun _ _ _ => f0) ->
  d_kij5 s = tab2 21 21 (fun _ _ => f0) ->
  d_uij5 s = tab2 21 21 (fun _ _ => f0) ->
  d_gij5 s = tab2 21 21 (fun _ _ => f0) ->
  setup_pairs s = Some (set_d_gij5 (tab2 21 21 Dgij5) (set_d_uij5 (tab2 21 21 Duij5)
    (set_d_kij5 (tab2 21 21 Dkij5) (set_d_bsnij2 (tab3 21 21 18 Dbsn2) s)))).
Proof.
  intros H1 H2 H3 H4 H5 H6. unfold setup_pairs, MAXFLDS.
  apply (for_seq' (fun i => pairs_st s i 0)); [lia| | |].
  - unfold pairs_st. destruct s; dsimp_in H3; dsimp_in H4; dsimp_in H5; dsimp_in H6; dsimp.
    subst. dunf. f_equal; first [tab2f|tab3f].
  - unfold pairs_st. do 3 (apply f_equal2; [tab2f|]). apply f_equal2; [tab3f|reflexivity].
  - intros i Hi. apply (for_seq' (fun j => pairs_st s i j)); [lia|reflexivity| |].
    + unfold pairs_st. do 3 (apply f_equal2; [tab2f|]). apply f_equal2; [tab3f|reflexivity].
    + intros j Hj. apply setup_pair_ok; (assumption || lia).
Qed.

Lemma setup_n0i_ok :
  setup_n0i (tab2 21 7 (fun i j => aval D_setup_n0i i j f0)) = Some (tab2 21 7 Dn0i).
Proof.
  unfold setup_n0i, MAXFLDS.
  apply (for_seq' (fun i => tab2 21 7 (fun a b =>
    if Nat.ltb a i then Dn0i a b else aval D_setup_n0i a b f0))); [lia| | |].
  - apply tab2_ext; intros; nat_cases; reflexivity.
  - apply tab2_ext; intros; nat_cases; reflexivity.
  - intros i Hi. rewrite get2_tab2 by lia. cbn [bind]. rewrite upd2_tab2 by lia. cbn [bind].
    rewrite get2_tab2 by lia. cbn [bind]. rewrite upd2_tab2 by lia. f_equal.
    apply tab2_ext; intros a b Ha Hb. unfold Dn0i. nat_cases; subst; try reflexivity; congruence.
Qed.

(* the constant part of the object *)
Record static {P : DParams} (s : Detail) : Prop := {
  st_ki25 : d_ki25 s = tab 21 q_ki25;
  st_ei25 : d_ei25 s = tab 21 q_ei25;
  st_bsnij2 : d_bsnij2 s = tab3 21 21 18 q_bsn2;
  st_kij5 : d_kij5 s = tab2 21 21 q_kij5;
  st_uij5 : d_uij5 s = tab2 21 21 q_uij5;
  st_gij5 : d_gij5 s = tab2 21 21 q_gij5;
  st_n0i : d_n0i s = tab2 21 7 q_n0i }.

Definition detail_fresh : Detail :=
  set_d_n0i (tab2 21 7 Dn0i) (set_d_gij5 (tab2 21 21 Dgij5) (set_d_uij5 (tab2 21 21 Duij5)
    (set_d_kij5 (tab2 21 21 Dkij5) (set_d_bsnij2 (tab3 21 21 18 Dbsn2)
      (set_d_ei25 (tab 21 Dei25) (set_d_ki25 (tab 21 Dki25) detail_default)))))).

Lemma detail_new_ok : detail_new = Some detail_fresh.
Proof.
  unfold detail_new, setup. rewrite setup_pow_ok by reflexivity. cbn [bind]. dsimp.
  change (d_n0i detail_default) with (repeat (repeat (@f0 A) 7) 21).
  rewrite !repeat_tab.
  change (tab 21 (fun _ => tab 7 (fun _ => @f0 A))) with (tab2 21 7 (fun _ _ => @f0 A)).
  rewrite assign2_tab by reflexivity. cbn [bind].
  rewrite setup_pairs_ok; dsimp.
  - cbn [bind]. dsimp. rewrite setup_n0i_ok. cbn [bind]. f_equal.
  - reflexivity.
  - reflexivity.
  - cbn [d_bsnij2 detail_default]. unfold MAXFLDS. now rewrite !repeat_tab.
  - cbn [d_kij5 detail_default]. unfold MAXFLDS. now rewrite !repeat_tab.
  - cbn [d_uij5 detail_default]. unfold MAXFLDS. now rewrite !repeat_tab.
  - cbn [d_gij5 detail_default]. unfold MAXFLDS. now rewrite !repeat_tab.
Qed.

Lemma detail_fresh_static : @static dp_new detail_fresh.
Proof. constructor; reflexivity. Qed.

Lemma detail_default_static : @static dp_zero detail_default.
Proof.
  constructor; cbn [d_ki25 d_ei25 d_bsnij2 d_kij5 d_uij5 d_gij5 d_n0i detail_default];
  unfold tab3, tab2, MAXFLDS; now rewrite !repeat_tab.
Qed.

End Refine.
