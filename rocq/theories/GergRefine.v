(* The constructor of the GERG-2008 object never panics; the object it returns. *)
From Coq Require Import ZArith List Bool Lia.
From Verif Require Import FArith Prelude Tab Composition DetailModel DetailPure DetailRefine
  GergTables GergModel GergPure.
Import ListNotations.

(* naturality of checked updates *)
Lemma upd_map {T U} (h : T -> U) a i v :
  upd (map h a) i (h v) = option_map (map h) (upd a i v).
Proof.
  revert i; induction a as [|x a IH]; intros [|i]; cbn; try reflexivity.
  rewrite IH. destruct (upd a i v); reflexivity.
Qed.

Lemma upd2_map {T U} (h : T -> U) a i j v :
  upd2 (map (map h) a) i j (h v) = option_map (map (map h)) (upd2 a i j v).
Proof.
  unfold upd2, get. rewrite nth_error_map. destruct (nth_error a i) as [r|]; [|reflexivity].
  cbn [option_map bind]. rewrite upd_map. destruct (upd r j v) as [r'|]; [|reflexivity].
  cbn [option_map bind]. apply upd_map.
Qed.

Lemma fold_upd2_map {T U E} (h : T -> U) (fi fj : E -> nat) (fv : E -> T) l a :
  fold_left (fun o e => a <- o ;; upd2 a (fi e) (fj e) (h (fv e))) l (option_map (map (map h)) a)
  = option_map (map (map h))
      (fold_left (fun o e => a <- o ;; upd2 a (fi e) (fj e) (fv e)) l a).
Proof.
  revert a; induction l as [|e l IH]; intros a; [reflexivity|].
  cbn [fold_left]. rewrite <- IH. f_equal.
  destruct a as [a|]; [|reflexivity]. cbn [option_map bind]. apply upd2_map.
Qed.

Lemma for_map {T U} (h : T -> U) b1 b2 lo hi a :
  (forall i a, b1 i (h a) = option_map h (b2 i a)) ->
  for_ lo hi b1 (h a) = option_map h (for_ lo hi b2 a).
Proof.
  intros H. unfold for_. generalize (hi - lo) as n. intros n. revert lo a.
  induction n as [|n IH]; intros lo a; [reflexivity|].
  cbn [for_from]. rewrite H. destruct (b2 lo a) as [a'|]; [|reflexivity].
  cbn [option_map bind]. apply IH.
Qed.

Lemma map2_tab {T} (f : lit -> T) r c t : rect r c t = true ->
  map (map f) t = tab2 r c (fun i j => f (nth j (nth i t []) (L 0 0))).
Proof.
  intros H.
  assert (Hl : length t = r) by
    (unfold rect in H; apply andb_true_iff in H; destruct H as [H _]; now apply Nat.eqb_eq).
  rewrite (list_tab' r t [] Hl) at 1. unfold tab2, tab. rewrite map_map.
  apply map_ext_in. intros i Hi. apply in_seq in Hi.
  rewrite (list_tab' c (nth i t []) (L 0 0)) at 1 by (apply (rect_nth r c); [assumption|lia]).
  unfold tab. now rewrite map_map.
Qed.

Lemma nat2_tab r c (t : list (list nat)) : rect r c t = true -> t = tab2 r c (nv2 t).
Proof.
  intros H.
  assert (Hl : length t = r) by
    (unfold rect in H; apply andb_true_iff in H; destruct H as [H _]; now apply Nat.eqb_eq).
  rewrite (list_tab' r t [] Hl) at 1. apply tab_ext. intros i Hi.
  apply list_tab'. now apply (rect_nth r c).
Qed.

Lemma bind_some {T U} (m : option T) (f : T -> option U) a r :
  m = Some a -> f a = r -> bind m f = r.
Proof. now intros -> <-. Qed.

Section Refine.
Context {A : Arith}.
Local Open Scope bool_scope.
Local Open Scope F_scope.

Lemma coik_ok : setup_exps (fun n => n) G_setup_coik_all G_setup_coik_long
  (assign2n G_setup_coik) (repeat (repeat 0%nat 25) 22) = Some (tab2 22 25 (nv2 G_COIK)).
Proof. rewrite <- (nat2_tab 22 25 G_COIK) by reflexivity. vm_compute. reflexivity. Qed.
Lemma doik_ok : setup_exps (fun n => n) G_setup_doik_all G_setup_doik_long
  (assign2n G_setup_doik) (repeat (repeat 0%nat 25) 22) = Some (tab2 22 25 (nv2 G_DOIK)).
Proof. rewrite <- (nat2_tab 22 25 G_DOIK) by reflexivity. vm_compute. reflexivity. Qed.
Lemma dijk_ok : assign2n G_setup_dijk (repeat (repeat 0%nat 13) 13)
  = Some (tab2 13 13 (nv2 G_DIJK)).
Proof. rewrite <- (nat2_tab 13 13 G_DIJK) by reflexivity. vm_compute. reflexivity. Qed.

Lemma toik_lit : setup_exps (fun n => n) G_setup_toik_all G_setup_toik_long
  (assignL G_setup_toik) (repeat (repeat (L 0 0) 25) 22) = Some G_TOIK.
Proof. vm_compute. reflexivity. Qed.

Lemma setup_exps_map all long l a :
  setup_exps flit all long (assign2 l) (map (map flit) a)
  = option_map (map (map flit)) (setup_exps (fun x => x) all long (assignL l) a).
Proof.
  unfold setup_exps, for_incl.
  rewrite (for_map (map (map flit)) _ (fun i a => row_assign (fun x => x) all i a)).
  2:{ intros i b. unfold row_assign.
      apply (fold_upd2_map flit (fun _ => i) fst snd all (Some b)). }
  destruct (for_ _ _ (fun i a0 => row_assign _ all i a0) a) as [b|]; [|reflexivity].
  cbn [option_map bind].
  rewrite (for_map (map (map flit)) _ (fun i a =>
    if negb (Nat.eqb i 3) then row_assign (fun x => x) long i a else Some a)).
  2:{ intros i c. destruct (negb (Nat.eqb i 3)); [|reflexivity]. unfold row_assign.
      apply (fold_upd2_map flit (fun _ => i) fst snd long (Some c)). }
  destruct (for_ _ _ _ b) as [c|]; [|reflexivity].
  cbn [option_map bind]. unfold assign2, assignL.
  apply (fold_upd2_map flit (fun e => fst (fst e)) (fun e => snd (fst e)) snd l (Some c)).
Qed.

Lemma toik_ok :
  setup_exps flit G_setup_toik_all G_setup_toik_long (assign2 G_setup_toik)
    (repeat (repeat f0 25) 22) = Some (tab2 22 25 (lv2 G_TOIK)).
Proof.
  unfold f0.
  replace (repeat (repeat (flit (L 0 0)) 25) 22)
    with (map (map flit) (repeat (repeat (L 0 0) 25) 22)) by reflexivity.
  rewrite setup_exps_map, toik_lit. cbn [option_map].
  apply f_equal. apply (map2_tab flit). reflexivity.
Qed.

Lemma vc3_ok : setup_vc3 = Some (tab 22 (fun i => if Nat.eqb i 0 then f0 else Gvc3 i)).
Proof.
  unfold setup_vc3, for_incl, GMAXFLDS. rewrite repeat_tab.
  rewrite (for_fill 22 (fun i _ => Gvc3 i)); [|lia|].
  - apply f_equal. apply tab_ext. intros i Hi. nat_cases; reflexivity.
  - intros i f Hi. rewrite lget_lv by (cbn; lia). cbn [bind]. now rewrite upd_tab by lia.
Qed.
Lemma tc2_ok : setup_tc2 = Some (tab 22 (fun i => if Nat.eqb i 0 then f0 else Gtc2 i)).
Proof.
  unfold setup_tc2, for_incl, GMAXFLDS. rewrite repeat_tab.
  rewrite (for_fill 22 (fun i _ => Gtc2 i)); [|lia|].
  - apply f_equal. apply tab_ext. intros i Hi. nat_cases; reflexivity.
  - intros i f Hi. rewrite lget_lv by (cbn; lia). cbn [bind]. now rewrite upd_tab by lia.
Qed.

(* cells (a, b), 1 <= a <= b, before (i, j) in row-major order hold g, the others f *)
Definition upart (g f : nat -> nat -> F) (i j a b : nat) : F :=
  if inred a b && (Nat.ltb a i || (Nat.eqb a i && Nat.ltb b j)) then g a b else f a b.
Definition set_red a b c d (s : Gerg) : Gerg :=
  set_g_gtij a (set_g_gvij b (set_g_btij c (set_g_bvij d s))).
Definition red_st (s : Gerg) (i j : nat) : Gerg :=
  set_red (tab2 22 22 (upart Ggtij (fun i j => aval G_setup_gtij i j f0) i j))
    (tab2 22 22 (upart Ggvij (fun i j => aval G_setup_gvij i j f0) i j))
    (tab2 22 22 (upart Gbtij (fun i j => aval G_setup_btij i j f0) i j))
    (tab2 22 22 (upart Gbvij (fun i j => aval G_setup_bvij i j f0) i j)) s.
Lemma set_red_id s : s = set_red (g_gtij s) (g_gvij s) (g_btij s) (g_bvij s) s.
Proof. destruct s; reflexivity. Qed.
Lemma set_red2 a b c d a' b' c' d' s :
  set_red a b c d (set_red a' b' c' d' s) = set_red a b c d s.
Proof. destruct s; reflexivity. Qed.
Lemma set_red_eq a b c d a' b' c' d' s : a = a' -> b = b' -> c = c' -> d = d' ->
  set_red a b c d s = set_red a' b' c' d' s.
Proof. now intros -> -> -> ->. Qed.
Lemma tab2_length {T} r c (f : nat -> nat -> T) : length (tab2 r c f) = r.
Proof. apply tab_length. Qed.
Lemma get_tab2 {T} r c (f : nat -> nat -> T) i : (i < r)%nat ->
  get (tab2 r c f) i = Some (tab c (f i)).
Proof. intros H. unfold tab2. now rewrite get_tab. Qed.

Ltac bcases :=
  unfold upart, inred;
  repeat match goal with
  | |- context [Nat.eqb ?u ?v] => destruct (Nat.eqb_spec u v); [try (exfalso; lia)|try (exfalso; lia)]; subst
  | |- context [Nat.leb ?u ?v] => destruct (Nat.leb_spec u v); [try (exfalso; lia)|try (exfalso; lia)]
  | |- context [Nat.ltb ?u ?v] => destruct (Nat.ltb_spec u v); [try (exfalso; lia)|try (exfalso; lia)]
  end; cbn [andb orb negb]; try reflexivity; try (exfalso; lia).
Ltac tab2c := apply tab2_ext; intros; unfold Ggtij, Ggvij, Gbtij, Gbvij; bcases.

Local Opaque tab2.
Lemma red_st_eq s i j i' j' :
  (forall a b, (a < 22)%nat -> (b < 22)%nat -> (1 <= a <= b)%nat ->
     (Nat.ltb a i || (Nat.eqb a i && Nat.ltb b j)) = (Nat.ltb a i' || (Nat.eqb a i' && Nat.ltb b j')))
  -> red_st s i j = red_st s i' j'.
Proof.
  intros H. unfold red_st.
  assert (Hu : forall g f, tab2 22 22 (upart g f i j) = tab2 22 22 (upart g f i' j')).
  { intros g f. apply tab2_ext. intros a b Ha Hb. unfold upart, inred.
    destruct (Nat.leb_spec 1 a); [|reflexivity]. destruct (Nat.leb_spec a b); [|reflexivity].
    now rewrite H by lia. }
  now rewrite !Hu.
Qed.

Lemma setup_red_ok s :
  g_bvij s = tab2 22 22 (fun i j => aval G_setup_bvij i j f0) ->
  g_gvij s = tab2 22 22 (fun i j => aval G_setup_gvij i j f0) ->
  g_btij s = tab2 22 22 (fun i j => aval G_setup_btij i j f0) ->
  g_gtij s = tab2 22 22 (fun i j => aval G_setup_gtij i j f0) ->
  setup_red (tab 22 (fun i => if Nat.eqb i 0 then f0 else Gvc3 i))
    (tab 22 (fun i => if Nat.eqb i 0 then f0 else Gtc2 i)) s
  = Some (set_g_gtij (tab2 22 22 Ggtij) (set_g_gvij (tab2 22 22 Ggvij)
            (set_g_btij (tab2 22 22 Gbtij) (set_g_bvij (tab2 22 22 Gbvij) s)))).
Proof.
  intros H1 H2 H3 H4. unfold setup_red, for_incl, GMAXFLDS.
  apply (for_seq' (fun i => red_st s i i)); [lia| | |].
  - rewrite (set_red_id s) at 1. rewrite H1, H2, H3, H4. apply set_red_eq;
      apply tab2_ext; intros; bcases.
  - apply set_red_eq; tab2c.
  - intros i Hi.
    assert (E : exists a b c d, red_st s i i = set_red a b c d s /\
      a = tab2 22 22 (upart Ggtij (fun i j => aval G_setup_gtij i j f0) i i) /\
      b = tab2 22 22 (upart Ggvij (fun i j => aval G_setup_gvij i j f0) i i) /\
      c = tab2 22 22 (upart Gbtij (fun i j => aval G_setup_btij i j f0) i i) /\
      d = tab2 22 22 (upart Gbvij (fun i j => aval G_setup_bvij i j f0) i i))
      by (do 4 eexists; repeat split).
    destruct E as (a & b & c & d & E & Ea & Eb & Ec & Ed). rewrite E. clear E.
    unfold set_red at 1 2 3 4. gsimp. rewrite Ea, Eb, Ec, Ed.
    rewrite !upd2_tab2 by lia. cbn [bind]. rewrite !lget_lv by (cbn; lia). cbn [bind].
    rewrite !upd2_tab2 by lia. cbn [bind].
    match goal with |- for_ _ _ _ (set_g_gtij ?t1 (set_g_gvij ?t2 (set_g_btij ?t3 (set_g_bvij ?t4 ?s0)))) = _ =>
      change (set_g_gtij t1 (set_g_gvij t2 (set_g_btij t3 (set_g_bvij t4 s0))))
        with (set_red t1 t2 t3 t4 s0) end.
    rewrite set_red2. apply (for_seq' (fun j => red_st s i j)); [lia| | |].
    + apply set_red_eq; tab2c.
    + apply red_st_eq. intros a' b' Ha Hb Hab. bcases.
    + intros j Hj. clear a b c d Ea Eb Ec Ed.
      assert (E : exists a b c d, red_st s i j = set_red a b c d s /\
        a = tab2 22 22 (upart Ggtij (fun i j => aval G_setup_gtij i j f0) i j) /\
        b = tab2 22 22 (upart Ggvij (fun i j => aval G_setup_gvij i j f0) i j) /\
        c = tab2 22 22 (upart Gbtij (fun i j => aval G_setup_btij i j f0) i j) /\
        d = tab2 22 22 (upart Gbvij (fun i j => aval G_setup_bvij i j f0) i j))
        by (do 4 eexists; repeat split).
      destruct E as (a & b & c & d & E & Ea & Eb & Ec & Ed). rewrite E. clear E.
      unfold set_red at 1 2 3 4 5 6 7 8. gsimp. rewrite Ea, Eb, Ec, Ed.
      rewrite !get2_tab2 by lia. rewrite !get_tab by lia. cbn [bind].
      rewrite !upd2_tab2 by lia. cbn [bind]. apply f_equal.
      match goal with |- set_g_gtij ?t1 (set_g_gvij ?t2 (set_g_btij ?t3 (set_g_bvij ?t4 ?s0))) = _ =>
        change (set_g_gtij t1 (set_g_gvij t2 (set_g_btij t3 (set_g_bvij t4 s0))))
          with (set_red t1 t2 t3 t4 s0) end.
      rewrite set_red2. apply set_red_eq; tab2c.
Qed.

(* cells (a, b), 1 <= a and 1 <= b, before (i, j) in row-major order hold g, the others f *)
Definition cpart (g f : nat -> nat -> F) (i j a b : nat) : F :=
  if ingec a b && (Nat.ltb a i || (Nat.eqb a i && Nat.ltb b j)) then g a b else f a b.
Definition set_gec a b c (s : Gerg) : Gerg := set_g_cijk a (set_g_eijk b (set_g_gijk c s)).
Definition gec_st (s : Gerg) (i j : nat) : Gerg :=
  set_gec (tab2 11 13 (cpart Gcijk (fun i j => aval G_setup_cijk i j f0) i j))
    (tab2 11 13 (cpart Geijk (fun i j => aval G_setup_eijk i j f0) i j))
    (tab2 11 13 (cpart Ggijk (fun i j => aval G_setup_gijk i j f0) i j)) s.
Lemma set_gec_id s : s = set_gec (g_cijk s) (g_eijk s) (g_gijk s) s.
Proof. destruct s; reflexivity. Qed.
Lemma set_gec2 a b c a' b' c' s : set_gec a b c (set_gec a' b' c' s) = set_gec a b c s.
Proof. destruct s; reflexivity. Qed.
Lemma set_gec_eq a b c a' b' c' s : a = a' -> b = b' -> c = c' ->
  set_gec a b c s = set_gec a' b' c' s.
Proof. now intros -> -> ->. Qed.
Ltac ccases := unfold cpart, ingec; bcases.
Ltac tab2d := apply tab2_ext; intros; unfold Gcijk, Geijk, Ggijk; ccases.

Lemma gec_st_eq s i j i' j' :
  (forall a b, (a < 11)%nat -> (b < 13)%nat -> (1 <= a)%nat -> (1 <= b)%nat ->
     (Nat.ltb a i || (Nat.eqb a i && Nat.ltb b j)) = (Nat.ltb a i' || (Nat.eqb a i' && Nat.ltb b j')))
  -> gec_st s i j = gec_st s i' j'.
Proof.
  intros H. unfold gec_st.
  assert (Hu : forall g f, tab2 11 13 (cpart g f i j) = tab2 11 13 (cpart g f i' j')).
  { intros g f. apply tab2_ext. intros a b Ha Hb. unfold cpart, ingec.
    destruct (Nat.leb_spec 1 a); [|reflexivity]. destruct (Nat.leb_spec 1 b); [|reflexivity].
    now rewrite H by lia. }
  now rewrite !Hu.
Qed.

Lemma setup_gec_ok s :
  g_cijk s = tab2 11 13 (fun i j => aval G_setup_cijk i j f0) ->
  g_eijk s = tab2 11 13 (fun i j => aval G_setup_eijk i j f0) ->
  g_gijk s = tab2 11 13 (fun i j => aval G_setup_gijk i j f0) ->
  setup_gec (tab2 11 13 (fun i j => aval G_setup_bijk i j f0)) s
  = Some (set_g_cijk (tab2 11 13 Gcijk) (set_g_eijk (tab2 11 13 Geijk)
            (set_g_gijk (tab2 11 13 Ggijk) s))).
Proof.
  intros H1 H2 H3. unfold setup_gec.
  replace (length (tab2 11 13 (fun i j => aval G_setup_bijk i j f0))) with 11%nat
    by (symmetry; apply tab2_length).
  apply (for_seq' (fun i => gec_st s i 1)); [lia| | |].
  - rewrite (set_gec_id s) at 1. rewrite H1, H2, H3. apply set_gec_eq;
      apply tab2_ext; intros; ccases.
  - apply set_gec_eq; tab2d.
  - intros i Hi.
    rewrite get_tab2 by lia.
    cbn [bind]. rewrite tab_length.
    apply (for_seq' (fun j => gec_st s i j)); [lia|reflexivity| |].
    + apply gec_st_eq. intros a b Ha Hb Ha1 Hb1. ccases.
    + intros j Hj.
      assert (E : exists a b c, gec_st s i j = set_gec a b c s /\
        a = tab2 11 13 (cpart Gcijk (fun i j => aval G_setup_cijk i j f0) i j) /\
        b = tab2 11 13 (cpart Geijk (fun i j => aval G_setup_eijk i j f0) i j) /\
        c = tab2 11 13 (cpart Ggijk (fun i j => aval G_setup_gijk i j f0) i j))
        by (do 3 eexists; repeat split).
      destruct E as (a & b & c & E & Ea & Eb & Ec). rewrite E. clear E.
      unfold set_gec at 1 2 3 4 5 6. gsimp. rewrite Ea, Eb, Ec.
      rewrite !get2_tab2 by lia. rewrite !get_tab by lia. cbn [bind].
      rewrite !upd2_tab2 by lia. cbn [bind]. apply f_equal.
      match goal with |- set_g_cijk ?t1 (set_g_eijk ?t2 (set_g_gijk ?t3 ?s0)) = _ =>
        change (set_g_cijk t1 (set_g_eijk t2 (set_g_gijk t3 s0))) with (set_gec t1 t2 t3 s0) end.
      rewrite set_gec2. apply set_gec_eq; tab2d.
Qed.

Lemma n0i_scale_ok (g : nat -> nat -> F) i : (1 <= i < 22)%nat ->
  for_ 1 8 (fun j n => v <- get2 n i j ;; upd2 n i j (v * RSR)) (tab2 22 8 g)
  = Some (tab2 22 8 (fun a b => if Nat.eqb a i && Nat.leb 1 b then g a b * RSR else g a b)).
Proof.
  intros Hi.
  apply (for_seq' (fun j => tab2 22 8 (fun a b =>
        if Nat.eqb a i && Nat.leb 1 b && Nat.ltb b j then g a b * RSR else g a b))); [lia| | |].
  - apply tab2_ext; intros; bcases.
  - apply tab2_ext; intros; bcases.
  - intros j Hj. rewrite get2_tab2 by lia. cbn [bind]. rewrite upd2_tab2 by lia.
    apply f_equal. apply tab2_ext; intros a b Ha Hb. bcases.
Qed.

Lemma gsetup_n0i_ok :
  gsetup_n0i (tab2 22 8 (fun i j => aval G_setup_n0i i j f0)) = Some (tab2 22 8 Gn0i).
Proof.
  unfold gsetup_n0i, for_incl, GMAXFLDS.
  apply (for_seq' (fun i => tab2 22 8 (fun a b =>
    if Nat.ltb a i then Gn0i a b else aval G_setup_n0i a b f0))); [lia| | |].
  - apply tab2_ext; intros a b Ha Hb. unfold Gn0i. nat_cases; reflexivity.
  - apply tab2_ext; intros; nat_cases; reflexivity.
  - intros i Hi.
    do 2 (rewrite get2_tab2 by lia; cbn [bind]; rewrite upd2_tab2 by lia; cbn [bind]).
    rewrite n0i_scale_ok by assumption. cbn [bind].
    do 2 (rewrite get2_tab2 by lia; cbn [bind]; rewrite upd2_tab2 by lia; cbn [bind]).
    apply f_equal. apply tab2_ext. intros a b Ha Hb. unfold Gn0i.
    do 8 (destruct b as [|b]; [bcases|]). lia.
Qed.

(* the constant part of the object *)
Record gstatic {P : GParams} (s : Gerg) : Prop := {
  gs_coik : g_coik s = tab2 22 25 q_coik;
  gs_doik : g_doik s = tab2 22 25 q_doik;
  gs_toik : g_toik s = tab2 22 25 q_toik;
  gs_dijk : g_dijk s = tab2 13 13 q_dijk;
  gs_tijk : g_tijk s = tab2 11 13 q_tijk;
  gs_cijk : g_cijk s = tab2 11 13 q_cijk;
  gs_eijk : g_eijk s = tab2 11 13 q_eijk;
  gs_gijk : g_gijk s = tab2 11 13 q_gijk;
  gs_nijk : g_nijk s = tab2 11 13 q_nijk;
  gs_n0i : g_n0i s = tab2 22 8 gq_n0i;
  gs_bvij : g_bvij s = tab2 22 22 q_bvij }.

Definition setup_of (s : Gerg) : Gerg :=
  let s := set_g_coik (tab2 22 25 (nv2 G_COIK)) (set_g_doik (tab2 22 25 (nv2 G_DOIK))
   (set_g_toik (tab2 22 25 (lv2 G_TOIK)) (set_g_dijk (tab2 13 13 (nv2 G_DIJK))
   (set_g_tijk (tab2 11 13 (fun i j => aval G_setup_tijk i j f0))
   (set_g_nijk (tab2 11 13 (fun i j => aval G_setup_nijk i j f0)) s))))) in
  let s := set_g_gtij (tab2 22 22 Ggtij) (set_g_gvij (tab2 22 22 Ggvij)
            (set_g_btij (tab2 22 22 Gbtij) (set_g_bvij (tab2 22 22 Gbvij) s))) in
  let s := set_g_cijk (tab2 11 13 Gcijk) (set_g_eijk (tab2 11 13 Geijk)
            (set_g_gijk (tab2 11 13 Ggijk) s)) in
  set_g_n0i (tab2 22 8 Gn0i) s.
Definition gerg_fresh : Gerg := setup_of gerg_default.

Lemma rep2_tab {T} r c (z : T) : repeat (repeat z c) r = tab2 r c (fun _ _ => z).
Proof. Local Transparent tab2. unfold tab2. now rewrite !repeat_tab. Qed.
Local Opaque tab2.

Local Opaque setup_red setup_gec gsetup_n0i assign2 assign2n setup_exps for_ setup_vc3 setup_tc2.
Lemma a_tijk_ok : assign2 G_setup_tijk (tab2 11 13 (fun _ _ => f0))
  = Some (tab2 11 13 (fun i j => aval G_setup_tijk i j f0)).
Proof. apply (assign2_tab 11 13). reflexivity. Qed.
Lemma a_cijk_ok : assign2 G_setup_cijk (tab2 11 13 (fun _ _ => f0))
  = Some (tab2 11 13 (fun i j => aval G_setup_cijk i j f0)).
Proof. apply (assign2_tab 11 13). reflexivity. Qed.
Lemma a_eijk_ok : assign2 G_setup_eijk (tab2 11 13 (fun _ _ => f0))
  = Some (tab2 11 13 (fun i j => aval G_setup_eijk i j f0)).
Proof. apply (assign2_tab 11 13). reflexivity. Qed.
Lemma a_gijk_ok : assign2 G_setup_gijk (tab2 11 13 (fun _ _ => f0))
  = Some (tab2 11 13 (fun i j => aval G_setup_gijk i j f0)).
Proof. apply (assign2_tab 11 13). reflexivity. Qed.
Lemma a_nijk_ok : assign2 G_setup_nijk (tab2 11 13 (fun _ _ => f0))
  = Some (tab2 11 13 (fun i j => aval G_setup_nijk i j f0)).
Proof. apply (assign2_tab 11 13). reflexivity. Qed.
Lemma a_bijk_ok : assign2 G_setup_bijk (tab2 11 13 (fun _ _ => f0))
  = Some (tab2 11 13 (fun i j => aval G_setup_bijk i j f0)).
Proof. apply (assign2_tab 11 13). reflexivity. Qed.
Lemma a_n0i_ok : assign2 G_setup_n0i (tab2 22 8 (fun _ _ => f0))
  = Some (tab2 22 8 (fun i j => aval G_setup_n0i i j f0)).
Proof. apply (assign2_tab 22 8). reflexivity. Qed.
Lemma a_bvij_ok : assign2 G_setup_bvij (tab2 22 22 (fun _ _ => f0))
  = Some (tab2 22 22 (fun i j => aval G_setup_bvij i j f0)).
Proof. apply (assign2_tab 22 22). reflexivity. Qed.
Lemma a_gvij_ok : assign2 G_setup_gvij (tab2 22 22 (fun _ _ => f0))
  = Some (tab2 22 22 (fun i j => aval G_setup_gvij i j f0)).
Proof. apply (assign2_tab 22 22). reflexivity. Qed.
Lemma a_btij_ok : assign2 G_setup_btij (tab2 22 22 (fun _ _ => f0))
  = Some (tab2 22 22 (fun i j => aval G_setup_btij i j f0)).
Proof. apply (assign2_tab 22 22). reflexivity. Qed.
Lemma a_gtij_ok : assign2 G_setup_gtij (tab2 22 22 (fun _ _ => f0))
  = Some (tab2 22 22 (fun i j => aval G_setup_gtij i j f0)).
Proof. apply (assign2_tab 22 22). reflexivity. Qed.

Lemma gerg_setup_ok s :
  g_coik s = repeat (repeat 0%nat 25) 22 -> g_doik s = repeat (repeat 0%nat 25) 22 ->
  g_toik s = repeat (repeat f0 25) 22 -> g_dijk s = repeat (repeat 0%nat 13) 13 ->
  g_tijk s = tab2 11 13 (fun _ _ => f0) -> g_cijk s = tab2 11 13 (fun _ _ => f0) ->
  g_eijk s = tab2 11 13 (fun _ _ => f0) -> g_gijk s = tab2 11 13 (fun _ _ => f0) ->
  g_nijk s = tab2 11 13 (fun _ _ => f0) -> g_n0i s = tab2 22 8 (fun _ _ => f0) ->
  g_bvij s = tab2 22 22 (fun _ _ => f0) -> g_gvij s = tab2 22 22 (fun _ _ => f0) ->
  g_btij s = tab2 22 22 (fun _ _ => f0) -> g_gtij s = tab2 22 22 (fun _ _ => f0) ->
  gerg_setup s = Some (setup_of s).
Proof.
  intros E1 E2 E3 E4 E5 E6 E7 E8 E9 E10 E11 E12 E13 E14.
  unfold gerg_setup.
  rewrite E1, E2, E3, E4, E5, E6, E7, E8, E9, E10, E11, E12, E13, E14, rep2_tab.
  refine (bind_some _ _ _ _ vc3_ok _). refine (bind_some _ _ _ _ tc2_ok _).
  refine (bind_some _ _ _ _ coik_ok _). refine (bind_some _ _ _ _ doik_ok _).
  refine (bind_some _ _ _ _ toik_ok _). refine (bind_some _ _ _ _ dijk_ok _).
  refine (bind_some _ _ _ _ a_tijk_ok _). refine (bind_some _ _ _ _ a_cijk_ok _).
  refine (bind_some _ _ _ _ a_eijk_ok _). refine (bind_some _ _ _ _ a_gijk_ok _).
  refine (bind_some _ _ _ _ a_nijk_ok _). refine (bind_some _ _ _ _ a_bijk_ok _).
  refine (bind_some _ _ _ _ a_n0i_ok _). refine (bind_some _ _ _ _ a_bvij_ok _).
  refine (bind_some _ _ _ _ a_gvij_ok _). refine (bind_some _ _ _ _ a_btij_ok _).
  refine (bind_some _ _ _ _ a_gtij_ok _). cbv beta zeta.
  clear E1 E2 E3 E4 E5 E6 E7 E8 E9 E10 E11 E12 E13 E14.
  refine (bind_some _ _ _ _ (setup_red_ok _ _ _ _ _) _); [reflexivity..|]. cbv beta.
  refine (bind_some _ _ _ _ (setup_gec_ok _ _ _ _) _); [reflexivity..|]. cbv beta.
  refine (bind_some _ _ _ _ gsetup_n0i_ok _). apply f_equal. destruct s. reflexivity.
Qed.

Lemma gerg_new_ok : gerg_new = Some gerg_fresh.
Proof. apply gerg_setup_ok; first [reflexivity | apply rep2_tab]. Qed.

Lemma gerg_fresh_static : @gstatic gp_new gerg_fresh.
Proof. constructor; reflexivity. Qed.

Lemma gerg_default_static : @gstatic gp_zero gerg_default.
Proof.
  constructor; cbn [q_coik q_doik q_toik q_dijk q_tijk q_cijk q_eijk q_gijk q_nijk gq_n0i q_bvij gp_zero];
  apply rep2_tab.
Qed.

End Refine.
