(* Proofs about the C interface. *)
From Coq Require Import ZArith List Bool Lia.
From Verif Require Import FArith Prelude Composition DetailModel GergModel Api ApiSafe GenericLemmas
  Ffi SpecFfi.
Import ListNotations.
Local Open Scope Z_scope.

Section Proofs.
Context {A : Arith}.
Local Opaque detail_new gerg_new set_composition gerg_set_composition molar_mass gerg_molar_mass
  pressure gerg_pressure density gerg_density properties gerg_properties.

Lemma owner_app a l1 : forall l2 st, owner a (l1 ++ l2) st = owner a l2 (owner a l1 st).
Proof. induction l1 as [|c l1 IH]; intros; cbn; [reflexivity|apply IH]. Qed.

Lemma ffi_run_app l1 : forall l2 h,
  ffi_run (l1 ++ l2) h
  = match ffi_run l1 h with
    | Ret h1 r1 => omap (app r1) (ffi_run l2 h1)
    | Panicked => Panicked
    | UB => UB
    end.
Proof.
  induction l1 as [|c l1 IH]; intros l2 h; cbn.
  - destruct (ffi_run l2 h); reflexivity.
  - destruct (ffi_step c h) as [h1 x| |]; [|reflexivity|reflexivity].
    rewrite IH. destruct (ffi_run l1 h1) as [h2 r| |]; cbn; [|reflexivity|reflexivity].
    destruct (ffi_run l2 h2); reflexivity.
Qed.

Lemma ffi_run_snoc l c h h1 r1 : ffi_run l h = Ret h1 r1 ->
  ffi_run (l ++ [c]) h = omap (fun a => r1 ++ [a]) (ffi_step c h1).
Proof. intros E. rewrite ffi_run_app, E. cbn. now destruct (ffi_step c h1). Qed.

Lemma hset_same h a (o : option obj) : hset h a o a = o.
Proof. unfold hset. now rewrite Z.eqb_refl. Qed.
Lemma hset_other h a (o : option obj) b : b <> a -> hset h a o b = h b.
Proof. intros N. unfold hset. destruct (Z.eqb_spec b a); congruence. Qed.

(* -- one call on an object ------------------------------------------------------------- *)
Lemma use_detail_ok p u h s : p <> null -> h p = Some (ODetail s) -> dreach s ->
  exists s' o x, drun (rust_ops u) s = Some (s', o) /\ answers dread u o s' x
    /\ use_detail p u h = Ret (hset h p (Some (ODetail s'))) x.
Proof.
  intros N E R. apply Z.eqb_neq in N.
  assert (W : forall X (b : Detail -> option (Detail * X)) s' x, b s = Some (s', x) ->
    with_detail h p b = Ret (hset h p (Some (ODetail s'))) x).
  { intros X b s' x B. unfold with_detail. now rewrite N, E, B. }
  assert (T : forall o, exists s' r, dstep o s = Some (s', r)).
  { intros o. destruct (dreach_inv s R) as (k & I).
    destruct (@dstep_inv _ (dpar k) o s I) as (s' & r & E1 & _). eauto. }
  destruct u as [c|f v|f| | | | |]; unfold rust_ops; cbn [rust_op drun].
  - destruct (T (SetComp c)) as (s' & r & E1). rewrite E1. cbn [bind].
    cbn [dstep] in E1. destruct (set_composition c s) as [[s1 r1]|] eqn:E2; [|discriminate].
    cbn [bind] in E1. injection E1 as <- <-.
    eexists _, _, _. split; [reflexivity|split; [exists r1; split; reflexivity|]].
    cbn [use_detail]. unfold aga8_set_composition. erewrite W by (cbv beta; rewrite E2; reflexivity).
    cbn [omap]. do 2 f_equal. destruct r1 as [|[]]; reflexivity.
  - destruct f; cbn [ifield_of dstep bind use_detail]; eexists _, _, _;
      (split; [reflexivity|split; [reflexivity|]]);
      unfold aga8_set_pressure, aga8_set_temperature, aga8_set_density;
      (erewrite W by reflexivity); reflexivity.
  - destruct f; cbn [use_detail ifield_of]; eexists _, _, _;
      (split; [reflexivity|split; [reflexivity|]]);
      unfold aga8_get_pressure, aga8_get_temperature, aga8_get_density;
      (erewrite W by reflexivity); reflexivity.
  - cbn [use_detail]; eexists _, _, _; (split; [reflexivity|split; [reflexivity|]]).
    unfold aga8_get_properties. erewrite W by reflexivity. reflexivity.
  - destruct (T Pressure) as (s' & r & E1). rewrite E1. cbn [bind].
    cbn [dstep] in E1. destruct (pressure s) as [[s1 r1]|] eqn:E2; [|discriminate].
    cbn [bind] in E1. injection E1 as <- <-.
    eexists _, _, _. split; [reflexivity|split; [exists r1; split; reflexivity|]].
    cbn [use_detail]. unfold aga8_calculate_pressure. erewrite W by exact E2. reflexivity.
  - destruct (T MolarMass) as (s' & r & E1). rewrite E1. cbn [bind].
    cbn [dstep] in E1. destruct (molar_mass s) as [[s1 r1]|] eqn:E2; [|discriminate].
    cbn [bind] in E1. injection E1 as <- <-.
    eexists _, _, _. split; [reflexivity|split; [reflexivity|]].
    cbn [use_detail]. unfold aga8_calculate_molar_mass.
    erewrite W by (cbv beta; rewrite E2; reflexivity). reflexivity.
  - destruct (T (Density 0)) as (s' & r & E1). rewrite E1. cbn [bind].
    cbn [dstep] in E1. destruct (density s) as [[s1 r1]|] eqn:E2; [|discriminate].
    cbn [bind] in E1. injection E1 as <- <-.
    eexists _, _, _. split; [reflexivity|split; [exists r1; split; reflexivity|]].
    cbn [use_detail]. unfold aga8_calculate_density. erewrite W by (cbv beta; rewrite E2; reflexivity).
    cbn [omap]. do 2 f_equal. destruct r1 as [|[]]; reflexivity.
  - destruct (T Properties) as (s' & r & E1). rewrite E1. cbn [bind].
    cbn [dstep] in E1. destruct (properties s) as [s1|] eqn:E2; [|discriminate].
    cbn [bind] in E1. injection E1 as <- <-.
    eexists _, _, _. split; [reflexivity|split; [reflexivity|]].
    cbn [use_detail]. unfold aga8_calculate_properties.
    erewrite W by (cbv beta; rewrite E2; reflexivity). reflexivity.
Qed.

Lemma use_gerg_ok p u h s : p <> null -> h p = Some (OGerg s) -> greach s ->
  exists s' o x, grun (rust_ops u) s = Some (s', o) /\ answers gread u o s' x
    /\ use_gerg p u h = Ret (hset h p (Some (OGerg s'))) x.
Proof.
  intros N E R. apply Z.eqb_neq in N.
  assert (W : forall X (b : Gerg -> option (Gerg * X)) s' x, b s = Some (s', x) ->
    with_gerg h p b = Ret (hset h p (Some (OGerg s'))) x).
  { intros X b s' x B. unfold with_gerg. now rewrite N, E, B. }
  assert (T : forall o, exists s' r, gstep o s = Some (s', r)).
  { intros o. destruct R as (k & l & r0 & E0).
    destruct (gexec_inv k (l ++ [o])) as (s' & r & E1 & _).
    unfold gexec in *. destruct (gstart k) as [s0|]; [|discriminate]. cbn [bind] in *.
    rewrite grun_app, E0 in E1. cbn [bind] in E1. cbn [grun bind] in E1.
    destruct (gstep o s) as [[s2 r2]|]; [eauto|discriminate]. }
  destruct u as [c|f v|f| | | | |]; unfold rust_ops; cbn [rust_op grun].
  - destruct (T (SetComp c)) as (s' & r & E1). rewrite E1. cbn [bind].
    cbn [gstep] in E1. destruct (gerg_set_composition c s) as [[s1 r1]|] eqn:E2; [|discriminate].
    cbn [bind] in E1. injection E1 as <- <-.
    eexists _, _, _. split; [reflexivity|split; [exists r1; split; reflexivity|]].
    cbn [use_gerg]. unfold gerg_ffi_set_composition. erewrite W by (cbv beta; rewrite E2; reflexivity).
    cbn [omap]. do 2 f_equal. destruct r1 as [|[]]; reflexivity.
  - destruct f; cbn [ifield_of gstep bind use_gerg]; eexists _, _, _;
      (split; [reflexivity|split; [reflexivity|]]);
      unfold gerg_ffi_set_pressure, gerg_ffi_set_temperature, gerg_ffi_set_density;
      (erewrite W by reflexivity); reflexivity.
  - destruct f; cbn [use_gerg ifield_of]; eexists _, _, _;
      (split; [reflexivity|split; [reflexivity|]]);
      unfold gerg_ffi_get_pressure, gerg_ffi_get_temperature, gerg_ffi_get_density;
      (erewrite W by reflexivity); reflexivity.
  - cbn [use_gerg]; eexists _, _, _; (split; [reflexivity|split; [reflexivity|]]).
    unfold gerg_ffi_get_properties. erewrite W by reflexivity. reflexivity.
  - destruct (T Pressure) as (s' & r & E1). rewrite E1. cbn [bind].
    cbn [gstep] in E1. destruct (gerg_pressure s) as [[s1 r1]|] eqn:E2; [|discriminate].
    cbn [bind] in E1. injection E1 as <- <-.
    eexists _, _, _. split; [reflexivity|split; [exists r1; split; reflexivity|]].
    cbn [use_gerg]. unfold gerg_ffi_calculate_pressure. erewrite W by exact E2. reflexivity.
  - destruct (T MolarMass) as (s' & r & E1). rewrite E1. cbn [bind].
    cbn [gstep] in E1. destruct (gerg_molar_mass s) as [s1|] eqn:E2; [|discriminate].
    cbn [bind] in E1. injection E1 as <- <-.
    eexists _, _, _. split; [reflexivity|split; [reflexivity|]].
    cbn [use_gerg]. unfold gerg_ffi_calculate_molar_mass.
    erewrite W by (cbv beta; rewrite E2; reflexivity). reflexivity.
  - destruct (T (Density 0)) as (s' & r & E1). rewrite E1. cbn [bind].
    cbn [gstep] in E1. destruct (gerg_density 0 s) as [[s1 r1]|] eqn:E2; [|discriminate].
    cbn [bind] in E1. injection E1 as <- <-.
    eexists _, _, _. split; [reflexivity|split; [exists r1; split; reflexivity|]].
    cbn [use_gerg]. unfold gerg_ffi_calculate_density. erewrite W by (cbv beta; rewrite E2; reflexivity).
    cbn [omap]. do 2 f_equal. destruct r1 as [|[]]; reflexivity.
  - destruct (T Properties) as (s' & r & E1). rewrite E1. cbn [bind].
    cbn [gstep] in E1. destruct (gerg_properties s) as [[s1 r1]|] eqn:E2; [|discriminate].
    cbn [bind] in E1. injection E1 as <- <-.
    eexists _, _, _. split; [reflexivity|split; [reflexivity|]].
    cbn [use_gerg]. unfold gerg_ffi_calculate_properties.
    erewrite W by (cbv beta; rewrite E2; reflexivity). reflexivity.
Qed.

(* -- the heap agrees with the history -------------------------------------------------- *)
Definition agree (l : list call) (h : heap) : Prop :=
  forall a, match owner a l None with
            | Some (e, ops) => a <> null /\ exists o, h a = Some o /\ is_object e ops o
            | None => h a = None
            end.

Lemma agree_nil : agree [] empty_heap.
Proof. intros a. reflexivity. Qed.

Lemma dexec_app k l s r l2 s' r' : dexec k l = Some (s, r) -> drun l2 s = Some (s', r') ->
  exists r2, dexec k (l ++ l2) = Some (s', r2).
Proof.
  unfold dexec. destruct (dstart k) as [s0|]; [|discriminate]. cbn [bind]. intros E1 E2.
  rewrite drun_app, E1. cbn [bind]. rewrite E2. cbn [bind]. eauto.
Qed.
Lemma gexec_app k l s r l2 s' r' : gexec k l = Some (s, r) -> grun l2 s = Some (s', r') ->
  exists r2, gexec k (l ++ l2) = Some (s', r2).
Proof.
  unfold gexec. destruct (gstart k) as [s0|]; [|discriminate]. cbn [bind]. intros E1 E2.
  rewrite grun_app, E1. cbn [bind]. rewrite E2. cbn [bind]. eauto.
Qed.

Lemma agree_owner l h a e ops : agree l h -> owner a l None = Some (e, ops) ->
  a <> null /\ exists o, h a = Some o /\ is_object e ops o.
Proof. intros G E. specialize (G a). now rewrite E in G. Qed.

Lemma agree_lookup l h a o : agree l h -> h a = Some o ->
  a <> null /\ exists e ops, owner a l None = Some (e, ops) /\ is_object e ops o.
Proof.
  intros G E. specialize (G a). destruct (owner a l None) as [[e ops]|].
  - destruct G as (N & o1 & E1 & I). split; [exact N|]. exists e, ops. split; [reflexivity|].
    congruence.
  - congruence.
Qed.

Lemma use_step l h e a u ops : agree l h -> owner a l None = Some (e, ops) ->
  exists o' x, ffi_step (Use e a u) h = Ret (hset h a (Some o')) x
    /\ is_object e (ops ++ rust_ops u) o'.
Proof.
  intros G E. destruct (agree_owner l h a e ops G E) as (N & o & L & I).
  destruct e; cbn [ffi_step is_object] in *.
  - destruct I as (s & r & X & ->).
    destruct (use_detail_ok a u h s N L) as (s' & os & x & E1 & _ & E2); [now exists Api.New, ops, r|].
    exists (ODetail s'), x. split; [exact E2|].
    destruct (dexec_app _ _ _ _ _ _ _ X E1) as (r2 & E3). eauto.
  - destruct I as (s & r & X & ->).
    destruct (use_gerg_ok a u h s N L) as (s' & os & x & E1 & _ & E2); [now exists Api.New, ops, r|].
    exists (OGerg s'), x. split; [exact E2|].
    destruct (gexec_app _ _ _ _ _ _ _ X E1) as (r2 & E3). eauto.
Qed.

Lemma new_object e : exists o, is_object e [] o /\
  forall m h, ffi_step (New e m) h
    = match m with Some a => Ret (hset h a (Some o)) (APtr a) | None => Panicked end.
Proof.
  destruct e.
  - destruct (dexec_inv Api.New []) as (s & r & E & _). exists (ODetail s). split; [exists s, r; auto|].
    intros m h. cbn [ffi_step]. unfold aga8_new.
    unfold dexec in E. cbn [dstart] in E. destruct detail_new as [s0|]; [|discriminate].
    cbn [bind drun] in E. injection E as -> <-. cbn [bind box_new]. destruct m; reflexivity.
  - destruct (gexec_inv Api.New []) as (s & r & E & _). exists (OGerg s). split; [exists s, r; auto|].
    intros m h. cbn [ffi_step]. unfold gerg_ffi_new.
    unfold gexec in E. cbn [gstart] in E. destruct gerg_new as [s0|]; [|discriminate].
    cbn [bind grun] in E. injection E as -> <-. cbn [bind box_new]. destruct m; reflexivity.
Qed.

Lemma free_step l h e a ops : agree l h -> owner a l None = Some (e, ops) ->
  ffi_step (Free e a) h = Ret (hset h a None) AUnit.
Proof.
  intros G E. destruct (agree_owner l h a e ops G E) as (N & o & L & I).
  apply Z.eqb_neq in N.
  destruct e; cbn [ffi_step is_object] in *; destruct I as (s & r & X & ->);
    unfold aga8_free, gerg_ffi_free; rewrite N, L; reflexivity.
Qed.

Lemma free_null e h : ffi_step (Free e null) h = Ret h AUnit.
Proof. destruct e; reflexivity. Qed.
Lemma use_null e u h : ffi_step (Use e null u) h = Panicked.
Proof. destruct e, u as [| [] | [] | | | | |]; reflexivity. Qed.

Lemma owner_snoc a l c : owner a (l ++ [c]) None =
  match c with
  | New e (Some b) => if a =? b then Some (e, []) else owner a l None
  | New e None => owner a l None
  | Free e b => if a =? b then None else owner a l None
  | Use e b u => if a =? b then match owner a l None with
                                | Some (k, ops) => Some (k, ops ++ rust_ops u)
                                | None => None
                                end
                 else owner a l None
  end.
Proof. rewrite owner_app. reflexivity. Qed.

(* a legal call works and keeps the agreement *)
Lemma legal_step l h c : agree l h -> legal_call l c ->
  (forall e a, c = New e (Some a) -> a <> null) ->
  exists h' x, ffi_step c h = Ret h' x /\ agree (l ++ [c]) h'.
Proof.
  intros G Lc Al. destruct c as [e m|e p|e p u]; cbn [legal_call] in Lc.
  - destruct m as [a|]; [|congruence]. destruct (new_object e) as (o & I & S).
    rewrite S. eexists _, _. split; [reflexivity|]. intros b. rewrite owner_snoc.
    destruct (Z.eqb_spec b a) as [->|Nb].
    + split; [now apply (Al e)|]. exists o. now rewrite hset_same.
    + rewrite hset_other by exact Nb. apply G.
  - destruct Lc as [->|K].
    + rewrite free_null. eexists _, _. split; [reflexivity|]. intros b. rewrite owner_snoc.
      destruct (Z.eqb_spec b null) as [->|Nb]; [|apply G].
      specialize (G null). destruct (owner null l None) as [[? ?]|]; [now destruct G|exact G].
    + unfold kind_at in K. destruct (owner p l None) as [[e' ops]|] eqn:E; [|discriminate].
      injection K as ->. rewrite (free_step l h e p ops G E). eexists _, _. split; [reflexivity|].
      intros b. rewrite owner_snoc. destruct (Z.eqb_spec b p) as [->|Nb].
      * apply hset_same.
      * rewrite hset_other by exact Nb. apply G.
  - unfold kind_at in Lc. destruct (owner p l None) as [[e' ops]|] eqn:E; [|discriminate].
    injection Lc as ->. destruct (use_step l h e p u ops G E) as (o' & x & S & I).
    rewrite S. eexists _, _. split; [reflexivity|].
    intros b. rewrite owner_snoc. destruct (Z.eqb_spec b p) as [->|Nb].
    + rewrite E. split; [now destruct (agree_owner l h p e ops G E)|]. exists o'.
      now rewrite hset_same.
    + rewrite hset_other by exact Nb. apply G.
Qed.

(* a call that returns is a legal call *)
Lemma step_legal l h c h' x : agree l h -> ffi_step c h = Ret h' x -> legal_call l c.
Proof.
  intros G S.
  assert (K : forall p o, h p = Some o ->
    kind_at p l = Some (match o with ODetail _ => KDetail | OGerg _ => KGerg end)).
  { intros p o E. destruct (agree_lookup l h p o G E) as (_ & e & ops & E1 & I).
    unfold kind_at. rewrite E1. destruct e; cbn in I; destruct I as (s & r & _ & ->); reflexivity. }
  destruct c as [e m|e p|e p u]; cbn [legal_call].
  - destruct (new_object e) as (o & _ & Sn). rewrite Sn in S. destruct m; [discriminate|discriminate].
  - destruct (Z.eqb_spec p null) as [->|N]; [now left|]. right.
    apply Z.eqb_neq in N.
    destruct e; cbn [ffi_step] in S; unfold aga8_free, gerg_ffi_free in S; rewrite N in S;
      (destruct (h p) as [[s|s]|] eqn:E; cbn in S; try discriminate); apply (K _ _ E).
  - destruct e; cbn [ffi_step] in S.
    + assert (D : exists s, h p = Some (ODetail s)).
      { assert (W : forall X (b : Detail -> option (Detail * X)) h1 y,
          with_detail h p b = Ret h1 y -> exists s, h p = Some (ODetail s)).
        { intros X b h1 y. unfold with_detail. destruct (p =? null); [discriminate|].
          destruct (h p) as [[s|s]|]; [eauto|discriminate|discriminate]. }
        assert (M : forall X Y (f : X -> Y) o h1 y, omap f o = Ret h1 y -> exists z, o = Ret h1 z).
        { intros X Y f [h2 z| |] h1 y; cbn; [|discriminate|discriminate].
          intros [= -> _]. now exists z. }
        destruct u as [| [] | [] | | | | |]; cbn [use_detail] in S;
          apply M in S; destruct S as (z & S); exact (W _ _ _ _ S). }
      destruct D as (s & E). apply (K _ _ E).
    + assert (D : exists s, h p = Some (OGerg s)).
      { assert (W : forall X (b : Gerg -> option (Gerg * X)) h1 y,
          with_gerg h p b = Ret h1 y -> exists s, h p = Some (OGerg s)).
        { intros X b h1 y. unfold with_gerg. destruct (p =? null); [discriminate|].
          destruct (h p) as [[s|s]|]; [discriminate|eauto|discriminate]. }
        assert (M : forall X Y (f : X -> Y) o h1 y, omap f o = Ret h1 y -> exists z, o = Ret h1 z).
        { intros X Y f [h2 z| |] h1 y; cbn; [|discriminate|discriminate].
          intros [= -> _]. now exists z. }
        destruct u as [| [] | [] | | | | |]; cbn [use_gerg] in S;
          apply M in S; destruct S as (z & S); exact (W _ _ _ _ S). }
      destruct D as (s & E). apply (K _ _ E).
Qed.

Lemma alloc_ok_prefix l1 l2 : alloc_ok (l1 ++ l2) -> alloc_ok l1.
Proof. intros H l e a l' ->. apply (H l e a (l' ++ l2)). now rewrite <- app_assoc. Qed.
Lemma legal_prefix l1 l2 : legal (l1 ++ l2) -> legal l1.
Proof. intros H l c l' ->. apply (H l c (l' ++ l2)). now rewrite <- app_assoc. Qed.

(* -- whole programs --------------------------------------------------------------------- *)
Lemma ffi_legal_runs l : alloc_ok l -> legal l ->
  exists h rs, ffi_run l empty_heap = Ret h rs /\ agree l h.
Proof.
  induction l as [|c l IH] using rev_ind; intros Al Le.
  - exists empty_heap, []. split; [reflexivity|apply agree_nil].
  - destruct IH as (h & rs & E & G); [eapply alloc_ok_prefix; eauto|eapply legal_prefix; eauto|].
    destruct (legal_step l h c G) as (h' & x & S & G').
    + apply (Le l c []). reflexivity.
    + intros e a ->. now apply (Al l e a []).
    + exists h', (rs ++ [x]). split; [|exact G']. rewrite (ffi_run_snoc _ _ _ _ _ E), S. reflexivity.
Qed.

Lemma ffi_runs_legal l h rs : alloc_ok l -> ffi_run l empty_heap = Ret h rs ->
  legal l /\ agree l h.
Proof.
  revert h rs. induction l as [|c l IH] using rev_ind; intros h rs Al E.
  - cbn in E. injection E as <- <-. split; [|apply agree_nil].
    intros l1 c l2 H. destruct l1; discriminate.
  - rewrite ffi_run_app in E. destruct (ffi_run l empty_heap) as [h1 r1| |] eqn:E1; [|discriminate|discriminate].
    destruct (IH h1 r1) as (Le & G); [eapply alloc_ok_prefix; eauto|reflexivity|].
    cbn in E. destruct (ffi_step c h1) as [h2 x| |] eqn:S; [|discriminate|discriminate].
    cbn in E. injection E as <- <-.
    pose proof (step_legal l h1 c h2 x G S) as Lc. split.
    + intros l1 c' l2 H.
      assert (C : l2 = [] /\ l1 = l /\ c' = c \/ exists l3, l2 = l3 ++ [c] /\ l = l1 ++ c' :: l3).
      { destruct l2 as [|y l2 _] using rev_ind.
        - apply app_inj_tail in H. left. intuition.
        - right. exists l2. rewrite app_comm_cons, app_assoc in H. apply app_inj_tail in H.
          destruct H as (-> & ->). auto. }
      destruct C as [(-> & -> & ->)|(l3 & -> & ->)]; [exact Lc|]. now apply (Le l1 c' l3).
    + destruct (legal_step l h1 c G Lc) as (h' & x' & S' & G').
      * intros e a ->. now apply (Al l e a []).
      * rewrite S in S'. injection S' as <- <-. exact G'.
Qed.

(* -- the statements of PropsFfi.v --------------------------------------------------------- *)
Lemma ffi_returns_iff l : alloc_ok l ->
  ((exists h rs, ffi_run l empty_heap = Ret h rs) <-> legal l).
Proof.
  intros Al. split.
  - intros (h & rs & E). now apply (ffi_runs_legal l h rs).
  - intros Le. destruct (ffi_legal_runs l Al Le) as (h & rs & E & _). eauto.
Qed.

Lemma ffi_isolated l h rs : alloc_ok l -> ffi_run l empty_heap = Ret h rs -> forall a,
  match owner a l None with
  | Some (e, ops) => exists o, h a = Some o /\ is_object e ops o
  | None => h a = None
  end.
Proof.
  intros Al E a. destruct (ffi_runs_legal l h rs Al E) as (_ & G). specialize (G a).
  destruct (owner a l None) as [[e ops]|]; [apply G|exact G].
Qed.

Lemma ffi_detail_call l h rs a ops s r u : alloc_ok l -> ffi_run l empty_heap = Ret h rs ->
  owner a l None = Some (KDetail, ops) -> dexec Api.New ops = Some (s, r) ->
  exists s' o h' x, drun (rust_ops u) s = Some (s', o)
    /\ ffi_step (Use KDetail a u) h = Ret h' x /\ answers dread u o s' x
    /\ h' a = Some (ODetail s') /\ forall b, b <> a -> h' b = h b.
Proof.
  intros Al E O X. destruct (ffi_runs_legal l h rs Al E) as (_ & G).
  destruct (agree_owner l h a _ _ G O) as (N & o & L & (s1 & r1 & X1 & ->)).
  rewrite X in X1. injection X1 as <- <-.
  destruct (use_detail_ok a u h s N L) as (s' & os & x & E1 & An & E2); [now exists Api.New, ops, r|].
  exists s', os, (hset h a (Some (ODetail s'))), x. split; [exact E1|split; [exact E2|split; [exact An|split]]].
  - apply hset_same.
  - intros b Nb. now apply hset_other.
Qed.
Lemma ffi_gerg_call l h rs a ops s r u : alloc_ok l -> ffi_run l empty_heap = Ret h rs ->
  owner a l None = Some (KGerg, ops) -> gexec Api.New ops = Some (s, r) ->
  exists s' o h' x, grun (rust_ops u) s = Some (s', o)
    /\ ffi_step (Use KGerg a u) h = Ret h' x /\ answers gread u o s' x
    /\ h' a = Some (OGerg s') /\ forall b, b <> a -> h' b = h b.
Proof.
  intros Al E O X. destruct (ffi_runs_legal l h rs Al E) as (_ & G).
  destruct (agree_owner l h a _ _ G O) as (N & o & L & (s1 & r1 & X1 & ->)).
  rewrite X in X1. injection X1 as <- <-.
  destruct (use_gerg_ok a u h s N L) as (s' & os & x & E1 & An & E2); [now exists Api.New, ops, r|].
  exists s', os, (hset h a (Some (OGerg s'))), x. split; [exact E1|split; [exact E2|split; [exact An|split]]].
  - apply hset_same.
  - intros b Nb. now apply hset_other.
Qed.

Lemma ffi_roundtrip l h rs e a ops f v : alloc_ok l -> ffi_run l empty_heap = Ret h rs ->
  owner a l None = Some (e, ops) ->
  exists h', ffi_run [Use e a (USet f v); Use e a (UGet f)] h = Ret h' [AUnit; AVal v].
Proof.
  intros Al E O. destruct (ffi_runs_legal l h rs Al E) as (_ & G).
  destruct (agree_owner l h a _ _ G O) as (N & o & L & I). apply Z.eqb_neq in N.
  destruct e; cbn [is_object] in I; destruct I as (s & r & _ & ->);
    destruct f; cbn [ffi_run ffi_step use_detail use_gerg];
    unfold aga8_set_pressure, aga8_set_temperature, aga8_set_density, aga8_get_pressure,
      aga8_get_temperature, aga8_get_density, gerg_ffi_set_pressure, gerg_ffi_set_temperature,
      gerg_ffi_set_density, gerg_ffi_get_pressure, gerg_ffi_get_temperature, gerg_ffi_get_density,
      with_detail, with_gerg; rewrite N, L; cbn [omap]; rewrite hset_same; cbn [omap];
    eexists; reflexivity.
Qed.

End Proofs.
