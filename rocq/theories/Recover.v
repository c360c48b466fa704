(* After any history, an evaluation at inputs told apart from those of the previous one (and from
   zero) answers as a new object does. *)
From Coq Require Import ZArith List Bool Lia.
From Verif Require Import FArith Prelude Tab Composition DetailModel DetailPure DetailRefine DetailEval
  GergTables GergModel GergPure GergRefine GergEval Api ApiSafe SpecGeneric SpecHistory SpecB64 BasicProofs GenericLemmas
  HistoryGerg Drift Steps NanMain.
Import ListNotations.

Lemma answer_app {S O} (s : S) (a b : list O) : b <> [] -> answer (Some (s, a ++ b)) = answer (Some (s, b)).
Proof.
  intros Hb. unfold answer. rewrite map_app. assert (H : map Some b <> []) by (now destruct b).
  generalize dependent (map Some b). intros l H. induction (map Some a) as [|v a' IH]; [reflexivity|].
  cbn [app last]. destruct (a' ++ l) eqn:E; [apply app_eq_nil in E; tauto|]. exact IH.
Qed.

Section R.
Context {A : Arith}.
Local Opaque pp new_cx new_ct cache_of gpp cterms gc_next nxold dexec gexec.
Theorem d_recover l y u e x t d :
  x_diff (map x (seq 0 21)) (map y (seq 0 21)) = true -> x_diff (map x (seq 0 21)) (repeat f0 21) = true ->
  differs t u = true -> differs t f0 = true ->
  answer (dexec New (l ++ asks y u e ++ asks x t d)) = answer (dexec New (asks x t d)).
Proof.
  intros Hx Hx0 Ht Ht0. destruct (dexec_inv New l) as (s & r & E & cx & ct & W).
  destruct (@dplay_ok A dp_new (asks y u e ++ asks x t d) eq_refl cx ct s W) as (s' & E').
  rewrite (dexec_app _ _ _ _ _ _ _ E E'), d_once.
  rewrite answer_app by discriminate. cbn [dplay asks app answer map last].
  Local Transparent new_cx new_ct.
  unfold new_cx at 1, new_ct at 1. rewrite Hx, Ht. unfold new_cx, new_ct. rewrite Hx0, Ht0. reflexivity.
Qed.
Lemma next_can x xo t c : gx_diff x xo = true -> differs t f0 = true -> gcan (P := gp_new) x t (gc_next (P := gp_new) x xo t c).
Proof.
  intros Hx Ht. Local Transparent gc_next. unfold gc_next. apply tau_fresh; unfold gc_red; rewrite Hx; [reflexivity..|].
  unfold gc_fresh. cbn [gc_told gc_tr gc_tr2]. now rewrite Ht.
Qed.
Local Opaque gc_next.
Lemma nx_diff x y z : gx_diff x y = true -> gx_diff x (nxold y z) = true.
Proof.
  unfold gx_diff. intros H. apply existsb_exists in H. destruct H as (i & Hi & H). apply existsb_exists. exists i. split; [exact Hi|].
  apply in_seq in Hi. Local Transparent nxold. unfold nxold. unfold xf at 2. rewrite (nth_tab 22 _ i f0) by lia.
  replace (Nat.eqb i 0) with false by (symmetry; apply Nat.eqb_neq; lia). exact H.
Qed.
Local Opaque nxold.
Theorem g_recover l y u e x t d :
  gx_diff (map x (seq 0 22)) (map y (seq 0 22)) = true -> gx_diff (map x (seq 0 22)) (repeat f0 22) = true ->
  differs t f0 = true ->
  answer (gexec New (l ++ asks y u e ++ asks x t d)) = answer (gexec New (asks x t d)).
Proof.
  intros Hx Hx0 Ht0. destruct (gexec_inv New l) as (s & r & E & c & W).
  destruct (@gplay_ok A gp_new (asks y u e ++ asks x t d) eq_refl c s W) as (s' & E').
  rewrite (gexec_app _ _ _ _ _ _ _ E E'), g_once.
  rewrite answer_app by discriminate. cbn [gplay asks app answer map last].
  rewrite (can_cterms (P := gp_new) _ _ d _ (next_can _ _ t _ (nx_diff _ _ _ Hx) Ht0)).
  rewrite (can_cterms (P := gp_new) _ _ d _ (next_can _ _ t _ Hx0 Ht0)). reflexivity.
Qed.
End R.

Section S.
Context {A : Arith}.
Lemma apart_d x y : length x = 21%nat -> xapart 0 x y -> x_diff x y = true.
Proof. intros L (i & Hi & H). apply existsb_exists. exists i. split; [apply in_seq; lia|exact H]. Qed.
Lemma apart_g x y : length x = 22%nat -> xapart 1 x y -> gx_diff x y = true.
Proof. intros L (i & Hi & H). apply existsb_exists. exists i. split; [apply in_seq; lia|exact H]. Qed.
Definition vec (n : nat) (x : nat -> F) : list F := map x (seq 0 n).
Theorem detail_recovers l y u e x t d : xapart 0 (vec 21 x) (vec 21 y) -> xapart 0 (vec 21 x) (repeat f0 21) -> apart t u -> apart t f0 ->
  answer (dexec New (l ++ asks y u e ++ asks x t d)) = answer (dexec New (asks x t d)).
Proof.
  intros H1 H2 H3 H4. apply d_recover; [now apply apart_d|now apply apart_d|exact H3|exact H4].
Qed.
Theorem gerg_recovers l y u e x t d : xapart 1 (vec 22 x) (vec 22 y) -> xapart 1 (vec 22 x) (repeat f0 22) -> apart t f0 ->
  answer (gexec New (l ++ asks y u e ++ asks x t d)) = answer (gexec New (asks x t d)).
Proof.
  intros H1 H2 H3. apply g_recover; [now apply apart_g|now apply apart_g|exact H3].
Qed.
End S.
