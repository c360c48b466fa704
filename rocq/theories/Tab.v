(* Lemmas about the checked arrays and loops of Prelude.v.  Arrays are brought to the normal form
   [tab n f] (the array f 0, ..., f (n-1)); a checked loop is shown to be a total fold. *)
From Coq Require Import List Arith Lia Bool.
From Verif Require Import Prelude.
Import ListNotations.

Definition tab {A} (n : nat) (f : nat -> A) : list A := map f (seq 0 n).
Definition tab2 {A} (r c : nat) (f : nat -> nat -> A) : list (list A) :=
  tab r (fun i => tab c (f i)).
Definition tab3 {A} (r c n : nat) (f : nat -> nat -> nat -> A) : list (list (list A)) :=
  tab r (fun i => tab2 c n (f i)).

Lemma tab_length {A} n (f : nat -> A) : length (tab n f) = n.
Proof. unfold tab. now rewrite map_length, seq_length. Qed.

Lemma get_tab {A} n (f : nat -> A) i : i < n -> get (tab n f) i = Some (f i).
Proof.
  intros H. unfold get, tab. rewrite nth_error_map.
  replace (nth_error (seq 0 n) i) with (Some i); [reflexivity|].
  rewrite (nth_error_nth' _ 0) by now rewrite seq_length.
  now rewrite seq_nth.
Qed.

Lemma tab_ext {A} n (f g : nat -> A) : (forall i, i < n -> f i = g i) -> tab n f = tab n g.
Proof.
  intros H. apply map_ext_in. intros a Ha. apply in_seq in Ha. apply H; lia.
Qed.

Lemma tab2_ext {A} r c (f g : nat -> nat -> A) :
  (forall i j, i < r -> j < c -> f i j = g i j) -> tab2 r c f = tab2 r c g.
Proof. intros H. apply tab_ext; intros i Hi. apply tab_ext; intros j Hj. now apply H. Qed.

Lemma tab3_ext {A} r c n (f g : nat -> nat -> nat -> A) :
  (forall i j k, i < r -> j < c -> k < n -> f i j k = g i j k) -> tab3 r c n f = tab3 r c n g.
Proof. intros H. apply tab_ext; intros i Hi. apply tab2_ext; intros j k Hj Hk. now apply H. Qed.

Lemma list_eq_nth {A} (l l' : list A) : (forall i, nth_error l i = nth_error l' i) -> l = l'.
Proof.
  revert l'; induction l as [|x l IH]; intros [|y l'] H; auto.
  - specialize (H 0); discriminate.
  - specialize (H 0); discriminate.
  - f_equal; [specialize (H 0); now injection H|]. apply IH. intros i. apply (H (S i)).
Qed.

Lemma tab_S {A} n (f : nat -> A) : tab (S n) f = f 0 :: tab n (fun i => f (S i)).
Proof. unfold tab. simpl. f_equal. now rewrite <- seq_shift, map_map. Qed.

Lemma list_tab {A} (l : list A) d : l = tab (length l) (fun i => nth i l d).
Proof.
  induction l as [|x l IH]; [reflexivity|]. simpl length. rewrite tab_S. simpl. now f_equal.
Qed.

Lemma list_tab' {A} n (l : list A) d : length l = n -> l = tab n (fun i => nth i l d).
Proof. intros <-. apply list_tab. Qed.

Lemma repeat_tab {A} n (z : A) : repeat z n = tab n (fun _ => z).
Proof. induction n; [reflexivity|]. simpl repeat. rewrite tab_S. now f_equal. Qed.

Lemma nth_tab {A} n (f : nat -> A) i d : i < n -> nth i (tab n f) d = f i.
Proof.
  intros H. apply nth_error_nth. change (get (tab n f) i = Some (f i)). now apply get_tab.
Qed.

Lemma upd_spec {A} (a : list A) i v : i < length a ->
  upd a i v = Some (firstn i a ++ v :: skipn (S i) a).
Proof.
  revert i; induction a as [|x a IH]; intros [|i] H; simpl in H; try lia; [reflexivity|].
  cbn [upd]. rewrite IH by lia. reflexivity.
Qed.

Lemma upd_tab {A} n (f : nat -> A) i v : i < n ->
  upd (tab n f) i v = Some (tab n (fun j => if Nat.eqb j i then v else f j)).
Proof.
  revert f i; induction n as [|n IH]; intros f i H; [lia|].
  rewrite !tab_S. destruct i as [|i]; cbn [upd].
  - reflexivity.
  - rewrite IH by lia. reflexivity.
Qed.

Lemma upd_length {A} (a a' : list A) i v : upd a i v = Some a' -> length a' = length a.
Proof.
  revert a' i; induction a as [|x a IH]; intros a' [|i] H; simpl in H; try discriminate.
  - now injection H as <-.
  - destruct (upd a i v) as [r|] eqn:E; [|discriminate]. injection H as <-. simpl.
    f_equal. eauto.
Qed.

Lemma get2_tab2 {A} r c (f : nat -> nat -> A) i j : i < r -> j < c ->
  get2 (tab2 r c f) i j = Some (f i j).
Proof. intros Hi Hj. unfold get2, tab2. rewrite get_tab by easy. simpl. now apply get_tab. Qed.

Lemma upd2_tab2 {A} r c (f : nat -> nat -> A) i j v : i < r -> j < c ->
  upd2 (tab2 r c f) i j v =
  Some (tab2 r c (fun a b => if (Nat.eqb a i && Nat.eqb b j)%bool then v else f a b)).
Proof.
  intros Hi Hj. unfold upd2, tab2. rewrite get_tab by easy. cbn [bind].
  rewrite upd_tab by easy. cbn [bind]. rewrite upd_tab by easy. f_equal.
  apply tab_ext. intros a Ha. destruct (Nat.eqb_spec a i) as [->|]; [|reflexivity].
  reflexivity.
Qed.

Lemma get3_tab3 {A} r c n (f : nat -> nat -> nat -> A) i j k : i < r -> j < c -> k < n ->
  get3 (tab3 r c n f) i j k = Some (f i j k).
Proof.
  intros Hi Hj Hk. unfold get3, tab3. rewrite get_tab by easy. cbn [bind].
  now apply get2_tab2.
Qed.

Lemma upd3_tab3 {A} r c n (f : nat -> nat -> nat -> A) i j k v : i < r -> j < c -> k < n ->
  upd3 (tab3 r c n f) i j k v =
  Some (tab3 r c n (fun a b e =>
    if (Nat.eqb a i && Nat.eqb b j && Nat.eqb e k)%bool then v else f a b e)).
Proof.
  intros Hi Hj Hk. unfold upd3, tab3. rewrite get_tab by easy. cbn [bind].
  rewrite upd2_tab2 by easy. cbn [bind]. rewrite upd_tab by easy. f_equal.
  apply tab_ext. intros a Ha. destruct (Nat.eqb_spec a i) as [->|]; reflexivity.
Qed.

(* A checked loop over representable states is the representation of a total fold. *)
Lemma for_from_rep {T S} (rep : T -> S) (f : nat -> T -> T) body lo n a :
  (forall i a, lo <= i < lo + n -> body i (rep a) = Some (rep (f i a))) ->
  for_from lo n body (rep a) = Some (rep (fold_left (fun a i => f i a) (seq lo n) a)).
Proof.
  revert lo a; induction n as [|n IH]; intros lo a H; [reflexivity|].
  simpl. rewrite H by lia. cbn [bind]. apply IH. intros i b Hi. apply H; lia.
Qed.

Lemma for_rep {T S} (rep : T -> S) (f : nat -> T -> T) body lo hi a :
  (forall i a, lo <= i < hi -> body i (rep a) = Some (rep (f i a))) ->
  for_ lo hi body (rep a) = Some (rep (fold_left (fun a i => f i a) (seq lo (hi - lo)) a)).
Proof. intros H. apply for_from_rep. intros i b Hi. apply H; lia. Qed.

Lemma for_fold {S} (f : nat -> S -> S) body lo hi a :
  (forall i a, lo <= i < hi -> body i a = Some (f i a)) ->
  for_ lo hi body a = Some (fold_left (fun a i => f i a) (seq lo (hi - lo)) a).
Proof. intros H. apply (for_rep (fun s => s) f). exact H. Qed.

(* The same with an invariant. *)
Lemma for_inv {S} (I : S -> Prop) (f : nat -> S -> S) body lo hi s :
  I s ->
  (forall i s, lo <= i < hi -> I s -> body i s = Some (f i s) /\ I (f i s)) ->
  for_ lo hi body s = Some (fold_left (fun s i => f i s) (seq lo (hi - lo)) s)
  /\ I (fold_left (fun s i => f i s) (seq lo (hi - lo)) s).
Proof.
  unfold for_. intros H0 H. remember (hi - lo) as n eqn:En.
  assert (Hn : lo + n <= hi \/ n = 0) by lia. clear En.
  revert lo s H0 H Hn; induction n as [|n IH]; intros lo s H0 H Hn; [simpl; auto|].
  simpl. destruct (H lo s) as [E1 E2]; [lia|assumption|]. rewrite E1. cbn [bind].
  apply IH; [assumption| |lia]. intros i s' Hi. apply H; lia.
Qed.

Lemma for_ext {S} (b1 b2 : nat -> S -> option S) lo hi s :
  (forall i s, lo <= i < hi -> b1 i s = b2 i s) -> for_ lo hi b1 s = for_ lo hi b2 s.
Proof.
  unfold for_. intros H. remember (hi - lo) as n eqn:En.
  assert (Hn : lo + n <= hi \/ n = 0) by lia. clear En.
  revert lo s H Hn; induction n as [|n IH]; intros lo s H Hn; [reflexivity|].
  simpl. rewrite H by lia. destruct (b2 lo s); [|reflexivity]. cbn [bind].
  apply IH; [intros; apply H; lia|lia].
Qed.

(* Loops that assign every cell of a range independently. *)
Lemma for_fill {A} n (g : nat -> A -> A) body lo hi (f : nat -> A) :
  hi <= n ->
  (forall i f, lo <= i < hi ->
     body i (tab n f) = Some (tab n (fun j => if Nat.eqb j i then g i (f i) else f j))) ->
  for_ lo hi body (tab n f)
  = Some (tab n (fun j => if (Nat.leb lo j && Nat.ltb j hi)%bool then g j (f j) else f j)).
Proof.
  intros Hn H. unfold for_. remember (hi - lo) as m eqn:Em.
  assert (Hm : lo + m = hi \/ (m = 0 /\ hi <= lo)) by lia. clear Em.
  revert lo f H Hm; induction m as [|m IH]; intros lo f H Hm.
  - simpl. f_equal. apply tab_ext. intros i Hi.
    destruct (Nat.leb_spec lo i), (Nat.ltb_spec i hi); try lia; reflexivity.
  - simpl. rewrite H by lia. cbn [bind]. rewrite IH; [|intros; apply H; lia|lia].
    f_equal. apply tab_ext. intros i Hi.
    repeat match goal with
    | |- context [Nat.eqb ?u ?v] => destruct (Nat.eqb_spec u v)
    | |- context [Nat.leb ?u ?v] => destruct (Nat.leb_spec u v)
    | |- context [Nat.ltb ?u ?v] => destruct (Nat.ltb_spec u v)
    end; cbn [andb]; try lia; subst; reflexivity.
Qed.

Lemma for_fill_all {A} n (g : nat -> A -> A) body (f : nat -> A) :
  (forall i f, i < n ->
     body i (tab n f) = Some (tab n (fun j => if Nat.eqb j i then g i (f i) else f j))) ->
  for_ 0 n body (tab n f) = Some (tab n (fun j => g j (f j))).
Proof.
  intros H. rewrite (for_fill n g); [|lia|intros; apply H; lia].
  f_equal. apply tab_ext. intros i Hi.
  destruct (Nat.leb_spec 0 i), (Nat.ltb_spec i n); try lia; reflexivity.
Qed.

Lemma fold_left_ext_in {A B} (f g : A -> B -> A) l a :
  (forall a b, In b l -> f a b = g a b) -> fold_left f l a = fold_left g l a.
Proof.
  revert a; induction l as [|b l IH]; intros a H; [reflexivity|].
  simpl. rewrite H by now left. apply IH. intros a' b' Hb. apply H; now right.
Qed.

Lemma fold_left_pair {A B C} (f : A -> C -> A) (g : B -> C -> B) l a b :
  fold_left (fun p c => (f (fst p) c, g (snd p) c)) l (a, b)
  = (fold_left f l a, fold_left g l b).
Proof. revert a b; induction l as [|c l IH]; intros a b; [reflexivity|]. simpl. apply IH. Qed.

(* A loop whose state after the iterations lo..i-1 is G i. *)
Lemma for_seq {S} (G : nat -> S) body lo hi :
  lo <= hi -> (forall i, lo <= i < hi -> body i (G i) = Some (G (Datatypes.S i))) ->
  for_ lo hi body (G lo) = Some (G hi).
Proof.
  unfold for_. intros Hle H. remember (hi - lo) as n eqn:En.
  assert (Hn : lo + n = hi) by lia. clear En Hle.
  revert lo H Hn; induction n as [|n IH]; intros lo H Hn.
  - replace hi with lo by lia. reflexivity.
  - simpl. rewrite H by lia. cbn [bind]. apply IH; [intros; apply H; lia|lia].
Qed.

Lemma for_seq' {S} (G : nat -> S) body lo hi s s' :
  lo <= hi -> s = G lo -> G hi = s' ->
  (forall i, lo <= i < hi -> body i (G i) = Some (G (Datatypes.S i))) ->
  for_ lo hi body s = Some s'.
Proof. intros Hle -> <- H. now apply for_seq. Qed.

Ltac nat_cases :=
  repeat match goal with
  | |- context [Nat.eqb ?u ?v] => destruct (Nat.eqb_spec u v)
  | |- context [Nat.leb ?u ?v] => destruct (Nat.leb_spec u v)
  | |- context [Nat.ltb ?u ?v] => destruct (Nat.ltb_spec u v)
  end; cbn [andb orb negb]; try lia.
