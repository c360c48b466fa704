(* Finite sums of reals. *)
From Coq Require Import Reals ZArith List Lra Lia.
From Coquelicot Require Import Coquelicot.
From Verif Require Import FArith ArithR.
Import ListNotations.
Local Open Scope R_scope.

Definition rsum {T} (g : T -> R) (l : list T) : R := fold_right (fun n a => g n + a) 0 l.
Lemma rsum_cons {T} (g : T -> R) a l : rsum g (a :: l) = g a + rsum g l.
Proof. reflexivity. Qed.
Lemma rsum_fold {T} (g : T -> R) l : forall a, fold_left (fun a n => a + g n) l a = a + rsum g l.
Proof.
  induction l as [|n l IH]; intros a; cbn [fold_left]; [cbn; ring|]. rewrite IH, rsum_cons. ring.
Qed.
Lemma rsum_fold_minus {T} (g : T -> R) l : forall a,
  fold_left (fun a n => a - g n) l a = a - rsum g l.
Proof.
  induction l as [|n l IH]; intros a; cbn [fold_left]; [cbn; ring|]. rewrite IH, rsum_cons. ring.
Qed.
Lemma rsum_ext {T} (f g : T -> R) l : (forall n, In n l -> f n = g n) -> rsum f l = rsum g l.
Proof.
  induction l as [|n l IH]; intros H; [reflexivity|]. rewrite !rsum_cons, IH, (H n); trivial.
  - now left.
  - intros m Hm. apply H. now right.
Qed.
Lemma rsum_plus {T} (f g : T -> R) l : rsum (fun n => f n + g n) l = rsum f l + rsum g l.
Proof. induction l as [|n l IH]; [cbn; ring|]. rewrite !rsum_cons, IH. ring. Qed.
Lemma rsum_scal {T} c (g : T -> R) l : rsum (fun n => c * g n) l = c * rsum g l.
Proof. induction l as [|n l IH]; [cbn; ring|]. rewrite !rsum_cons, IH. ring. Qed.
Lemma rsum_opp {T} (g : T -> R) l : rsum (fun n => - g n) l = - rsum g l.
Proof. induction l as [|n l IH]; [cbn; ring|]. rewrite !rsum_cons, IH. ring. Qed.
Lemma rsum_0 {T} (l : list T) : rsum (fun _ => 0) l = 0.
Proof. induction l as [|n l IH]; [reflexivity|]. rewrite rsum_cons, IH. ring. Qed.
Lemma rsum_app {T} (g : T -> R) l l' : rsum g (l ++ l') = rsum g l + rsum g l'.
Proof. induction l as [|n l IH]; cbn [app]; [change (rsum g []) with 0; ring|]. rewrite !rsum_cons, IH. ring. Qed.
Lemma rsum_map {S T} (f : S -> T) (g : T -> R) l : rsum g (map f l) = rsum (fun x => g (f x)) l.
Proof. induction l as [|n l IH]; [reflexivity|]. cbn [map]. now rewrite !rsum_cons, IH. Qed.
Lemma rsum_flat_map {S T} (f : S -> list T) (g : T -> R) l :
  rsum g (flat_map f l) = rsum (fun x => rsum g (f x)) l.
Proof. induction l as [|n l IH]; [reflexivity|]. cbn [flat_map]. now rewrite rsum_app, rsum_cons, IH. Qed.
Lemma rsum_ge0 {T} (g : T -> R) l : (forall n, In n l -> 0 <= g n) -> 0 <= rsum g l.
Proof.
  induction l as [|n l IH]; intros H; [apply Rle_refl|]. rewrite rsum_cons.
  pose proof (H n (or_introl eq_refl)). assert (0 <= rsum g l); [|lra].
  apply IH. intros m Hm. apply H. now right.
Qed.
Lemma rsum_le {T} (f g : T -> R) l : (forall n, In n l -> f n <= g n) -> rsum f l <= rsum g l.
Proof.
  induction l as [|n l IH]; intros H; [apply Rle_refl|]. rewrite !rsum_cons.
  pose proof (H n (or_introl eq_refl)). assert (rsum f l <= rsum g l); [|lra].
  apply IH. intros m Hm. apply H. now right.
Qed.
Lemma rsum_in {T} (g : T -> R) l n : (forall n, In n l -> 0 <= g n) -> In n l -> g n <= rsum g l.
Proof.
  induction l as [|m l IH]; intros H Hn; [contradiction|]. rewrite rsum_cons.
  assert (0 <= rsum g l) by (apply rsum_ge0; intros; apply H; now right).
  destruct Hn as [->|Hn]; [lra|].
  assert (g n <= rsum g l) by (apply IH; [intros; apply H; now right|assumption]).
  pose proof (H m (or_introl eq_refl)). lra.
Qed.
Lemma rsum_gt0 {T} (g : T -> R) l n : (forall n, In n l -> 0 <= g n) -> In n l -> 0 < g n ->
  0 < rsum g l.
Proof. intros H Hn Hg. pose proof (rsum_in g l n H Hn). lra. Qed.

(* derivatives of sums *)
Lemma sd_rsum {T} (g : T -> R -> R -> R) (a b : T -> R) t d l :
  (forall n, In n l -> sd (g n) t d (a n) (b n)) ->
  sd (fun t d => rsum (fun n => g n t d) l) t d (rsum a l) (rsum b l).
Proof.
  induction l as [|n l IH]; intros H; [apply (sd_const 0)|]. rewrite !rsum_cons.
  apply (sd_plus (g n) (fun t d => rsum (fun n => g n t d) l)).
  - apply H. now left.
  - apply IH. intros m Hm. apply H. now right.
Qed.
