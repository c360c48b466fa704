(* Panics, fixed-size arrays with checked indexing, and counted loops.
   A computation that panics (an out-of-bounds index, a failed assert!) is None. *)
From Coq Require Import List Arith.
Import ListNotations.

Definition bind {A B} (m : option A) (f : A -> option B) : option B :=
  match m with Some a => f a | None => None end.
Notation "x <- m ;; k" := (bind m (fun x => k))
  (at level 61, m at next level, right associativity).
Notation "' p <- m ;; k" := (bind m (fun p => k))
  (at level 61, p pattern, m at next level, right associativity).

(* a[i] (read): panics when i is out of bounds. *)
Definition get {A} (a : list A) (i : nat) : option A := nth_error a i.
Definition get2 {A} (a : list (list A)) (i j : nat) : option A := r <- get a i ;; get r j.
Definition get3 {A} (a : list (list (list A))) (i j k : nat) : option A :=
  r <- get a i ;; get2 r j k.

(* a[i] = v: panics when i is out of bounds. *)
Fixpoint upd {A} (a : list A) (i : nat) (v : A) : option (list A) :=
  match a, i with
  | [], _ => None
  | _ :: r, O => Some (v :: r)
  | x :: r, S i' => r' <- upd r i' v ;; Some (x :: r')
  end.
Definition upd2 {A} (a : list (list A)) (i j : nat) (v : A) : option (list (list A)) :=
  r <- get a i ;; r' <- upd r j v ;; upd a i r'.
Definition upd3 {A} (a : list (list (list A))) (i j k : nat) (v : A) :=
  r <- get a i ;; r' <- upd2 r j k v ;; upd a i r'.

(* for i in lo..hi { body }  (empty when lo >= hi); the loop state is s. *)
Fixpoint for_from {S} (lo n : nat) (body : nat -> S -> option S) (s : S) : option S :=
  match n with
  | O => Some s
  | Datatypes.S n' => s' <- body lo s ;; for_from (Datatypes.S lo) n' body s'
  end.
Definition for_ {S} (lo hi : nat) (body : nat -> S -> option S) (s : S) : option S :=
  for_from lo (hi - lo) body s.
(* for i in lo..=hi *)
Definition for_incl {S} (lo hi : nat) (body : nat -> S -> option S) (s : S) : option S :=
  for_ lo (Datatypes.S hi) body s.

(* Result<(), E> *)
Inductive result (E : Type) : Type := ROk | RErr (e : E).
Arguments ROk {E}.
Arguments RErr {E} e.
