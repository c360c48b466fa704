(* Accuracy in double precision: what is asked of the platform's elementary functions. *)
From Coq Require Import Reals ZArith.
From Flocq Require Import Core BinarySingleNaN.
From Verif Require Import FArith ArithB64 SpecStd.
Local Open Scope R_scope.

(* v is r up to a relative error of 2^-50 (4 units in the last place of a double) *)
Definition close (v : b64) (r : R) : Prop := fin v /\ Rabs (bR v - r) <= bpow radix2 (-50) * Rabs r.
Definition middle (r : R) : Prop := bpow radix2 (-1000) <= Rabs r <= bpow radix2 1000.
(* exp, ln, powf and powi are accurate to 2^-50 as long as results stay away from overflow and underflow *)
Definition accurate (m : Libm) : Prop :=
  (forall v w, fin v -> fin w -> 0 < bR v -> middle (Rpower (bR v) (bR w)) ->
     close (lm_powf m v w) (Rpower (bR v) (bR w))) /\
  (forall v n, fin v -> (1 <= n <= 6)%nat -> bR v = 0 \/ middle (bR v ^ n) ->
     close (lm_powi m v (Z.of_nat n)) (bR v ^ n)) /\
  (forall v, fin v -> Rabs (bR v) <= 600 -> close (lm_exp m v) (exp (bR v))) /\
  (forall v, fin v -> 0 < bR v -> close (lm_ln m v) (ln (bR v))).

(* the DETAIL equation with every contribution to the compressibility factor counted by its size *)
Definition virial_n (x : nat -> R) (T : R) (n : nat) : R := a_ n * Rpower T (- u_ n)
  * tot 21 (fun i => tot 21 (fun j =>
      x i * x j * B_n n i j * Rpower (pair 0 i j * sqrt (E_ i * E_ j)) (u_ n) * Rpower (K_ i * K_ j) (3/2))).
Definition detail_D (x : nat -> R) (d : R) : R := Rpower (sizeK5 x) (1/5) ^ 3 * d.
Definition detail_size (x : nat -> R) (T d : R) : R :=
  let D := detail_D x d in
  1 + d * tot 18 (fun n => Rabs (virial_n x T n))
  + D * tot 6 (fun m => Rabs (C_n x (12 + m)) * Rpower T (- u_ (12 + m)))
  + tot 46 (fun m => let n := (12 + m)%nat in Rabs (C_n x n) * Rpower T (- u_ n)
      * (INR (b_ n) + INR (k_ n) * D ^ k_ n) * D ^ b_ n
      * match k_ n with O => 1 | k => exp (- D ^ k) end).
