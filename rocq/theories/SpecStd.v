(* The two equations of state as printed, over the reals and over the printed tables (StdDetail,
   StdGerg).  Shares nothing with the model. *)
From Coq Require Import Reals ZArith List Bool.
From Verif Require Import FArith ArithR StdDetail StdGerg.
Import ListNotations.
Local Open Scope R_scope.

Fixpoint tot (n : nat) (f : nat -> R) : R := match n with O => 0 | S m => tot m f + f m end.
Definition lsum {T} (f : T -> R) (l : list T) : R := fold_right (fun a s => f a + s) 0 l.

(* ---- AGA8 DETAIL; components 0..20, terms 0..57 (printed as 1..21 and 1..58) ---- *)
Section Detail.
Notation "a ^R b" := (Rpower a b) (at level 30).
Definition term (n : nat) := nth n TERMS (L 0 0, L 0 0, []).
Definition a_ n : R := Rlit (fst (fst (term n))).
Definition u_ n : R := Rlit (snd (fst (term n))).
Definition b_ n : nat := nth 0 (snd (term n)) 0%nat.
Definition k_ n : nat := nth 1 (snd (term n)) 0%nat.
Definition g_ n : nat := nth 2 (snd (term n)) 0%nat.
Definition q_ n : nat := nth 3 (snd (term n)) 0%nat.
Definition f_ n : nat := nth 4 (snd (term n)) 0%nat.
Definition s_ n : nat := nth 5 (snd (term n)) 0%nat.
Definition w_ n : nat := nth 6 (snd (term n)) 0%nat.
Definition comp (c i : nat) : R := Rlit (nth c (nth i COMPONENTS []) (L 0 0)).
Definition E_ := comp 0. Definition K_ := comp 1. Definition G_ := comp 2. Definition Q_ := comp 3.
Definition F_ := comp 4. Definition S_ := comp 5. Definition W_ := comp 6.
(* parameter c of the pair i, j in either order; 1 if the pair is not listed *)
Definition pair (c i j : nat) : R :=
  match find (fun r => Nat.eqb (fst (fst r)) (Nat.min i j) && Nat.eqb (snd (fst r)) (Nat.max i j))%bool PAIRS with
  | Some r => Rlit (nth c (snd r) (L 1 0)) | None => 1 end.
(* (v + 1 - g)^g for a flag g *)
Definition when (g : nat) (v : R) : R := (v + 1 - INR g) ^ g.

Variable x : nat -> R.
Definition sizeK5 := (tot 21 (fun i => x i * K_ i ^R (5/2))) ^ 2
  + 2 * tot 21 (fun j => tot j (fun i => x i * x j * (pair 2 i j ^ 5 - 1) * (K_ i * K_ j) ^R (5/2))).
Definition energyU5 := (tot 21 (fun i => x i * E_ i ^R (5/2))) ^ 2
  + 2 * tot 21 (fun j => tot j (fun i => x i * x j * (pair 1 i j ^ 5 - 1) * (E_ i * E_ j) ^R (5/2))).
Definition orient := tot 21 (fun i => x i * G_ i)
  + tot 21 (fun j => tot j (fun i => x i * x j * (pair 3 i j - 1) * (G_ i + G_ j))).
Definition quad := tot 21 (fun i => x i * Q_ i).
Definition high := tot 21 (fun i => x i ^ 2 * F_ i).
Definition B_n n i j := when (g_ n) (pair 3 i j * (G_ i + G_ j) / 2) * when (q_ n) (Q_ i * Q_ j)
  * when (f_ n) (sqrt (F_ i) * sqrt (F_ j)) * when (s_ n) (S_ i * S_ j) * when (w_ n) (W_ i * W_ j).
Definition second_virial (T : R) := tot 18 (fun n => a_ n * T ^R (- u_ n)
  * tot 21 (fun i => tot 21 (fun j =>
      x i * x j * B_n n i j * (pair 0 i j * sqrt (E_ i * E_ j)) ^R (u_ n) * (K_ i * K_ j) ^R (3/2)))).
Definition C_n n := a_ n * when (g_ n) orient * when (q_ n) (quad ^ 2) * when (f_ n) high
  * (energyU5 ^R (1/5)) ^R (u_ n).
Definition detail_Z (T d : R) : R :=
  let D := (sizeK5 ^R (1/5)) ^ 3 * d in
  1 + second_virial T * d - D * tot 6 (fun m => C_n (12 + m) * T ^R (- u_ (12 + m)))
  + tot 46 (fun m => let n := (12 + m)%nat in C_n n * T ^R (- u_ n)
      * (INR (b_ n) - INR (k_ n) * D ^ k_ n) * D ^ b_ n
      * match k_ n with O => 1 | k => exp (- D ^ k) end).
Definition detail_p (T d : R) : R := d * (831451 / 100000) * T * detail_Z T d.
End Detail.

(* ---- GERG-2008; components 1..21 ---- *)
(* molar mass *)
Definition detail_mass (x : nat -> R) : R := tot 21 (fun i => x i * Rlit (nth i MASSES (L 0 0))).

Section Gerg.
Definition rho_c (i : nat) : R := Rlit (fst (nth i CRIT (L 0 0, L 0 0))).
Definition T_c (i : nat) : R := Rlit (snd (nth i CRIT (L 0 0, L 0 0))).
(* beta_v, gamma_v, beta_T, gamma_T of the pair i < j *)
Definition red (c i j : nat) : R :=
  match find (fun r => Nat.eqb (fst (fst r)) i && Nat.eqb (snd (fst r)) j)%bool REDUCING with
  | Some r => Rlit (nth c (snd r) (L 0 0)) | None => 0 end.
(* the constants of the reducing functions of the pair i <= j: of 1/rho_r, of T_r, and beta_T^2 *)
Definition v_red i j : R := if Nat.eqb i j then 1 / rho_c i
  else red 0 i j * red 1 i j * (1 / 8) * (Rpower (rho_c i) (- (1 / 3)) + Rpower (rho_c j) (- (1 / 3))) ^ 3.
Definition t_red i j : R := if Nat.eqb i j then T_c i else red 2 i j * red 3 i j * sqrt (T_c i * T_c j).
Definition b_red i j : R := if Nat.eqb i j then 1 else red 2 i j ^ 2.
(* a is b up to a relative error of 1e-14 *)
Definition near (a b : R) : Prop := Rabs (a - b) <= 1 / 100000000000000 * b.

Variable x : nat -> R.
Variables gv gt bt : nat -> nat -> R.
Definition pair_sum (f : nat -> nat -> R) : R := tot 21 (fun j => tot j (fun i => f (S i) (S j))).
Definition red_volume : R := tot 21 (fun m => x (S m) ^ 2 * gv (S m) (S m))
  + pair_sum (fun i j => 2 * x i * x j * gv i j * (x i + x j) / (red 0 i j ^ 2 * x i + x j)).
Definition red_temp : R := tot 21 (fun m => x (S m) ^ 2 * gt (S m) (S m))
  + pair_sum (fun i j => 2 * x i * x j * gt i j * (x i + x j) / (bt i j * x i + x j)).

Definition pure_term (delta tau : R) (r : lit * nat * lit * nat) : R :=
  let '(n, d, t, c) := r in
  Rlit n * delta ^ d * Rpower tau (Rlit t) * match c with O => 1 | _ => exp (- delta ^ c) end.
Definition dep_term (delta tau : R) (r : lit * nat * lit * list lit) : R :=
  let '(n, d, t, w) := r in
  let p c := Rlit (nth c w (L 0 0)) in
  Rlit n * delta ^ d * Rpower tau (Rlit t) * exp (- p 0%nat * (delta - p 1%nat) ^ 2 - p 2%nat * (delta - p 3%nat)).
Definition dep_rows (m : nat) := match find (fun r => Nat.eqb (fst r) m) DEPARTURE with Some r => snd r | None => [] end.
Definition residual (delta tau : R) : R :=
  tot 21 (fun m => x (S m) * lsum (pure_term delta tau) (nth (S m) PURE []))
  + lsum (fun r => let '(i, j, f, m) := r in x i * x j * Rlit f * lsum (dep_term delta tau) (dep_rows m)) DEPARTS.
End Gerg.
