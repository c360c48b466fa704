(* The AGA8 DETAIL equation of state as printed in the standard (AGA Report No. 8 Part 1 / ISO
   12213-2), over the reals.  Only the coefficient tables are shared with the model; components are
   numbered 0..20 and terms 0..57 (printed as 1..21 and 1..58). *)
From Coq Require Import Reals ZArith List.
From Verif Require Import FArith DetailTables ArithR.
Import ListNotations.
Local Open Scope R_scope.

Fixpoint sum (n : nat) (f : nat -> R) : R := match n with O => 0 | S m => sum m f + f m end.
(* over all pairs i < j < n *)
Definition pairs (n : nat) (f : nat -> nat -> R) : R := sum n (fun j => sum j (fun i => f i j)).

(* a negative fraction counts as absent *)
Definition nn (x : nat -> R) (i : nat) : R := Rmax 0 (x i).
(* x with entry j replaced *)
Definition upd (x : nat -> R) (j : nat) (v : R) (i : nat) : R := if Nat.eqb i j then v else x i.

Definition tb (l : list lit) (i : nat) : R := Rlit (nth i l (L 0 0)).
(* binary interaction parameters do not depend on the order of the components *)
Definition bip (l : list (list lit)) (i j : nat) : R :=
  Rlit (nth (Nat.max i j) (nth (Nat.min i j) l []) (L 0 0)).
Definition flag (l : list nat) (n : nat) : R := INR (nth n l 0%nat).
(* (v + 1 - g)^g for a flag g *)
Definition opt (v : R) (l : list nat) (n : nat) : R := (v + 1 - flag l n) ^ (nth n l 0%nat).

Section Eos.
Variable x : nat -> R.
Notation "a ^R b" := (Rpower a b) (at level 30).
Definition K5 := (sum 21 (fun i => x i * tb D_KI i ^R (5/2))) ^ 2
  + 2 * pairs 21 (fun i j => x i * x j * (bip D_KIJ i j ^ 5 - 1) * (tb D_KI i * tb D_KI j) ^R (5/2)).
Definition U5 := (sum 21 (fun i => x i * tb D_EI i ^R (5/2))) ^ 2
  + 2 * pairs 21 (fun i j => x i * x j * (bip D_UIJ i j ^ 5 - 1) * (tb D_EI i * tb D_EI j) ^R (5/2)).
Definition sizeK := K5 ^R (1/5).
Definition energyU := U5 ^R (1/5).
Definition orientG := sum 21 (fun i => x i * tb D_GI i)
  + pairs 21 (fun i j => x i * x j * (bip D_GIJ i j - 1) * (tb D_GI i + tb D_GI j)).
Definition quadQ := sum 21 (fun i => x i * tb D_QI i).
Definition highF := sum 21 (fun i => x i ^ 2 * tb D_FI i).

(* second virial coefficient *)
Definition Bstar n i j :=
  opt (bip D_GIJ i j * (tb D_GI i + tb D_GI j) / 2) D_GN n * opt (tb D_QI i * tb D_QI j) D_QN n
  * opt (sqrt (tb D_FI i) * sqrt (tb D_FI j)) D_FN n * opt (tb D_SI i * tb D_SI j) D_SN n
  * opt (tb D_WI i * tb D_WI j) D_WN n.
Definition Eij i j := bip D_EIJ i j * sqrt (tb D_EI i * tb D_EI j).
Definition virialB (T : R) := sum 18 (fun n => tb D_AN n * T ^R (- tb D_UN n)
  * sum 21 (fun i => sum 21 (fun j =>
      x i * x j * Bstar n i j * Eij i j ^R (tb D_UN n) * (tb D_KI i * tb D_KI j) ^R (3/2)))).

(* compressibility factor *)
Definition Cstar n := tb D_AN n * opt orientG D_GN n * opt (quadQ ^ 2) D_QN n * opt highF D_FN n
  * energyU ^R (tb D_UN n).
Definition expc (D : R) n : R :=
  match nth n D_KN 0%nat with O => 1 | k => exp (- D ^ k) end.
Definition Zfactor (T d : R) : R :=
  let D := sizeK ^ 3 * d in
  let b n := nth n D_BN 0%nat in
  let k n := nth n D_KN 0%nat in
  1 + virialB T * d - D * sum 6 (fun m => Cstar (12 + m) * T ^R (- tb D_UN (12 + m)))
  + sum 46 (fun m => let n := (12 + m)%nat in Cstar n * T ^R (- tb D_UN n)
      * (INR (b n) - INR (k n) * D ^ k n) * D ^ b n * expc D n).
Definition eos (T d : R) : R := d * (831451 / 100000) * T * Zfactor T d.
End Eos.
