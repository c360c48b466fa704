(* The GERG-2008 equation of state as published (Kunz and Wagner, J. Chem. Eng. Data 2012), over the
   reals.  Only the coefficient tables are shared with the model; components are numbered 1..21. *)
From Coq Require Import Reals ZArith List Bool.
From Verif Require Import FArith GergTables ArithR SpecDetail.
Import ListNotations.
Local Open Scope R_scope.

(* over i = a+1 .. a+n, and over all pairs 1 <= i < j <= n *)
Definition sumf (a n : nat) (f : nat -> R) : R := sum n (fun m => f (a + S m)%nat).
Definition pairs1 (n : nat) (f : nat -> nat -> R) : R := pairs n (fun i j => f (S i) (S j)).

Definition tb2 (l : list (list lit)) (i j : nat) : R := Rlit (nth j (nth i l []) (L 0 0)).
(* the value last assigned to entry (i, j) in the source, if any *)
Definition entry {T} (l : list ((nat * nat) * T)) (i j : nat) : option T :=
  match find (fun e => Nat.eqb i (fst (fst e)) && Nat.eqb j (snd (fst e)))%bool (rev l) with
  | Some e => Some (snd e) | None => None end.
Definition rentry {T} (l : list (nat * T)) (k : nat) : option T :=
  match find (fun e => Nat.eqb k (fst e)) (rev l) with Some e => Some (snd e) | None => None end.
Definition cell (l : list ((nat * nat) * lit)) (i j : nat) : R :=
  match entry l i j with Some v => Rlit v | None => 0 end.
Definition ncell (l : list ((nat * nat) * nat)) (i j : nat) : nat :=
  match entry l i j with Some v => v | None => 0%nat end.
(* exponents of the pure-fluid equations: own rows (carbon dioxide, hydrogen, water, helium), the
   24-term form of methane, nitrogen and ethane, the 12-term form of the others *)
Definition expo {T} (all long : list (nat * T)) (own : list ((nat * nat) * T)) (i k : nat) : option T :=
  match entry own i k with
  | Some v => Some v
  | None =>
    match (if Nat.eqb i 1 || Nat.eqb i 2 || Nat.eqb i 4 then rentry long k else None)%bool with
    | Some v => Some v
    | None => rentry all k
    end
  end.
Definition dexp i k : nat :=
  match expo G_setup_doik_all G_setup_doik_long G_setup_doik i k with Some v => v | None => 0%nat end.
Definition cexp i k : nat :=
  match expo G_setup_coik_all G_setup_coik_long G_setup_coik i k with Some v => v | None => 0%nat end.
Definition texp i k : R :=
  match expo G_setup_toik_all G_setup_toik_long G_setup_toik i k with Some v => Rlit v | None => 0 end.

(* the gas constant, J/(mol K) *)
Definition Rg : R := 8314472 / 1000000.
(* a fraction not above 1e-15 counts as absent *)
Definition ac (x : nat -> R) (i : nat) : R := if Rlt_dec (1 / 1000000000000000) (x i) then x i else 0.

Section Eos.
Variable x : nat -> R.

(* reducing volume 1/rho_r and temperature; the tables hold, for i <> j,
   GVIJ = beta_v gamma_v (1/8) (rho_ci^(-1/3) + rho_cj^(-1/3))^3, GTIJ = beta_T gamma_T (T_ci T_cj)^(1/2),
   BTIJ = beta_T^2 and on the diagonal the critical values (see C37) *)
Definition vred : R := sumf 0 21 (fun i => x i ^ 2 * tb2 G_GVIJ i i)
  + pairs1 21 (fun i j => 2 * x i * x j * tb2 G_GVIJ i j * (x i + x j)
                          / (cell G_setup_bvij i j ^ 2 * x i + x j)).
Definition tred : R := sumf 0 21 (fun i => x i ^ 2 * tb2 G_GTIJ i i)
  + pairs1 21 (fun i j => 2 * x i * x j * tb2 G_GTIJ i j * (x i + x j)
                          / (tb2 G_BTIJ i j * x i + x j)).

Section At.
Variables delta tau : R.
(* residual Helmholtz energy of pure component i *)
Definition alpha_o (i : nat) : R :=
  let np := nth i G_KPOL 0%nat in
  sumf 0 np (fun k => tb2 G_NOIK i k * delta ^ dexp i k * Rpower tau (texp i k))
  + sumf np (nth i G_KEXP 0%nat)
      (fun k => tb2 G_NOIK i k * delta ^ dexp i k * Rpower tau (texp i k) * exp (- delta ^ cexp i k)).
(* departure function number m *)
Definition alpha_m (m : nat) : R :=
  let np := nth m G_KPOLIJ 0%nat in
  sumf 0 np (fun k =>
    cell G_setup_nijk m k * delta ^ ncell G_setup_dijk m k * Rpower tau (cell G_setup_tijk m k))
  + sumf np (nth m G_KEXPIJ 0%nat) (fun k =>
    cell G_setup_nijk m k * delta ^ ncell G_setup_dijk m k * Rpower tau (cell G_setup_tijk m k)
    * exp (- cell G_setup_cijk m k * (delta - cell G_setup_eijk m k) ^ 2
           - cell G_setup_bijk m k * (delta - cell G_setup_gijk m k))).
Definition departure (i j : nat) : R :=
  match nth j (nth i G_MNUMB []) 0%nat with O => 0 | m => x i * x j * tb2 G_FIJ i j * alpha_m m end.
Definition alphar : R := sumf 0 21 (fun i => x i * alpha_o i) + pairs1 21 departure.
End At.
End Eos.
