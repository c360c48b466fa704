(* The methods as functions of the inputs, over the reals: a new object is given the fractions x,
   the temperature t and the density d, and one method is called. *)
From Coq Require Import Reals ZArith List Bool.
From Coquelicot Require Import Coquelicot.
From Verif Require Import FArith Prelude Composition DetailModel GergModel Api ArithR.
Import ListNotations.
Local Open Scope R_scope.
Local Existing Instance ArithR.

Definition inputs (x : nat -> R) (t d : R) : list op :=
  [SetX (A := ArithR) x; Poke (A := ArithR) PT t; Poke (A := ArithR) PD d].
Definition last_val (l : list out) : R :=
  match last l OUnit with OVal v => v | _ => 0 end.

(* the value pressure() returns *)
Definition dpres (k : start) (x : nat -> R) (t d : R) : R :=
  match dexec k (inputs x t d ++ [Pressure]) with Some (_, l) => last_val l | None => 0 end.
Definition gpres (k : start) (x : nat -> R) (t d : R) : R :=
  match gexec k (inputs x t d ++ [Pressure]) with Some (_, l) => last_val l | None => 0 end.
(* the value of field f after properties() *)
Definition dprop (k : start) (f : pfield) (x : nat -> R) (t d : R) : R :=
  match dexec k (inputs x t d ++ [Properties]) with Some (s, _) => dread f s | None => 0 end.
Definition gprop (k : start) (f : pfield) (x : nat -> R) (t d : R) : R :=
  match gexec k (inputs x t d ++ [Properties]) with Some (s, _) => gread f s | None => 0 end.

(* f has the partial derivatives ft, fd at (t, d) along every differentiable curve *)
Definition diff (f : R -> R -> R) (t d ft fd : R) : Prop :=
  forall (T D : R -> R) (s T' D' : R), T s = t -> D s = d -> is_derive T s T' -> is_derive D s D' ->
    is_derive (fun r => f (T r) (D r)) s (ft * T' + fd * D').
(* the total of the positive fractions *)
Fixpoint pos_total (x : nat -> R) (n : nat) : R :=
  match n with O => 0 | S m => pos_total x m + Rmax 0 (x m) end.

(* What it means for reported values u h s cv cp w g jt kappa p z dpdt dpdd d2p (functions of
   temperature and density) to be one thermodynamic surface at (t, d); rg gas constant, mm molar mass. *)
Section Surface.
Variables (rg mm : R) (p dpdd d2p dpdt z u h s cv cp w g jt kappa : R -> R -> R) (t d : R).
Let a : R -> R -> R := fun t d => u t d - t * s t d.
Definition pressure_derivatives : Prop :=
  diff p t d (dpdt t d) (dpdd t d) /\ is_derive (fun d => dpdd t d) d (d2p t d).
Definition potentials : Prop :=
  diff a t d (- s t d) (p t d / (d * d)) /\
  diff u t d (cv t d) ((p t d - t * dpdt t d) / (d * d)) /\
  diff s t d (cv t d / t) (- dpdt t d / (d * d)) /\
  h t d = u t d + p t d / d /\ g t d = h t d - t * s t d /\ z t d = p t d / (d * rg * t).
(* along every path of constant pressure dH = cp dT *)
Definition isobaric_cp : Prop := dpdd t d <> 0 ->
  forall (T D : R -> R) (q T' D' : R), T q = t -> D q = d -> is_derive T q T' -> is_derive D q D' ->
  is_derive (fun r => p (T r) (D r)) q 0 ->
  is_derive (fun r => h (T r) (D r)) q (cp t d * T').
(* along every path of constant enthalpy dT = jt dP *)
Definition isenthalpic_jt : Prop := dpdd t d <> 0 -> cp t d <> 0 ->
  forall (T D : R -> R) (q T' D' P' : R), T q = t -> D q = d -> is_derive T q T' -> is_derive D q D' ->
  is_derive (fun r => h (T r) (D r)) q 0 ->
  is_derive (fun r => p (T r) (D r)) q P' -> T' = jt t d * P'.
(* along every path of constant entropy dP = (w^2 mm / 1000) dD and d dP = kappa p dD *)
Definition isentropic_w : Prop := dpdd t d <> 0 -> cv t d <> 0 -> mm <> 0 ->
  0 <= cp t d / cv t d * dpdd t d / mm ->
  forall (T D : R -> R) (q T' D' P' : R), T q = t -> D q = d -> is_derive T q T' -> is_derive D q D' ->
  is_derive (fun r => s (T r) (D r)) q 0 ->
  is_derive (fun r => p (T r) (D r)) q P' ->
  P' = w t d * w t d * mm / 1000 * D' /\
  (p t d <> 0 -> d * P' = kappa t d * p t d * D').
End Surface.

(* Compositions over the reals: the 21 fields in the order of the struct, and their total. *)
Definition fields (c : @Composition ArithR) : list R :=
  [methane c; nitrogen c; carbon_dioxide c; ethane c; propane c; isobutane c; n_butane c;
   isopentane c; n_pentane c; hexane c; heptane c; octane c; nonane c; decane c; hydrogen c;
   oxygen c; carbon_monoxide c; water c; hydrogen_sulfide c; helium c; argon c].
Fixpoint total (l : list R) : R := match l with [] => 0 | a :: l => a + total l end.
Fixpoint dot (x m : list R) : R :=
  match x, m with a :: x, b :: m => a * b + dot x m | _, _ => 0 end.
(* GERG: slots 1..n; fractions not above 1e-15 are treated as absent *)
Fixpoint act_total (x : nat -> R) (n : nat) : R :=
  match n with
  | O => 0
  | S m => act_total x m + (if Rlt_dec (1 / 1000000000000000) (x (S m)) then x (S m) else 0)
  end.
