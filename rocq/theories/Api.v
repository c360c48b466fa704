(* Histories of public API uses of one object: writes to public fields and method calls, in any
   order, starting from new() or default(). *)
From Coq Require Import ZArith List Bool.
From Verif Require Import FArith Prelude Composition DetailModel GergModel.
Import ListNotations.

(* the public scalar fields, the same in both objects
   (src/detail.rs:664-702, src/gerg2008.rs:2356-2394) *)
Inductive pfield :=
  PT | PP | PD | PZ | PMM | PDpDd | PD2pDd2 | PD2pDtd | PDpDt | PU | PH | PS | PCv | PCp | PW
| PG | PJt | PKappa.

Section Api.
Context {A : Arith}.

(* obj.field = v *)
Definition dpoke (f : pfield) (v : F) (s : Detail) : Detail :=
  match f with
  | PT => set_d_t v s | PP => set_d_p v s | PD => set_d_d v s | PZ => set_d_z v s
  | PMM => set_d_mm v s | PDpDd => set_d_dp_dd v s | PD2pDd2 => set_d_d2p_dd2 v s
  | PD2pDtd => set_d_d2p_dtd v s | PDpDt => set_d_dp_dt v s | PU => set_d_u v s
  | PH => set_d_h v s | PS => set_d_s v s | PCv => set_d_cv v s | PCp => set_d_cp v s
  | PW => set_d_w v s | PG => set_d_g v s | PJt => set_d_jt v s | PKappa => set_d_kappa v s
  end.
Definition gpoke (f : pfield) (v : F) (s : Gerg) : Gerg :=
  match f with
  | PT => set_g_t v s | PP => set_g_p v s | PD => set_g_d v s | PZ => set_g_z v s
  | PMM => set_g_mm v s | PDpDd => set_g_dp_dd v s | PD2pDd2 => set_g_d2p_dd2 v s
  | PD2pDtd => set_g_d2p_dtd v s | PDpDt => set_g_dp_dt v s | PU => set_g_u v s
  | PH => set_g_h v s | PS => set_g_s v s | PCv => set_g_cv v s | PCp => set_g_cp v s
  | PW => set_g_w v s | PG => set_g_g v s | PJt => set_g_jt v s | PKappa => set_g_kappa v s
  end.
(* reading a public field *)
Definition dread (f : pfield) (s : Detail) : F :=
  match f with
  | PT => d_t s | PP => d_p s | PD => d_d s | PZ => d_z s | PMM => d_mm s | PDpDd => d_dp_dd s
  | PD2pDd2 => d_d2p_dd2 s | PD2pDtd => d_d2p_dtd s | PDpDt => d_dp_dt s | PU => d_u s
  | PH => d_h s | PS => d_s s | PCv => d_cv s | PCp => d_cp s | PW => d_w s | PG => d_g s
  | PJt => d_jt s | PKappa => d_kappa s
  end.
Definition gread (f : pfield) (s : Gerg) : F :=
  match f with
  | PT => g_t s | PP => g_p s | PD => g_d s | PZ => g_z s | PMM => g_mm s | PDpDd => g_dp_dd s
  | PD2pDd2 => g_d2p_dd2 s | PD2pDtd => g_d2p_dtd s | PDpDt => g_dp_dt s | PU => g_u s
  | PH => g_h s | PS => g_s s | PCv => g_cv s | PCp => g_cp s | PW => g_w s | PG => g_g s
  | PJt => g_jt s | PKappa => g_kappa s
  end.

(* One use of the API.  SetX overwrites the whole array x: the array of the values v 0, v 1, ...
   (any array of the right size is of this form).  DETAIL's density has no parameter; there
   iflag is ignored. *)
Inductive op :=
  Poke (f : pfield) (v : F) | SetX (v : nat -> F) | SetComp (c : Composition)
| MolarMass | Pressure | Density (iflag : Z) | Properties.
(* what the caller gets back *)
Inductive out :=
  OUnit | OVal (v : F) | OComp (r : result CompositionError) | ODens (r : result DensityError).

Definition dstep (o : op) (s : Detail) : option (Detail * out) :=
  match o with
  | Poke f v => Some (dpoke f v s, OUnit)
  | SetX v => Some (set_d_x (map v (seq 0 21)) s, OUnit)
  | SetComp c => '(s, r) <- set_composition c s ;; Some (s, OComp r)
  | MolarMass => '(s, v) <- molar_mass s ;; Some (s, OVal v)
  | Pressure => '(s, v) <- pressure s ;; Some (s, OVal v)
  | Density _ => '(s, r) <- density s ;; Some (s, ODens r)
  | Properties => s <- properties s ;; Some (s, OUnit)
  end.
Definition gstep (o : op) (s : Gerg) : option (Gerg * out) :=
  match o with
  | Poke f v => Some (gpoke f v s, OUnit)
  | SetX v => Some (set_g_x (map v (seq 0 22)) s, OUnit)
  | SetComp c => '(s, r) <- gerg_set_composition c s ;; Some (s, OComp r)
  | MolarMass => s <- gerg_molar_mass s ;; Some (s, OUnit)
  | Pressure => '(s, v) <- gerg_pressure s ;; Some (s, OVal v)
  | Density i => '(s, r) <- gerg_density i s ;; Some (s, ODens r)
  | Properties => '(s, v) <- gerg_properties s ;; Some (s, OVal v)
  end.

Fixpoint drun (l : list op) (s : Detail) : option (Detail * list out) :=
  match l with
  | [] => Some (s, [])
  | o :: l => '(s, r) <- dstep o s ;; '(s, rs) <- drun l s ;; Some (s, r :: rs)
  end.
Fixpoint grun (l : list op) (s : Gerg) : option (Gerg * list out) :=
  match l with
  | [] => Some (s, [])
  | o :: l => '(s, r) <- gstep o s ;; '(s, rs) <- grun l s ;; Some (s, r :: rs)
  end.

(* the two public constructors *)
Inductive start := New | Default.
Definition dstart (k : start) : option Detail :=
  match k with New => detail_new | Default => Some detail_default end.
Definition gstart (k : start) : option Gerg :=
  match k with New => gerg_new | Default => Some gerg_default end.

(* A whole execution: construct, then use. *)
Definition dexec (k : start) (l : list op) : option (Detail * list out) :=
  s <- dstart k ;; drun l s.
Definition gexec (k : start) (l : list op) : option (Gerg * list out) :=
  s <- gstart k ;; grun l s.

(* states that some use of the API leads to *)
Definition dreach (s : Detail) : Prop := exists k l r, dexec k l = Some (s, r).
Definition greach (s : Gerg) : Prop := exists k l r, gexec k l = Some (s, r).

End Api.
