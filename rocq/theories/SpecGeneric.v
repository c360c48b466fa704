(* Specifications of the arithmetic-independent properties, in terms of the public API only. *)
From Coq Require Import ZArith List Bool.
From Verif Require Import FArith Prelude Composition DetailTables DetailModel GergTables GergModel Api.
Import ListNotations.

Section Spec.
Context {A : Arith}.
Local Open Scope bool_scope.
Local Open Scope F_scope.

(* s' agrees with s on the fractions and on every public field outside w *)
Definition dframe (w : list pfield) (s s' : Detail) : Prop :=
  d_x s' = d_x s /\ forall f, ~ In f w -> dread f s' = dread f s.
Definition gframe (w : list pfield) (s s' : Gerg) : Prop :=
  g_x s' = g_x s /\ forall f, ~ In f w -> gread f s' = gread f s.

(* the 21 fractions of a composition in the documented order (src/detail.rs:4-26 of the docs,
   methane first, argon last) *)
Definition fractions (c : Composition) : list F :=
  [methane c; nitrogen c; carbon_dioxide c; ethane c; propane c; isobutane c; n_butane c;
   isopentane c; n_pentane c; hexane c; heptane c; octane c; nonane c; decane c; hydrogen c;
   oxygen c; carbon_monoxide c; water c; hydrogen_sulfide c; helium c; argon c].

(* sum of x_i * m_i, accumulated from the left *)
Definition wsum (x m : list F) : F :=
  fold_left (fun a p => a + fst p * snd p) (combine x m) f0.

(* The documented search for the density (DETAIL): one constructor per way an iteration can go.
   [dsearch plog k v s n r s'] - with k pressure evaluations made so far and -ln d = v the search
   makes n evaluations in all and ends in state s' with result r. *)
Inductive dsearch (plog : F) : nat -> F -> Detail -> nat -> result DensityError -> Detail -> Prop :=
| ds_stop k v s :                                   (* out of range, or 20 evaluations made *)
    k = 20%nat \/ (flit (L (-7) 0) <=? v) && (v <=? flit (L 100 0)) = false ->
    dsearch plog k v s k (RErr IterationFail) (set_d_d (d_p s / RDETAIL / d_t s) s)
| ds_back k v s s1 p n r s' :                       (* unusable point: take a fixed step *)
    (k < 20)%nat -> (flit (L (-7) 0) <=? v) && (v <=? flit (L 100 0)) = true ->
    pressure (set_d_d (fexp (- v)) s) = Some (s1, p) ->
    (d_dp_dd_save s1 <? EPSILON) || (p <? EPSILON) = true ->
    dsearch plog (S k) (v + flit (L 1 (-1))) s1 n r s' ->
    dsearch plog k v s n r s'
| ds_newton k v s s1 p w n r s' :                   (* Newton step, not yet converged *)
    (k < 20)%nat -> (flit (L (-7) 0) <=? v) && (v <=? flit (L 100 0)) = true ->
    pressure (set_d_d (fexp (- v)) s) = Some (s1, p) ->
    (d_dp_dd_save s1 <? EPSILON) || (p <? EPSILON) = false ->
    w = (fln p - plog) * p / ((- d_d s1) * d_dp_dd_save s1) ->
    (fabs w <? flit (L 1 (-7))) = false ->
    dsearch plog (S k) (v - w) s1 n r s' ->
    dsearch plog k v s n r s'
| ds_done k v s s1 p w :                            (* converged *)
    (k < 20)%nat -> (flit (L (-7) 0) <=? v) && (v <=? flit (L 100 0)) = true ->
    pressure (set_d_d (fexp (- v)) s) = Some (s1, p) ->
    (d_dp_dd_save s1 <? EPSILON) || (p <? EPSILON) = false ->
    w = (fln p - plog) * p / ((- d_d s1) * d_dp_dd_save s1) ->
    (fabs w <? flit (L 1 (-7))) = true ->
    dsearch plog k v s (S k) ROk (set_d_d (fexp (- (v - w))) s1).

(* the density the search starts from *)
Definition dguess (s : Detail) : F :=
  if - EPSILON <? d_d s then d_p s / RDETAIL / d_t s else fabs (d_d s).

(* The same for GERG-2008; k evaluations and f restarts so far, b the restart flag; q pressure
   evaluations and g restarts at the end.  A restart happens when v is out of range, at
   evaluations 20, 30 and 40 (counted from 1) and when the flag is set; the flag is set by a
   converged step with negative dp/dd (gs_flag), which only exists when allow = true. *)
Definition gmust_restart (k : nat) (v : F) (b : bool) : bool :=
  negb ((flit (L (-7) 0) <=? v) && (v <=? flit (L 100 0)))
  || Nat.eqb (S k) 20 || Nat.eqb (S k) 30 || Nat.eqb (S k) 40 || b.

(* -ln d, restart count and state the next evaluation uses *)
Inductive gpoint (dcx : F) (k : nat) (v : F) (b : bool) (f : nat) (s : Gerg)
  : F -> nat -> Gerg -> Prop :=
| gp_go : gmust_restart k v b = false -> gpoint dcx k v b f s v f s
| gp_restart s1 : gmust_restart k v b = true -> (f <= 2)%nat ->
    s1 = set_g_d (grestart_d (S f) dcx (g_d s)) s ->
    gpoint dcx k v b f s (- fln (g_d s1)) (S f) s1.

(* end of a search that found a density: with iflag > 0 the phase check follows *)
Definition gfinish (iflag : Z) (s : Gerg) : option (Gerg * result DensityError) :=
  if (0 <? iflag)%Z then gdensity_check s else Some (s, ROk).

Inductive gsearch (allow : bool) (iflag : Z) (dcx plog : F)
  : nat -> nat -> bool -> F -> Gerg -> nat -> nat -> result DensityError -> Gerg -> Prop :=
| gs_stop k f b v s :
    k = 50%nat \/ (gmust_restart k v b = true /\ (2 < f)%nat) ->
    gsearch allow iflag dcx plog k f b v s k f (RErr IterationFail)
      (set_g_d (g_p s / RGERG / g_t s) s)
| gs_back k f b v s v1 f1 s1 s2 p q g r s' :
    (k < 50)%nat -> gpoint dcx k v b f s v1 f1 s1 ->
    gerg_pressure (set_g_d (fexp (- v1)) s1) = Some (s2, p) ->
    (g_dpddsave s2 <? GEPSILON) || (p <? GEPSILON) = true ->
    gsearch allow iflag dcx plog (S k) f1 false (v1 + gvinc (S k) (g_d s2) dcx) s2 q g r s' ->
    gsearch allow iflag dcx plog k f b v s q g r s'
| gs_newton k f b v s v1 f1 s1 s2 p w q g r s' :
    (k < 50)%nat -> gpoint dcx k v b f s v1 f1 s1 ->
    gerg_pressure (set_g_d (fexp (- v1)) s1) = Some (s2, p) ->
    (g_dpddsave s2 <? GEPSILON) || (p <? GEPSILON) = false ->
    w = (fln p - plog) * p / ((- g_d s2) * g_dpddsave s2) ->
    (fabs w <? flit (L 1 (-7))) = false ->
    gsearch allow iflag dcx plog (S k) f1 false (v1 + (- w)) s2 q g r s' ->
    gsearch allow iflag dcx plog k f b v s q g r s'
| gs_flag k f b v s v1 f1 s1 s2 p w q g r s' :
    allow = true ->
    (k < 50)%nat -> gpoint dcx k v b f s v1 f1 s1 ->
    gerg_pressure (set_g_d (fexp (- v1)) s1) = Some (s2, p) ->
    (g_dpddsave s2 <? GEPSILON) || (p <? GEPSILON) = false ->
    w = (fln p - plog) * p / ((- g_d s2) * g_dpddsave s2) ->
    (fabs w <? flit (L 1 (-7))) = true -> (g_dpddsave s2 <? f0) = true ->
    gsearch allow iflag dcx plog (S k) f1 true (v1 + (- w)) s2 q g r s' ->
    gsearch allow iflag dcx plog k f b v s q g r s'
| gs_done k f b v s v1 f1 s1 s2 p w r s' :
    (k < 50)%nat -> gpoint dcx k v b f s v1 f1 s1 ->
    gerg_pressure (set_g_d (fexp (- v1)) s1) = Some (s2, p) ->
    (g_dpddsave s2 <? GEPSILON) || (p <? GEPSILON) = false ->
    w = (fln p - plog) * p / ((- g_d s2) * g_dpddsave s2) ->
    (fabs w <? flit (L 1 (-7))) = true -> (g_dpddsave s2 <? f0) = false ->
    gfinish iflag (set_g_d (fexp (- (v1 + (- w)))) s2) = Some (s', r) ->
    gsearch allow iflag dcx plog k f b v s (S k) f1 r s'.

(* 1 / sum of x_i / dc_i, or 0 when that sum is not above 1e-15 *)
Definition gpseudo (x : list F) : F :=
  let v := fold_left (fun a p => a + fst p / snd p) (combine (tl x) (tl (map flit G_DC))) f0 in
  if GEPSILON <? v then f1 / v else f0.
Definition gguess (iflag : Z) (s : Gerg) : F :=
  if - GEPSILON <? g_d s then
    if (iflag =? 2)%Z then gpseudo (g_x s) * f3 else g_p s / RGERG / g_t s
  else fabs (g_d s).

End Spec.
