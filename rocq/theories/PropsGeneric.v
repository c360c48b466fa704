(* Properties that hold for every implementation of the floating-point operations.
   Each theorem is stated with the API of Api.v and the specifications of SpecGeneric.v. *)
From Coq Require Import ZArith List Bool.
From Verif Require Import FArith Prelude Composition DetailTables DetailModel GergTables GergModel
  Api SpecGeneric ApiSafe DensityProofs BasicProofs GenericLemmas Consistency Absent.
Import ListNotations.
Local Open Scope bool_scope.
Local Open Scope F_scope.

(* C08 *)
Theorem C08_detail {A : Arith} : forall s c, dreach s ->
  dstep (SetComp c) s
  = Some (match comp_check c with
          | ROk => set_d_x (fractions c) s
          | RErr _ => s
          end, OComp (comp_check c)).
Proof. exact dset_comp_step. Qed.
Theorem C08_gerg {A : Arith} : forall s c, greach s ->
  gstep (SetComp c) s
  = Some (match comp_check c with
          | ROk => set_g_x (f0 :: fractions c) s
          | RErr _ => s
          end, OComp (comp_check c)).
Proof. exact gset_comp_step. Qed.

(* C09: value and frame; linearity and bounds over the reals are in PropsReal.v *)
Theorem C09_detail {A : Arith} : forall s, dreach s ->
  exists s', dstep MolarMass s = Some (s', OVal (wsum (d_x s) (map flit D_MMI)))
    /\ s' = set_d_mm (wsum (d_x s) (map flit D_MMI)) s.
Proof. exact dmm_step. Qed.
Theorem C09_gerg {A : Arith} : forall s, greach s ->
  gstep MolarMass s
  = Some (set_g_mm (wsum (tl (g_x s)) (tl (map flit G_MMI_GERG))) s, OUnit).
Proof. exact gmm_step. Qed.

(* C10 *)
Theorem C10_detail {A : Arith} : forall k l, exists s r, dexec k l = Some (s, r).
Proof. exact dexec_some. Qed.
Theorem C10_gerg {A : Arith} : forall k l, exists s r, gexec k l = Some (s, r).
Proof. exact gexec_some. Qed.

(* C11 *)
Theorem C11_detail {A : Arith} : forall s i s' r, dstep (Density i) s = Some (s', ODens r) ->
  (r = RErr PressureTooLow /\ (fabs (d_p s) <? EPSILON) = true /\ s' = set_d_d f0 s)
  \/ (fabs (d_p s) <? EPSILON) = false /\
     exists n, (n <= 20)%nat /\
       dsearch (fln (d_p s)) 0 (- fln (dguess s)) (set_d_d (dguess s) s) n r s'.
Proof. exact ddens_step. Qed.
Theorem C11_gerg {A : Arith} : forall s i s' r, greach s ->
  gstep (Density i) s = Some (s', ODens r) ->
  exists q g, (q <= 50)%nat /\ (g <= 3)%nat /\
    gsearch true i (gpseudo (g_x s)) (fln (g_p s)) 0 0 false (- fln (gguess i s))
      (set_g_d (gguess i s) s) q g r s'.
Proof. exact gdens_step. Qed.

(* C12 *)
Theorem C12_detail {A : Arith} : forall s i s' r, dreach s ->
  dstep (Density i) s = Some (s', ODens r) ->
  dframe [PD; PZ] s s' /\
  (r = RErr IterationFail -> d_d s' = d_p s / RDETAIL / d_t s) /\
  (r = RErr PressureTooLow <-> (fabs (d_p s) <? EPSILON) = true) /\
  (r = RErr PressureTooLow -> s' = set_d_d f0 s).
Proof. exact ddens_contract. Qed.
Theorem C12_gerg {A : Arith} : forall s i s' r, greach s -> (i <= 0)%Z ->
  gstep (Density i) s = Some (s', ODens r) ->
  gframe [PD; PZ] s s' /\
  (forall e, r = RErr e -> e = IterationFail /\ g_d s' = g_p s / RGERG / g_t s).
Proof. exact gdens_contract. Qed.
Theorem C12_gerg_any_flag {A : Arith} : forall s i s' r, greach s ->
  gstep (Density i) s = Some (s', ODens r) ->
  g_t s' = g_t s /\ g_p s' = g_p s /\ g_x s' = g_x s.
Proof. exact gdens_inputs. Qed.

(* C13: the evaluated point and the correction *)
Theorem C13_detail {A : Arith} : forall s i s', dreach s ->
  dstep (Density i) s = Some (s', ODens ROk) ->
  exists v0 s0 s1 p w,
    dreach s0 /\ dframe [PD; PZ] s s0 /\
    (flit (L (-7) 0) <=? v0) && (v0 <=? flit (L 100 0)) = true /\
    dstep Pressure (set_d_d (fexp (- v0)) s0) = Some (s1, OVal p) /\
    (d_dp_dd_save s1 <? EPSILON) = false /\ (p <? EPSILON) = false /\
    w = (fln p - fln (d_p s)) * p / ((- fexp (- v0)) * d_dp_dd_save s1) /\
    (fabs w <? flit (L 1 (-7))) = true /\
    s' = set_d_d (fexp (- (v0 - w))) s1.
Proof. exact ddens_last. Qed.
Theorem C13_gerg {A : Arith} : forall s i s', greach s ->
  gstep (Density i) s = Some (s', ODens ROk) ->
  exists v0 s0 s1 p w,
    greach s0 /\ gframe [PD; PZ] s s0 /\
    gstep Pressure (set_g_d (fexp (- v0)) s0) = Some (s1, OVal p) /\
    (g_dpddsave s1 <? GEPSILON) = false /\ (p <? GEPSILON) = false /\
    w = (fln p - fln (g_p s)) * p / ((- fexp (- v0)) * g_dpddsave s1) /\
    (fabs w <? flit (L 1 (-7))) = true /\
    s' = set_g_d (fexp (- (v0 + - w))) s1.
Proof. exact gdens_last. Qed.

(* C17 *)
Theorem C17_detail {A : Arith} : forall s i v,
  (- EPSILON <? d_d s) = true -> (- EPSILON <? v) = true ->
  dstep (Density i) (dpoke PD v s) = dstep (Density i) s.
Proof. exact ddens_old_d. Qed.
Theorem C17_gerg {A : Arith} : forall s i v,
  (- GEPSILON <? g_d s) = true -> (- GEPSILON <? v) = true ->
  gstep (Density i) (gpoke PD v s) = gstep (Density i) s.
Proof. exact gdens_old_d. Qed.

(* C30: two new objects whose fractions differ only where neither is positive (GERG: above 1e-15),
   with some fraction that differs from 0 by more than 1e-7, give the same pressure and z, and the
   same properties but mm, w and kappa. *)
Theorem C30_detail {A : Arith} : forall k (x y : nat -> F) t d,
  (exists i, (i < 21)%nat /\ x i = y i /\ (flit (L 1 (-7)) <? fabs (x i - f0)) = true) ->
  (forall i, (i < 21)%nat -> x i = y i \/ ((f0 <? x i) = false /\ (f0 <? y i) = false)) ->
  (forall s1 o1 s2 o2, dexec k (feed x t d ++ [Pressure]) = Some (s1, o1) ->
    dexec k (feed y t d ++ [Pressure]) = Some (s2, o2) ->
    o1 = o2 /\ forall f, dread f s1 = dread f s2) /\
  (forall s1 o1 s2 o2 f, dexec k (feed x t d ++ [Properties]) = Some (s1, o1) ->
    dexec k (feed y t d ++ [Properties]) = Some (s2, o2) ->
    ~ In f [PMM; PW; PKappa] -> dread f s1 = dread f s2).
Proof.
  intros k x y t d H1 H2. split; [exact (absent_pressure k x y t d H1 H2)|exact (absent_properties k x y t d H1 H2)].
Qed.
Theorem C30_gerg {A : Arith} : forall k (x y : nat -> F) t d,
  (exists i, (1 <= i < 22)%nat /\ x i = y i /\ (flit (L 1 (-7)) <? fabs (x i - f0)) = true) ->
  (forall i, (1 <= i < 22)%nat -> x i = y i \/ ((GEPSILON <? x i) = false /\ (GEPSILON <? y i) = false)) ->
  (forall s1 o1 s2 o2, gexec k (feed x t d ++ [Pressure]) = Some (s1, o1) ->
    gexec k (feed y t d ++ [Pressure]) = Some (s2, o2) ->
    o1 = o2 /\ forall f, gread f s1 = gread f s2) /\
  (forall s1 o1 s2 o2, gexec k (feed x t d ++ [Properties]) = Some (s1, o1) ->
    gexec k (feed y t d ++ [Properties]) = Some (s2, o2) ->
    o1 = o2 /\ forall f, ~ In f [PMM; PW; PKappa] -> gread f s1 = gread f s2).
Proof.
  intros k x y t d H1 H2. split; [exact (gabsent_pressure k x y t d H1 H2)|exact (gabsent_properties k x y t d H1 H2)].
Qed.

(* C31 *)
Theorem C31_detail {A : Arith} : forall s s' o, dreach s ->
  (dstep Pressure s = Some (s', o) -> dframe [PZ] s s') /\
  (dstep Properties s = Some (s', o) ->
     d_t s' = d_t s /\ d_d s' = d_d s /\ d_x s' = d_x s).
Proof. exact dconfined. Qed.
Theorem C31_gerg {A : Arith} : forall s s' o, greach s ->
  (gstep Pressure s = Some (s', o) -> gframe [PZ] s s') /\
  (gstep Properties s = Some (s', o) ->
     g_t s' = g_t s /\ g_p s' = g_p s /\ g_d s' = g_d s /\ g_x s' = g_x s).
Proof. exact gconfined. Qed.

(* C32: needs only that x - x is never larger than 1e-7 in magnitude (true of IEEE-754 including
   NaN and infinities, and of the reals: PropsReal.v and PropsFloat.v instantiate it) *)
Theorem C32_detail {A : Arith} : (forall x, (flit (L 1 (-7)) <? fabs (x - x)) = false) ->
  forall o s s' r, dreach s -> o = Pressure \/ o = Properties ->
  dstep o s = Some (s', r) -> dstep o s' = Some (s', r).
Proof. exact dagain. Qed.
Theorem C32_gerg {A : Arith} : (forall x, (flit (L 1 (-7)) <? fabs (x - x)) = false) ->
  forall o s s' r, greach s -> o = Pressure \/ o = Properties ->
  gstep o s = Some (s', r) -> gstep o s' = Some (s', r).
Proof. exact gagain. Qed.

(* C34: the property "density with a phase check can succeed" is false *)
Theorem C34_refuted {A : Arith} : forall s i s' r, greach s -> (0 < i)%Z ->
  gstep (Density i) s = Some (s', ODens r) -> r = RErr IterationFail.
Proof. exact gdens_check_fails. Qed.

(* C38: with the flag constructor of the search removed (allow = false) *)
Theorem C38_gerg {A : Arith} : (forall x, (x <? f0) = true -> (x <? GEPSILON) = true) ->
  forall s i s' r, greach s -> gstep (Density i) s = Some (s', ODens r) ->
  exists q g, (q <= 50)%nat /\ (g <= 3)%nat /\
    gsearch false i (gpseudo (g_x s)) (fln (g_p s)) 0 0 false (- fln (gguess i s))
      (set_g_d (gguess i s) s) q g r s'.
Proof. exact gdens_noflag. Qed.

(* C40 *)
Theorem C40_detail {A : Arith} : forall k s, dstart k = Some s ->
  d_x s = repeat f0 21 /\ forall f, dread f s = f0.
Proof. exact dfresh_zero. Qed.
Theorem C40_gerg {A : Arith} : forall k s, gstart k = Some s ->
  g_x s = repeat f0 22 /\ forall f, gread f s = f0.
Proof. exact gfresh_zero. Qed.

(* C41 *)
Theorem C41_detail {A : Arith} : forall s s' r, dreach s -> dstep Properties s = Some (s', r) ->
  let t := d_t s' in let d := d_d s' in
  let dense := EPSILON <? d in
  let y := flit (L 1000 0) * d_cp s' / d_cv s' * d_dp_dd s' / d_mm s' in
  d_p s' = d * (RDETAIL * t) * d_z s' /\
  d_mm s' = wsum (d_x s') (map flit D_MMI) /\
  d_d2p_dtd s' = f0 /\
  d_h s' = (if dense then d_u s' + d_p s' / d else d_u s' + RDETAIL * t) /\
  d_cp s' = (if dense then d_cv s' + t * fpowi (d_dp_dt s' / d) 2 / d_dp_dd s'
             else d_cv s' + RDETAIL) /\
  d_jt s' = (if dense then (t / d * d_dp_dt s' / d_dp_dd s' - f1) / d_cp s' / d
             else flit (L 1 20)) /\
  d_w s' = fsqrt (if y <? f0 then f0 else y) /\
  d_kappa s' = d_w s' * d_w s' * d_mm s' / (RDETAIL * t * flit (L 1000 0) * d_z s').
Proof. exact dconsistent. Qed.
Theorem C41_gerg {A : Arith} : forall s s' r, greach s -> gstep Properties s = Some (s', r) ->
  let t := g_t s' in let d := g_d s' in
  let dense := GEPSILON <? d in
  let y := flit (L 1000 0) * g_cp s' / g_cv s' * g_dp_dd s' / g_mm s' in
  r = OVal (d * (RGERG * t) * g_z s') /\
  g_mm s' = wsum (tl (g_x s')) (tl (map flit G_MMI_GERG)) /\
  g_cp s' = (if dense
             then g_cv s' + t * (g_dp_dt s' / d) * (g_dp_dt s' / d) / g_dp_dd s'
             else g_cv s' + RGERG) /\
  g_jt s' = (if dense then (t / d * g_dp_dt s' / g_dp_dd s' - f1) / g_cp s' / d
             else flit (L 1 20)) /\
  g_w s' = fsqrt (if y <? f0 then f0 else y) /\
  g_kappa s' = fpowi (g_w s') 2 * g_mm s' / (RGERG * t * flit (L 1000 0) * g_z s').
Proof. exact gconsistent. Qed.
Theorem C41_detail_pressure {A : Arith} : forall s s' r, dreach s -> dstep Pressure s = Some (s', r) ->
  r = OVal (d_d s' * RDETAIL * d_t s' * d_z s').
Proof. exact dpress_value. Qed.
Theorem C41_gerg_pressure {A : Arith} : forall s s' r, greach s -> gstep Pressure s = Some (s', r) ->
  r = OVal (g_d s' * RGERG * g_t s' * g_z s').
Proof. exact gpress_value. Qed.

Print Assumptions C08_detail.
Print Assumptions C08_gerg.
Print Assumptions C09_detail.
Print Assumptions C09_gerg.
Print Assumptions C10_detail.
Print Assumptions C10_gerg.
Print Assumptions C11_detail.
Print Assumptions C11_gerg.
Print Assumptions C12_detail.
Print Assumptions C12_gerg.
Print Assumptions C12_gerg_any_flag.
Print Assumptions C13_detail.
Print Assumptions C13_gerg.
Print Assumptions C17_detail.
Print Assumptions C17_gerg.
Print Assumptions C30_detail.
Print Assumptions C30_gerg.
Print Assumptions C31_detail.
Print Assumptions C31_gerg.
Print Assumptions C32_detail.
Print Assumptions C32_gerg.
Print Assumptions C34_refuted.
Print Assumptions C38_gerg.
Print Assumptions C40_detail.
Print Assumptions C40_gerg.
Print Assumptions C41_detail.
Print Assumptions C41_gerg.
Print Assumptions C41_detail_pressure.
Print Assumptions C41_gerg_pressure.
