(* Relations between the public fields after properties(), for every arithmetic. *)
From Coq Require Import ZArith List Bool.
From Verif Require Import FArith Prelude Tab Composition DetailTables DetailModel GergTables GergModel
  DetailPure DetailRefine DetailEval GergPure GergRefine GergEval
  Api ApiSafe SpecGeneric DensityProofs BasicProofs GenericLemmas.
Import ListNotations.
Local Open Scope bool_scope.
Local Open Scope F_scope.

Section C.
Context {A : Arith}.
Local Opaque props_st gprops_st.

Lemma dconsistent s s' r : dreach s -> dstep Properties s = Some (s', r) ->
  let t := d_t s' in let d := d_d s' in
  let dense := EPSILON <? d in
  let y := flit (L 1000 0) * d_cp s' / d_cv s' * d_dp_dd s' / d_mm s' in
  d_p s' = d * (RDETAIL * t) * d_z s' /\
  d_mm s' = wsum (d_x s') (map flit D_MMI) /\
  d_d2p_dtd s' = f0 /\
  d_h s' = (if dense then d_u s' + d_p s' / d else d_u s' + RDETAIL * t) /\
  d_cp s' = (if dense then d_cv s' + t * fpowi (d_dp_dt s' / d) 2 / d_dp_dd s'
             else d_cv s' + RDETAIL) /\
  d_jt s' = (if dense then (t / d * d_dp_dt s' / d_dp_dd s' - f1) / d_cp s' / d
             else flit (L 1 20)) /\
  d_w s' = fsqrt (if y <? f0 then f0 else y) /\
  d_kappa s' = d_w s' * d_w s' * d_mm s' / (RDETAIL * t * flit (L 1000 0) * d_z s').
Proof.
  intros H E.
  destruct (dreach_wf s H) as (P & cx & ct & W). cbn [dstep] in *.
  rewrite (properties_ok _ _ _ W) in E. rewrite props_flat in E. cbv zeta in E. cbn [bind] in E.
  pose proof (pmm_wsum _ (wf_x _ _ _ W)) as Em.
  clear W. injection E as <- _.
  cbv zeta. unfold rflat.
  cbn [d_t d_d d_p d_z d_mm d_d2p_dtd d_h d_u d_cp d_cv d_dp_dt d_dp_dd d_jt d_w d_kappa d_x].
  split; [reflexivity|]. split; [exact Em|]. split; [reflexivity|]. split; [reflexivity|].
  split; [reflexivity|]. split; [reflexivity|]. split; reflexivity.
Qed.

Lemma gconsistent s s' r : greach s -> gstep Properties s = Some (s', r) ->
  let t := g_t s' in let d := g_d s' in
  let dense := GEPSILON <? d in
  let y := flit (L 1000 0) * g_cp s' / g_cv s' * g_dp_dd s' / g_mm s' in
  r = OVal (d * (RGERG * t) * g_z s') /\
  g_mm s' = wsum (tl (g_x s')) (tl (map flit G_MMI_GERG)) /\
  g_cp s' = (if dense
             then g_cv s' + t * (g_dp_dt s' / d) * (g_dp_dt s' / d) / g_dp_dd s'
             else g_cv s' + RGERG) /\
  g_jt s' = (if dense then (t / d * g_dp_dt s' / g_dp_dd s' - f1) / g_cp s' / d
             else flit (L 1 20)) /\
  g_w s' = fsqrt (if y <? f0 then f0 else y) /\
  g_kappa s' = fpowi (g_w s') 2 * g_mm s' / (RGERG * t * flit (L 1000 0) * g_z s').
Proof.
  intros H E. destruct (greach_wf s H) as (P & c & W). cbn [gstep] in *.
  rewrite (gproperties_ok _ _ W) in E. rewrite gprops_flat in E. cbv zeta in E. cbn [bind] in E.
  pose proof (gmm_wsum _ (gw_x _ _ W)) as Em. clear W. injection E as <- <-.
  cbv zeta. unfold grflat.
  cbn [g_t g_d g_p g_z g_mm g_h g_u g_cp g_cv g_dp_dt g_dp_dd g_jt g_w g_kappa g_x].
  split; [reflexivity|]. split; [exact Em|]. split; [reflexivity|]. split; [reflexivity|].
  split; reflexivity.
Qed.

(* the value returned by pressure() *)
Lemma dpress_value s s' r : dreach s -> dstep Pressure s = Some (s', r) ->
  r = OVal (d_d s' * RDETAIL * d_t s' * d_z s').
Proof.
  intros H E. destruct (dreach_wf s H) as (P & cx & ct & W). cbn [dstep] in *.
  rewrite (pressure_ok _ _ _ W), press_flat in E. cbn [bind] in E. clear W. injection E as <- <-.
  unfold pflat. cbn [d_t d_d d_z]. reflexivity.
Qed.
Lemma gpress_value s s' r : greach s -> gstep Pressure s = Some (s', r) ->
  r = OVal (g_d s' * RGERG * g_t s' * g_z s').
Proof.
  intros H E. destruct (greach_wf s H) as (P & c & W). cbn [gstep] in *.
  rewrite (gpressure_ok _ _ W), gpress_flat in E. cbn [bind] in E. clear W. injection E as <- <-.
  unfold gpflat. cbn [g_t g_d g_z]. reflexivity.
Qed.
End C.
