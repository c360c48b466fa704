(* Properties over the reals (exact arithmetic). *)
From Coq Require Import Reals ZArith List Bool Lra.
From Coquelicot Require Import Coquelicot.
From Verif Require Import FArith Prelude Composition DetailTables GergTables DetailModel GergModel Api
  SpecGeneric ArithR SpecReal GenericLemmas CompReal DetailThermo GergThermo.
Import ListNotations.
Local Open Scope R_scope.
Local Existing Instance ArithR.

(* C01 *)
Theorem C01 : forall c,
  (comp_check c = RErr Empty <-> Rabs (total (fields c)) < 1 / 10000000000) /\
  (comp_check c = RErr BadSum <->
     1 / 10000000000 <= Rabs (total (fields c)) /\ 1 / 100 < Rabs (total (fields c) - 1)) /\
  (comp_check c = ROk <-> Rabs (total (fields c) - 1) <= 1 / 100).
Proof. intros c. split; [exact (check_empty c)|]. split; [exact (check_badsum c)|exact (check_ok c)]. Qed.
Theorem C01_unit_sum : forall c, total (fields c) = 1 -> comp_check c = ROk.
Proof. intros c H. apply check_ok. rewrite H, Rminus_diag_eq, Rabs_R0 by reflexivity. lra. Qed.
Theorem C01_default : comp_check comp_default = RErr Empty.
Proof. apply check_empty. unfold fields, comp_default, f0. rar. cbn [Rlit total methane nitrogen carbon_dioxide
  ethane propane isobutane n_butane isopentane n_pentane hexane heptane octane nonane decane hydrogen oxygen
  carbon_monoxide water hydrogen_sulfide helium argon]. rewrite !Rplus_0_l, Rabs_R0. lra. Qed.

(* C04 *)
Theorem C04 : forall c,
  (0 < total (fields c) -> exists c', comp_normalize c = (c', ROk) /\ total (fields c') = 1 /\
     fields c' = map (fun v => v / total (fields c)) (fields c)) /\
  (total (fields c) <= 0 -> comp_normalize c = (c, RErr Empty)).
Proof. intros c. split; [exact (normalize_ok c)|exact (normalize_err c)]. Qed.

(* C05 *)
Theorem C05_idempotent : forall c, 0 < total (fields c) ->
  let c' := fst (comp_normalize c) in comp_normalize c' = (c', ROk).
Proof. exact normalize_idem. Qed.
Theorem C05_scale : forall c c2 q, 0 < q -> 0 < total (fields c) ->
  fields c2 = map (Rmult q) (fields c) -> comp_normalize c2 = comp_normalize c.
Proof. exact normalize_scale. Qed.

(* C09: value, bounds and linearity *)
Theorem C09_detail_real : forall s, dreach s ->
  exists v, dstep MolarMass s = Some (set_d_mm v s, OVal v) /\
    v = dot (d_x s) M_detail /\
    (List.Forall (fun a => 0 <= a) (d_x s) ->
      20159 / 10000 * total (d_x s) <= v <= 142285 / 1000 * total (d_x s)).
Proof. exact CompReal.molar_mass_detail. Qed.
Theorem C09_gerg_real : forall s, greach s ->
  exists v, gstep MolarMass s = Some (set_g_mm v s, OUnit) /\
    v = dot (tl (g_x s)) M_gerg /\
    (List.Forall (fun a => 0 <= a) (tl (g_x s)) ->
      201588 / 100000 * total (tl (g_x s)) <= v <= 14228168 / 100000 * total (tl (g_x s))).
Proof. exact CompReal.molar_mass_gerg. Qed.
Theorem C09_linear : forall a b x y m, length x = length m -> length y = length m ->
  dot (map (fun p => a * fst p + b * snd p) (combine x y)) m = a * dot x m + b * dot y m.
Proof. exact dot_linear. Qed.

(* C23: dp_dd, d2p_dd2 and dp_dt are the derivatives of the pressure.  dprop k f x t d is the field f
   after properties() of a new object given x, t, d; dpres the value pressure() returns. *)
Theorem C23_detail : forall k x t d, 1 / 10000000 < t -> 1 / 1000000000000000 < d ->
  pressure_derivatives (dprop k PP x) (dprop k PDpDd x) (dprop k PD2pDd2 x) (dprop k PDpDt x) t d.
Proof. exact detail_pressure_derivatives. Qed.
Theorem C23_detail_pressure : forall k x t d, 1 / 10000000 < t ->
  dpres k x t d = dprop k PP x t d /\
  is_derive (fun d => dpres k x t d) d (dprop k PDpDd x t d) /\
  is_derive (fun t => dpres k x t d) t (dprop k PDpDt x t d).
Proof. exact detail_pressure_derive. Qed.

(* C24 *)
Theorem C24_detail : forall k x, pos_total x 21 = 1 ->
  forall t d, 1 / 10000000 < t -> 1 / 1000000000000000 < d ->
  let V f := dprop k f x in
  potentials (@RDETAIL ArithR) (V PP) (V PDpDt) (V PZ) (V PU) (V PH) (V PS) (V PCv) (V PG) t d /\
  isobaric_cp (V PP) (V PDpDd) (V PH) (V PCp) t d /\
  isenthalpic_jt (V PP) (V PDpDd) (V PH) (V PCp) (V PJt) t d /\
  isentropic_w (V PMM t d) (V PP) (V PDpDd) (V PS) (V PCv) (V PCp) (V PW) (V PKappa) t d.
Proof. exact detail_surface. Qed.

(* C26: as C23, plus the cross derivative.  gpres is the value pressure() returns. *)
Theorem C26_gerg : forall k x, (exists i, (1 <= i <= 21)%nat /\ 1 / 10000000 < x i) ->
  forall t d, 1 / 10000000 < t -> 1 / 1000000000000000 < d ->
  pressure_derivatives (gpres k x) (gprop k PDpDd x) (gprop k PD2pDd2 x) (gprop k PDpDt x) t d
  /\ is_derive (fun t => gprop k PDpDd x t d) t (gprop k PD2pDtd x t d).
Proof. exact gerg_derivatives. Qed.
Theorem C26_gerg_pressure : forall k x, (exists i, (1 <= i <= 21)%nat /\ 1 / 10000000 < x i) ->
  forall t d, 1 / 10000000 < t ->
  is_derive (fun d => gpres k x t d) d (gprop k PDpDd x t d) /\
  is_derive (fun t => gpres k x t d) t (gprop k PDpDt x t d).
Proof. exact gerg_pressure_derive. Qed.

(* C27 *)
Theorem C27_gerg : forall k x, act_total x 21 = 1 ->
  forall t d, 1 / 10000000 < t -> 1 / 1000000000000000 < d ->
  let V f := gprop k f x in let p := gpres k x in
  potentials (@RGERG ArithR) p (V PDpDt) (V PZ) (V PU) (V PH) (V PS) (V PCv) (V PG) t d /\
  isobaric_cp p (V PDpDd) (V PH) (V PCp) t d /\
  isenthalpic_jt p (V PDpDd) (V PH) (V PCp) (V PJt) t d /\
  isentropic_w (V PMM t d) p (V PDpDd) (V PS) (V PCv) (V PCp) (V PW) (V PKappa) t d.
Proof. exact gerg_surface. Qed.

(* Ordinary inputs meet the hypotheses: 0.75 methane and 0.25 nitrogen (DETAIL slots 0 and 1, GERG
   slots 1 and 2) at 300 K and 5 mol/l. *)
Example C24_C27_apply :
  pos_total (fun i => match i with 0%nat => 3/4 | 1%nat => 1/4 | _ => 0 end) 21 = 1 /\
  act_total (fun i => match i with 1%nat => 3/4 | 2%nat => 1/4 | _ => 0 end) 21 = 1 /\
  1 / 10000000 < 300 /\ 1 / 1000000000000000 < 5.
Proof.
  split; [|split; [|lra]].
  - cbn [pos_total]. rewrite !Rmax_right by lra. lra.
  - cbn [act_total]. repeat (destruct (Rlt_dec _ _); try lra).
Qed.

(* three parts methane and one part nitrogen: C01 (BadSum), C04 and C05 apply *)
Definition ex_mix (a b : R) : @Composition ArithR := @mkComposition ArithR a b 0 0 0 0 0 0 0 0 0 0 0 0 0 0 0 0 0 0 0.
Lemma ex_total a b : total (fields (ex_mix a b)) = a + b.
Proof. unfold fields, ex_mix. cbn [total methane nitrogen carbon_dioxide
  ethane propane isobutane n_butane isopentane n_pentane hexane heptane octane nonane decane hydrogen oxygen
  carbon_monoxide water hydrogen_sulfide helium argon]. ring. Qed.
Example C01_C04_apply : comp_check (ex_mix 3 1) = RErr BadSum /\ comp_check (ex_mix (3/4) (1/4)) = ROk /\
  comp_normalize (ex_mix 3 1) = (ex_mix (3/4) (1/4), ROk) /\ comp_normalize (ex_mix (-3) 1) = (ex_mix (-3) 1, RErr Empty).
Proof.
  split; [|split; [|split]].
  - apply C01. rewrite ex_total. split; [apply Rle_trans with 4; [lra|rewrite Rabs_pos_eq; lra]|rewrite Rabs_pos_eq; lra].
  - apply C01_unit_sum. rewrite ex_total. field.
  - destruct (proj1 (C04 (ex_mix 3 1))) as (c' & E & _ & F); [rewrite ex_total; lra|]. rewrite E. f_equal.
    rewrite ex_total in F. destruct c' as [a0 a1 a2 a3 a4 a5 a6 a7 a8 a9 a10 a11 a12 a13 a14 a15 a16 a17 a18 a19 a20]. unfold fields, ex_mix in *. cbn [map methane nitrogen carbon_dioxide
      ethane propane isobutane n_butane isopentane n_pentane hexane heptane octane nonane decane hydrogen oxygen
      carbon_monoxide water hydrogen_sulfide helium argon] in F. injection F as -> -> -> -> -> -> -> -> -> -> -> -> -> -> -> -> -> -> -> -> ->.
    replace (3 / (3 + 1)) with (3 / 4) by field. replace (1 / (3 + 1)) with (1 / 4) by field. replace (0 / (3 + 1)) with 0 by field. reflexivity.
  - apply C04. rewrite ex_total. lra.
Qed.
Print Assumptions C01.
Print Assumptions C01_unit_sum.
Print Assumptions C01_default.
Print Assumptions C04.
Print Assumptions C05_idempotent.
Print Assumptions C05_scale.
Print Assumptions C09_detail_real.
Print Assumptions C09_gerg_real.
Print Assumptions C09_linear.
Print Assumptions C23_detail.
Print Assumptions C23_detail_pressure.
Print Assumptions C24_detail.
Print Assumptions C26_gerg.
Print Assumptions C26_gerg_pressure.
Print Assumptions C27_gerg.
