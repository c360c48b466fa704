(* Zero density, molar masses and critical points, over the reals.  dprop, gprop are the fields after
   properties() of a new object given x, t, d; specifications in SpecIdeal, SpecMass, SpecTables. *)
From Coq Require Import Reals ZArith List Bool Lra Lia.
From Verif Require Import FArith Prelude Composition DetailTables GergTables DetailModel GergModel Api
  ArithR SpecReal SpecDetail SpecGerg SpecTables SpecIdeal SpecMass DetailThermo DetailEos GergThermo GergEos GergLimit MassReal
  IdealGas IdealRef IdealMore MassFormula Crit CritNum CritMain.
Import ListNotations.
Local Open Scope R_scope.
Local Existing Instance ArithR.

(* C42: at 298.15 K and zero density every pure component has enthalpy 0 and, at the density
   101.325 kPa / (R T), entropy 0.  properties() evaluates the logarithm of the density at 1e-15. *)
Theorem C42_detail : forall i, (i < 21)%nat -> Rabs (dprop New PH (only i) T0 0) <= 1 / 10000 /\
  Rabs (dprop New PS (only i) T0 0 + RD * ln (1 / 1000000000000000 / ref_density RD)) <= 1 / 10000000.
Proof. exact d_reference. Qed.
Theorem C42_gerg : forall i, (i < 21)%nat -> Rabs (gprop New PH (only (S i)) T0 0) <= 1 / 10000 /\
  Rabs (gprop New PS (only (S i)) T0 0 + Rg * ln (1 / 1000000000000000 / ref_density Rg)) <= 1 / 10000000.
Proof. exact g_reference. Qed.

(* C43: the two methods agree on the ideal gas, up to the difference of their gas constants *)
Theorem C43_cv : forall x t, (forall i, (i < 21)%nat -> x i <= 0 \/ 1 / 1000000000000000 < x i) ->
  (exists i, (i < 21)%nat /\ 1 / 10000000 < x i) -> 1 / 10000000 < t ->
  gprop New PCv (up x) t 0 = dprop New PCv x t 0.
Proof. exact same_cv. Qed.
Theorem C43_enthalpy : forall x t, (forall i, (i < 21)%nat -> x i <= 0 \/ 1 / 1000000000000000 < x i) ->
  (exists i, (i < 21)%nat /\ 1 / 10000000 < x i) -> 1 / 10000000 < t ->
  gprop New PU (up x) t 0 = dprop New PU x t 0 + (RD - Rg) * T0 * sum 21 (nn x) /\
  gprop New PH (up x) t 0 = dprop New PH x t 0 + (RD - Rg) * (T0 * sum 21 (nn x) - t).
Proof. intros x t Hx Hs Ht. split; [now apply same_u|now apply same_h]. Qed.

(* C44: molar masses are those of the chemical formulas; exactly for GERG *)
Theorem C44_detail : forall x t d, 1 / 10000000 < t ->
  Rabs (dprop New PMM x t d - sum 21 (fun i => x i * weight i)) <= 4 / 1000 * sum 21 (fun i => Rabs (x i)).
Proof. exact d_mass_formula. Qed.
Theorem C44_gerg : forall x t d, 1 / 10000000 < t -> (exists i, (1 <= i < 22)%nat /\ 1 / 10000000 < x i) ->
  gprop New PMM x t d = sum 21 (fun i => x (S i) * weight i).
Proof. exact g_mass_formula. Qed.

(* C45: each pure component has its critical point where the source says it is *)
Theorem C45_gerg : forall i, (1 <= i < 22)%nat ->
  Rabs (gprop New PDpDd (only i) (Tc i) (rhoc i)) <= 4 / 1000 * (Rg * Tc i) /\
  Rabs (gprop New PD2pDd2 (only i) (Tc i) (rhoc i)) <= 35 / 1000 * (Rg * Tc i / rhoc i) /\
  1 / 5 <= gprop New PZ (only i) (Tc i) (rhoc i) <= 7 / 20.
Proof. exact gerg_critical. Qed.

(* C46: heat capacity bounded below at every temperature, and the speed of sound of the ideal gas *)
Theorem C46_detail_cv : forall x t, 1 / 10000000 < t -> RD * (147 / 100) * sum 21 (nn x) <= dprop New PCv x t 0.
Proof. exact d_cv_big. Qed.
Theorem C46_gerg_cv : forall x t, (exists i, (1 <= i < 22)%nat /\ 1 / 10000000 < x i) -> 1 / 10000000 < t ->
  RD * (147 / 100) * sum 21 (down (ac x)) <= gprop New PCv x t 0.
Proof. exact g_cv_big. Qed.
Theorem C46_detail_sound : forall x t, (forall i, (i < 21)%nat -> 0 <= x i) ->
  (exists i, (i < 21)%nat /\ 1 / 10000000 < x i) -> 1 / 10000000 < t ->
  0 < dprop New PW x t 0 /\
  dprop New PW x t 0 * dprop New PW x t 0 = dprop New PKappa x t 0 * RD * t * 1000 / dprop New PMM x t 0 /\
  dprop New PKappa x t 0 = dprop New PCp x t 0 / dprop New PCv x t 0 /\ 1 < dprop New PKappa x t 0.
Proof. exact d_sound. Qed.
Theorem C46_gerg_sound : forall x t, (forall i, (1 <= i < 22)%nat -> 0 <= x i) ->
  (exists i, (1 <= i < 22)%nat /\ 1 / 10000000 < x i) -> 1 / 10000000 < t ->
  0 < gprop New PW x t 0 /\
  gprop New PW x t 0 * gprop New PW x t 0 = gprop New PKappa x t 0 * Rg * t * 1000 / gprop New PMM x t 0 /\
  gprop New PKappa x t 0 = gprop New PCp x t 0 / gprop New PCv x t 0 /\ 1 < gprop New PKappa x t 0.
Proof. exact g_sound. Qed.

(* C47: at zero density the fields are those of the published ideal mixture (SpecIdeal) *)
Theorem C47_detail : forall x t, 1 / 10000000 < t ->
  dprop New PCv x t 0 = mix_cv RD (nn x) t /\
  dprop New PCp x t 0 = mix_cv RD (nn x) t + RD /\
  dprop New PU x t 0 = mix_h RD (nn x) t - RD * t * sum 21 (nn x) /\
  dprop New PH x t 0 = mix_h RD (nn x) t - RD * t * (sum 21 (nn x) - 1) /\
  dprop New PS x t 0 = mix_s RD RD (nn x) t (1 / 1000000000000000).
Proof.
  intros x t Ht. split; [now apply d_ideal_cv|]. split; [now apply d_ideal_cp|]. split; [now apply d_ideal_u|].
  split; [now apply d_ideal_h|now apply d_ideal_s].
Qed.
Theorem C47_gerg : forall x t, (exists i, (1 <= i < 22)%nat /\ 1 / 10000000 < x i) -> 1 / 10000000 < t ->
  let y := down (ac x) in
  gprop New PCv x t 0 = mix_cv RD y t /\
  gprop New PCp x t 0 = mix_cv RD y t + Rg /\
  gprop New PU x t 0 = mix_h RD y t - RD * t * sum 21 y + (RD - Rg) * T0 * sum 21 y /\
  gprop New PH x t 0 = mix_h RD y t - (RD * t - (RD - Rg) * T0) * sum 21 y + Rg * t /\
  gprop New PS x t 0 = mix_s Rg RD y t (1 / 1000000000000000).
Proof.
  intros x t Hs Ht y. split; [now apply g_ideal_cv|]. split; [now apply g_ideal_cp|]. split; [now apply g_ideal_u|].
  split; [now apply g_ideal_h|now apply g_ideal_s].
Qed.

(* C48: ideal mixing; the enthalpies add up, the entropies add up with the entropy of mixing *)
Theorem C48_detail : forall x t, 1 / 10000000 < t -> (forall i, (i < 21)%nat -> 0 <= x i) ->
  (sum 21 x = 1 -> dprop New PH x t 0 = sum 21 (fun i => x i * dprop New PH (only i) t 0)) /\
  dprop New PS x t 0 = sum 21 (fun i => x i * dprop New PS (only i) t 0) - RD * sum 21 (fun i => x i * ln (x i)).
Proof. intros x t Ht Hx. split; [now apply d_mix_h|now apply d_mix_s]. Qed.
Theorem C48_gerg : forall x t, 1 / 10000000 < t ->
  (forall i, (1 <= i < 22)%nat -> x i = 0 \/ 1 / 1000000000000000 < x i) ->
  (exists i, (1 <= i < 22)%nat /\ 1 / 10000000 < x i) ->
  (sum 21 (fun i => x (S i)) = 1 ->
   gprop New PH x t 0 = sum 21 (fun i => x (S i) * gprop New PH (only (S i)) t 0)) /\
  gprop New PS x t 0 =
  sum 21 (fun i => x (S i) * gprop New PS (only (S i)) t 0) - Rg * sum 21 (fun i => x (S i) * ln (x (S i))).
Proof. intros x t Ht Hx Hs. split; [now apply g_mix_h|now apply g_mix_s]. Qed.

(* methane with a quarter of nitrogen meets every hypothesis above *)
Example mixture_applies : let x i := match i with 0%nat => 3/4 | 1%nat => 1/4 | _ => 0 end in
  (forall i, (i < 21)%nat -> x i <= 0 \/ 1 / 1000000000000000 < x i) /\
  (exists i, (i < 21)%nat /\ 1 / 10000000 < x i) /\ (forall i, (i < 21)%nat -> 0 <= x i) /\ sum 21 x = 1 /\
  (forall i, (1 <= i < 22)%nat -> up x i = 0 \/ 1 / 1000000000000000 < up x i) /\
  (exists i, (1 <= i < 22)%nat /\ 1 / 10000000 < up x i) /\ sum 21 (fun i => up x (S i)) = 1.
Proof.
  cbv zeta. split; [intros [|[|i]] _; lra|]. split; [exists 0%nat; split; [lia|lra]|]. split; [intros [|[|i]] _; lra|].
  split; [cbn [sum]; lra|]. split; [intros [|[|[|i]]] H; cbn [up]; try lia; lra|].
  split; [exists 1%nat; cbn [up]; split; [lia|lra]|cbn [sum up]; lra].
Qed.
(* methane: critical point at 190.564 K and 10.139342719 mol/l; molar mass 16.04246 *)
Example methane_critical : Tc 1 = 190564 / 1000 /\ rhoc 1 = 10139342719 / 1000000000 /\ weight 0 = 1604246 / 100000.
Proof.
  unfold Tc, rhoc, tb. split; [|split].
  - cbv [nth G_TC Rlit Z.pow Z.pow_pos Pos.iter Z.mul Pos.mul]. reflexivity.
  - cbv [nth G_DC Rlit Z.pow Z.pow_pos Pos.iter Z.mul Pos.mul]. reflexivity.
  - weights. lra.
Qed.

Print Assumptions C42_detail.
Print Assumptions C42_gerg.
Print Assumptions C43_cv.
Print Assumptions C43_enthalpy.
Print Assumptions C44_detail.
Print Assumptions C44_gerg.
Print Assumptions C45_gerg.
Print Assumptions C46_detail_cv.
Print Assumptions C46_gerg_cv.
Print Assumptions C46_detail_sound.
Print Assumptions C46_gerg_sound.
Print Assumptions C47_detail.
Print Assumptions C47_gerg.
Print Assumptions C48_detail.
Print Assumptions C48_gerg.
