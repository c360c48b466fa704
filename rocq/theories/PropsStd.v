(* The equations of state over the coefficient tables as printed (StdDetail, StdGerg, SpecStd), which
   share nothing with the model. *)
From Coq Require Import Reals ZArith List Bool Lra Lia.
From Coquelicot Require Import Coquelicot.
From Verif Require Import FArith Prelude Composition DetailTables GergTables DetailModel GergModel Api
  ArithR SpecReal SpecDetail SpecGerg SpecTables SpecIdeal StdDetail StdGerg SpecStd GenericLemmas DetailThermo DetailEos MassReal
  GergThermo GergPure GergEos CritMain StdDetailProof StdGergProof.
Import ListNotations.
Local Open Scope R_scope.
Local Existing Instance ArithR.

(* C22: detail_p and detail_Z are the DETAIL equation; negative fractions count as 0 *)
Theorem C22_standard : forall x t d, (exists i, (i < 21)%nat /\ 1 / 10000000 < x i) -> 1 / 10000000 < t ->
  dpres New x t d = detail_p (nn x) t d /\ dprop New PZ x t d = detail_Z (nn x) t d.
Proof. exact detail_std. Qed.

(* C25: residual, red_volume, red_temp are the GERG-2008 equation; the program's constants gv, gt, bt of the
   reducing functions are those of the printed parameters up to 1e-14; fractions not above 1e-15 count as 0 *)
Theorem C25_standard : exists gv gt bt : nat -> nat -> R,
  (forall i j, (1 <= i <= j)%nat -> (j < 22)%nat ->
    near (gv i j) (v_red i j) /\ near (gt i j) (t_red i j) /\ near (bt i j) (b_red i j)) /\
  forall x t d, (exists i, (1 <= i < 22)%nat /\ 1 / 1000000 < x i) -> 1 / 10000000 < t ->
  let delta := d * red_volume (ac x) gv in let tau := red_temp (ac x) gt bt / t in
  exists a' : R, is_derive (fun delta => residual (ac x) delta tau) delta a' /\
    gpres New x t d = d * Rg * t * (1 + delta * a') /\ gprop New PZ x t d = 1 + delta * a'.
Proof. exact gerg_std. Qed.

(* C44: the molar masses of the DETAIL table *)
Theorem C44_detail_table : forall x t d, 1 / 10000000 < t -> dprop New PMM x t d = detail_mass x.
Proof. exact mass_std. Qed.

(* C45: the critical points are those printed *)
Theorem C45_standard : forall i, (1 <= i < 22)%nat ->
  Rabs (gprop New PDpDd (only i) (T_c i) (rho_c i)) <= 4 / 1000 * (Rg * T_c i) /\
  Rabs (gprop New PD2pDd2 (only i) (T_c i) (rho_c i)) <= 35 / 1000 * (Rg * T_c i / rho_c i) /\
  1 / 5 <= gprop New PZ (only i) (T_c i) (rho_c i) <= 7 / 20.
Proof. intros i. rewrite rho_std, T_std. exact (gerg_critical i). Qed.

(* Ordinary inputs meet the hypotheses, and the printed tables are the expected ones. *)
Example C22_C25_std_apply : let x i := match i with 1%nat => 3/4 | 2%nat => 1/4 | _ => 0 end in
  (exists i, (1 <= i < 22)%nat /\ 1 / 1000000 < x i) /\ (exists i, (i < 21)%nat /\ 1 / 10000000 < x i) /\
  rho_c 1 = 10139342719 / 1000000000 /\ T_c 1 = 190564 / 1000 /\ detail_mass x = 3/4 * (280135 / 10000) + 1/4 * (4401 / 100).
Proof.
  cbv zeta. split; [exists 1%nat; split; [lia|lra]|]. split; [exists 1%nat; split; [lia|lra]|].
  split; [|split]; [unfold rho_c|unfold T_c|unfold detail_mass, MASSES];
  cbn [tot CRIT nth fst snd Rlit]; cbv [Z.pow Z.pow_pos Pos.iter Z.mul Pos.mul Pos.add Pos.succ Pos.add_carry]; lra.
Qed.

Print Assumptions C22_standard.
Print Assumptions C25_standard.
Print Assumptions C44_detail_table.
Print Assumptions C45_standard.
