(* Methane at 150 K: the GERG pressure passes through zero near 22.139 mol/l. *)
From Coq Require Import Reals ZArith List Bool Lra Lia Psatz.
From Coquelicot Require Import Coquelicot.
From Flocq Require Import Core.
From Interval Require Import Tactic.
From Verif Require Import FArith Prelude ArithR RSum SpecGerg StdGerg SpecStd SpecAccG GergTables GergModel Api SpecReal GergEos StdGergProof ConvDetail ConvCase ConvGerg ConvCaseG GDriftWit.
Import ListNotations.
Local Open Scope R_scope.

Notation ch4 := ConvCaseG.ch4g.
Definition pure_slope2 (delta tau : R) (r : lit * nat * lit * nat) : R := let '(n, d, t, c) := r in Rlit n * Rpower tau (Rlit t) * hb1 d c delta.
Lemma slope_d tau r v : 0 < v -> is_derive (fun v => pure_slope v tau r) v (pure_slope2 v tau r / v).
Proof.
  destruct r as [[[n d] t] c]. intros Hv. cbn [pure_slope pure_slope2].
  replace (Rlit n * Rpower tau (Rlit t) * hb1 d c v / v) with (Rlit n * Rpower tau (Rlit t) * (hb1 d c v / v)) by (field; lra).
  apply is_derive_scal. now apply hb_derive.
Qed.
Definition vm : R := vred (ac ch4).
Definition tm : R := tred (ac ch4) / 150.
Definition gp d := d * Rg * 150 * (1 + lsum (pure_slope (d * vm) tm) (nth 1 PURE [])).
Definition gp1 d := Rg * 150 * (1 + lsum (pure_slope (d * vm) tm) (nth 1 PURE []) + lsum (pure_slope2 (d * vm) tm) (nth 1 PURE [])).
Lemma vm_box : 9862572236 / 100000000000 <= vm <= 9862572238 / 100000000000.
Proof.
  unfold vm. rewrite vred1. pose proof (v_std 1 1 ltac:(lia) ltac:(lia)) as Hv. revert Hv. unfold near, v_red. rewrite Nat.eqb_refl. unfold rho_c. cbn [CRIT nth fst snd Rlit]. cbv [Z.pow Z.pow_pos Pos.iter Z.mul Pos.mul Pos.add Pos.succ Pos.add_carry].
  intros Hv. apply Rabs_le_inv in Hv. set (v := tb2 _ _ _) in *. clearbody v. set (c := 1 / (10139342719 / 1000000000)) in *. assert (98625722361 / 1000000000000 <= c <= 98625722379 / 1000000000000) by (unfold c; split; interval). clearbody c. lra.
Qed.
Lemma tm_box : 127042666666 / 100000000000 <= tm <= 127042666667 / 100000000000.
Proof.
  unfold tm. rewrite tred1. pose proof (t_std 1 1 ltac:(lia) ltac:(lia)) as Hv. revert Hv. unfold near, t_red. rewrite Nat.eqb_refl. unfold T_c. cbn [CRIT nth fst snd Rlit]. cbv [Z.pow Z.pow_pos Pos.iter Z.mul Pos.mul Pos.add Pos.succ Pos.add_carry].
  intros Hv. apply Rabs_le_inv in Hv. set (v := tb2 _ _ _) in *. clearbody v. lra.
Qed.
Lemma gp_d d : 0 < d -> is_derive gp d (gp1 d).
Proof.
  intros Hd. pose proof vm_box as V. assert (Hv : 0 < d * vm) by (apply Rmult_lt_0_compat; lra). unfold gp.
  pose proof (lsum_d (fun v => pure_slope v tm) (fun v => pure_slope2 v tm) (nth 1 PURE []) (d * vm) Hv (fun r => slope_d tm r _ Hv)) as L.
  cbv beta in L. set (S := fun v => lsum (pure_slope v tm) (nth 1 PURE [])) in *.
  assert (L2 : is_derive (fun d => S (d * vm)) d (vm * (lsum (pure_slope2 (d * vm) tm) (nth 1 PURE []) / (d * vm)))).
  { apply (is_derive_comp S (fun d => d * vm)); [exact L|]. auto_derive; [exact I|]. ring. }
  apply (is_derive_ext (fun d => (Rg * 150) * (d * (1 + S (d * vm))))).
  { intros w. unfold S. match goal with |- ?a = ?b => change (@eq R a b) end. ring. }
  evar_last.
  - apply is_derive_scal. apply (@is_derive_mult R_AbsRing (fun d => d) (fun d => 1 + S (d * vm))).
    + apply is_derive_id.
    + apply (@is_derive_plus R_AbsRing R_NormedModule (fun _ => 1) (fun d => S (d * vm))); [apply is_derive_const|exact L2].
    + intros; apply Rmult_comm.
  - unfold gp1. change (lsum (pure_slope (d * vm) tm) (nth 1 PURE [])) with (S (d * vm)). unfold plus, mult, one, zero. cbn -[S lsum nth PURE]. unfold mult; cbn -[S lsum nth PURE]. 
    match goal with |- ?a = ?b => change (@eq R a b) end. field. lra.
Qed.
Lemma gp_eq d : 0 < d -> gpres New ch4 150 d = gp d.
Proof.
  intros Hd. pose proof vm_box as V. assert (Hv : 0 < d * vm) by (apply Rmult_lt_0_compat; lra).
  destruct (gpres_alphar ch4 ltac:(exists 1%nat; split; [lia|cbn; lra]) 150 ltac:(lra) d) as (a & Ha & Hp & _).
  fold vm tm in Ha, Hp. rewrite Hp. apply slope1 in Ha; [|exact Hv]. rewrite Ha. reflexivity.
Qed.
Lemma gp_box d : 22138 / 1000 <= d <= 22141 / 1000 -> 1000 <= gp1 d <= 20000.
Proof.
  intros Hd. unfold gp1. pose proof vm_box. pose proof tm_box. set (v := vm) in *. set (t := tm) in *. clearbody v t.
  assert (B : 22138 / 1000 * (9862572236 / 100000000000) <= d * v <= 22141 / 1000 * (9862572238 / 100000000000)) by (split; apply Rmult_le_compat; lra).
  set (D := d * v) in *. clearbody D. clear Hd. 
  cbn [nth PURE lsum fold_right pure_slope pure_slope2 Rlit]; unfold hb, hb1, ek, Rg.
  cbv [Z.pow Z.pow_pos Pos.iter Z.mul Pos.mul Pos.add Pos.succ Pos.add_carry INR Rpower]; change R0 with 0; change R1 with 1. split; interval with (i_prec 60).
Qed.
Lemma g_lo : gp (22139 / 1000) <= 0.
Proof.
  unfold gp. pose proof vm_box. pose proof tm_box. set (v := vm) in *. set (t := tm) in *. clearbody v t.
  cbn [nth PURE lsum fold_right pure_slope pure_slope2 Rlit]; unfold hb, hb1, ek, Rg.
  cbv [Z.pow Z.pow_pos Pos.iter Z.mul Pos.mul Pos.add Pos.succ Pos.add_carry INR Rpower]; change R0 with 0; change R1 with 1. interval with (i_prec 60).
Qed.
Lemma g_hi : 1 <= gp (22140 / 1000).
Proof.
  unfold gp. pose proof vm_box. pose proof tm_box. set (v := vm) in *. set (t := tm) in *. clearbody v t.
  cbn [nth PURE lsum fold_right pure_slope pure_slope2 Rlit]; unfold hb, hb1, ek, Rg.
  cbv [Z.pow Z.pow_pos Pos.iter Z.mul Pos.mul Pos.add Pos.succ Pos.add_carry INR Rpower]; change R0 with 0; change R1 with 1. interval with (i_prec 60).
Qed.
