(* The C program of SpecSession, and normalize() first. *)
From Coq Require Import Reals ZArith List Bool Lra Lia Psatz.
From Flocq Require Import Core BinarySingleNaN.
From Verif Require Import FArith Prelude Composition DetailModel GergModel Api Ffi SpecFfi
  ArithB64 B64Lemmas B64Check B64Comp GergRefine Drift GenericLemmas SpecB64 SpecGeneric SpecGerg SpecStd SpecGas SpecAcc SpecGasState SpecSession Session.
Import ListNotations.
Local Open Scope R_scope.

Lemma state_ext G T P p p' (f g : pfield -> b64) : bR p = bR p' -> (forall k, k <> PD2pDtd -> k <> PP -> g k = f k) -> fin (g PD2pDtd) -> fin (g PP) -> gas_state G T P (bR p) f -> gas_state G T P (bR p') g.
Proof.
  intros Ep E Z Z' (F & H). unfold gas_state. rewrite <- Ep. rewrite !E by discriminate. split; [|exact H].
  intros k. destruct k; try exact Z; try exact Z'; rewrite E by discriminate; apply F.
Qed.
(* density() and properties() of GERG-2008 leave the pressure field alone *)
Lemma gkeep {A : Arith} c t p i s r1 r2 r3 r v : gexec Api.New [SetComp c; Poke PT t; Poke PP p; Density i; Properties] = Some (s, [r1; r2; r3; ODens r; OVal v]) -> gread PP s = p.
Proof.
  intros E. apply gexec_new_inv in E. pose proof (@gexec_new A) as NN. revert NN E. generalize (@gerg_fresh A). intros s0 NN E.
  apply grun_cons in E. destruct E as (s1 & E1 & E). apply grun_cons in E. destruct E as (s2 & E2 & E). apply grun_cons in E. destruct E as (s3 & E3 & E).
  apply grun_cons in E. destruct E as (s4 & E4 & E). apply grun_cons in E. destruct E as (s5 & E5 & E). apply grun_0 in E. subst s5.
  assert (R3 : greach s3).
  { exists Api.New, [SetComp c; Poke PT t; Poke PP p], [r1; r2; r3]. apply NN. cbn [bind grun]. rewrite E1. cbn [bind]. rewrite E2. cbn [bind]. now rewrite E3. }
  assert (R4 : greach s4).
  { exists Api.New, [SetComp c; Poke PT t; Poke PP p; Density i], [r1; r2; r3; ODens r]. apply NN. cbn [bind grun]. rewrite E1. cbn [bind]. rewrite E2. cbn [bind]. rewrite E3. cbn [bind]. now rewrite E4. }
  destruct (proj2 (gconfined s4 s (OVal v) R4) E5) as (_ & Ep & _). cbn [gread]. rewrite Ep.
  destruct (gdens_inputs s3 i s4 r R3 E4) as (_ & Eq & _). rewrite Eq.
  cbn [gstep] in E3. injection E3 as <- _. reflexivity.
Qed.
Section D.
Variable m : Libm.
Local Notation B := (ArithB64 m).
Variable A : accurate m.
Variables (c : @Composition B) (t P : b64).
Hypothesis Hc : gas_comp m c.
Hypothesis Ht : fin t /\ 270 <= bR t <= 350.
Hypothesis HP : fin P /\ 1 / 10 <= bR P <= 110.
Lemma c_detail a h : a <> null -> exists h' q t' p, ffi_run (A := B) (session (A := B) KDetail a c t P) h = Ret (A := B) h' (no_error (A := B) a q t' p) /\ elsewhere a h h' /\
  gas_state (831451 / 100000) (bR t) (bR P) (bR p) (reported m q t' p).
Proof.
  intros N. destruct (rust_detail m A c t P Hc Ht HP 0%Z) as (s & E & G). destruct (dsession (A := B) a c t P h s N E) as (h' & R & El).
  exists h', (struct (A := B) (dread (A := B)) s), (dread (A := B) PT s), (dread (A := B) PP s). split; [exact R|]. split; [exact El|].
  refine (state_ext _ _ _ _ _ _ _ eq_refl _ _ _ G); [|reflexivity|exact (proj1 G PP)].
  intros k N1 N2. destruct k; try reflexivity. now elim N1.
Qed.
Lemma c_gerg a h : a <> null -> exists h' q t' p, ffi_run (A := B) (session (A := B) KGerg a c t P) h = Ret (A := B) h' (no_error (A := B) a q t' p) /\ elsewhere a h h' /\
  gas_state Rg (bR t) (bR P) (bR p) (reported m q t' p).
Proof.
  intros N. destruct (rust_gerg m A c t P Hc Ht HP 0%Z ltac:(lia)) as (s & v & E & Fv & G). destruct (gsession (A := B) a c t P h s v N E) as (h' & R & El).
  exists h', (struct (A := B) (gread (A := B)) s), (gread (A := B) PT s), (gread (A := B) PP s). split; [exact R|]. split; [exact El|].
  assert (G' : gas_state Rg (bR t) (bR P) (bR (gread (A := B) PP s)) (fun k => gread (A := B) k s)).
  { assert (Ep : gread (A := B) PP s = P) by exact (gkeep (A := B) c t P 0%Z s _ _ _ _ _ E).
    rewrite Ep. destruct G as (F & GT & _ & G). split; [exact F|]. split; [exact GT|]. split; [|exact G]. rewrite Rminus_diag_eq, Rabs_R0 by reflexivity. lra. }
  refine (state_ext _ _ _ _ _ _ _ eq_refl _ _ _ G'); [|reflexivity|exact (proj1 G' PP)].
  intros k N1 N2. destruct k; try reflexivity. now elim N1.
Qed.
End D.

(* normalize() *)
Lemma tiny_zero y : fin y -> Rabs (bR y) <= bpow radix2 (-1075) -> bR y = 0.
Proof.
  intros F H. destruct (Req_dec (bR y) 0) as [Z|Z]; [exact Z|exfalso].
  assert (G : generic_format radix2 (FLT_exp (-1074) 53) (bR y)) by apply generic_format_B2R.
  assert (H2 : bpow radix2 (-1074) <= Rabs (bR y)).
  { apply (generic_format_ge_bpow radix2 (FLT_exp (-1074) 53) (-1074)); [intros e; unfold FLT_exp; lia|now apply Rabs_pos_lt|now apply generic_format_abs]. }
  assert (bpow radix2 (-1075) < bpow radix2 (-1074)) by (apply bpow_lt; lia). lra.
Qed.
Lemma norm_one l h S x y : 0 < S -> 0 <= l -> 2 * bpow radix2 (-1000) <= l -> l <= 1 -> Rabs (y - x / S) <= 25 * u64 * (x / S) + bpow radix2 (-1075) -> l * S <= x <= 999 / 1000 * h * S -> h <= 2 ->
  998 / 1000 * l <= y <= h.
Proof.
  intros PS Pl Hl Hl1 H [H1 H2] Hh. set (q := x / S) in *.
  assert (Q : l <= q <= 999 / 1000 * h).
  { unfold q. split; [apply (Rmult_le_reg_r S)|apply (Rmult_le_reg_r S)]; try exact PS; unfold Rdiv; rewrite Rmult_assoc, Rinv_l by lra; lra. }
  assert (U : 0 <= u64 <= / 1000000).
  { unfold u64. change (bpow radix2 (-53)) with (/ IZR (Zpower_pos 2 53)). split; [|apply Rinv_le; [lra|]]; [apply Rlt_le, Rinv_0_lt_compat; apply IZR_lt; reflexivity|]. change (Zpower_pos 2 53) with 9007199254740992%Z. lra. }
  assert (E : 0 <= bpow radix2 (-1075) <= / 1000000 * l).
  { split; [apply bpow_ge_0|]. apply Rle_trans with (bpow radix2 (-1000 + -30)); [apply bpow_le; lia|]. rewrite bpow_plus. replace (bpow radix2 (-30)) with (/ 1073741824) by (cbn; lra). pose proof (bpow_gt_0 radix2 (-1000)). lra. }
  clearbody q. apply Rabs_le_inv in H. assert (25 * u64 * q <= 25 / 1000000 * q) by (apply Rmult_le_compat_r; lra).
  clear - H H0 Q E Pl. split; lra.
Qed.
Lemma Forall2_at {X} (R : X -> X -> Prop) (e : X) l l' : List.Forall2 R l l' -> forall i, (i < length l)%nat -> R (nth i l e) (nth i l' e).
Proof. induction 1 as [|a b l l' H _ IH]; cbn [length]; intros i Hi; [lia|]. destruct i as [|i]; cbn [nth]; [exact H|apply IH; lia]. Qed.
Lemma limit_2 i : (i < 21)%nat -> 0 <= gas_limit i <= 2.
Proof. intros Hi. unfold gas_limit. do 21 (destruct i as [|i]; [cbn; lra|]). lia. Qed.
Lemma normalize_gas m (c : @Composition (ArithB64 m)) : gas_amounts m c -> exists c', comp_normalize (A := ArithB64 m) c = (c', ROk) /\ gas_comp m c'.
Proof.
  intros (HS & Hx & H0). set (S := exact_sum m c) in *. pose proof (bpow_gt_0 radix2 (-1000)) as P0. assert (PS : 0 < S) by lra.
  assert (U : usable (bfractions m c)).
  { apply Forall_forall. intros y Hy. destruct (In_nth _ _ B0 Hy) as (i & Hi & <-). assert (Hi' : (i < 21)%nat) by exact Hi. destruct (Hx i Hi') as [F [Z|[Z _]]]; (split; [exact F|]); [lra|].
    apply Rle_trans with (2 := Z). apply Rmult_le_pos; [apply bpow_ge_0|lra]. }
  destruct (normalize_check m c U HS) as (c' & En & U' & Hf & Hs & _). exists c'. split; [exact En|].
  pose proof (bpow_gt_0 radix2 (-48)) as P48.
  assert (L48 : 2 * bpow radix2 (-1000) <= bpow radix2 (-48) <= 1).
  { split; [|change 1 with (bpow radix2 0); apply bpow_le; lia]. apply Rle_trans with (bpow radix2 (1 + -1000)); [rewrite bpow_plus; change (bpow radix2 1) with 2; lra|apply bpow_le; lia]. }
  assert (Y : forall i, (i < 21)%nat -> let y := nth i (bfractions m c') B0 in fin y /\ (bR y = 0 \/ bpow radix2 (-49) <= bR y <= gas_limit i)).
  { intros i Hi y. assert (F : fin y) by (apply (proj1 (Forall_forall _ _) U'), nth_In; exact Hi). split; [exact F|].
    pose proof (Forall2_at _ B0 _ _ Hf i Hi) as D. cbv beta in D. fold y S in D. destruct (Hx i Hi) as [_ [Z|Z]].
    - left. apply tiny_zero; [exact F|]. rewrite Z in D. unfold Rdiv in D. rewrite Rmult_0_l, Rmult_0_r, Rminus_0_r, Rplus_0_l in D. exact D.
    - right. pose proof (norm_one _ (gas_limit i) S _ _ PS (Rlt_le _ _ P48) (proj1 L48) (proj2 L48) D Z (proj2 (limit_2 i Hi))) as Q. split; [|lra].
      apply Rle_trans with (2 := proj1 Q). change (-49)%Z with (-1 + -48)%Z. rewrite bpow_plus. change (bpow radix2 (-1)) with (/ 2). lra. }
  assert (ES : 1 - / 10 ^ 14 <= exact_sum m c' <= 1 + / 10 ^ 14) by (apply Rabs_le_inv in Hs; lra).
  assert (E14 : 0 < / 10 ^ 14 < / 1000000) by (split; [apply Rinv_0_lt_compat; lra|apply Rinv_lt_contravar; lra]).
  split; [|split].
  - intros i Hi. destruct (Y i Hi) as [F [Z|Z]]; (split; [exact F|]); [now left|right; apply Z].
  - split; [|split].
    + pose proof (Forall2_at _ B0 _ _ Hf 0%nat ltac:(cbn; lia)) as D. cbv beta in D. fold S in D.
      destruct (Hx 0%nat ltac:(lia)) as [_ [Z|Z]]; [exfalso; lra|].
      pose proof (norm_one (451 / 1000) (gas_limit 0) S _ _ PS ltac:(lra) ltac:(apply Rle_trans with (2 * bpow radix2 (-3)); [apply Rmult_le_compat_l; [lra|apply bpow_le; lia]|cbn; lra]) ltac:(lra) D (conj H0 (proj2 Z)) (proj2 (limit_2 0 ltac:(lia)))) as Q. lra.
    + intros i Hi. pose proof (bpow_gt_0 radix2 (-49)). destruct (Y i Hi) as [_ [Z|Z]]; [rewrite Z; pose proof (limit_2 i Hi); lra|lra].
    + rewrite tot_exact. lra.
  - lra.
Qed.
