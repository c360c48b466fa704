(* C21: an evaluation with a NaN input, followed by valid inputs (binary64).
   ask x t d sets the composition x, the temperature t and the density d and calls pressure. *)
From Coq Require Import List ZArith Reals Lra Lia.
From Flocq Require Import BinarySingleNaN.
From Verif Require Import Prelude FArith Composition DetailTables DetailModel GergModel Api SpecHistory ArithB64 SpecB64 NanGerg NanMain Recover.
Import ListNotations.
Local Open Scope R_scope.

(* GERG-2008: the temperature was NaN for one evaluation *)
Theorem C21_gerg_refuted : forall m, special_ok m ->
  ~ (forall x t d, (forall i, good (x i)) -> gpos t -> good d ->
     answer (gexec New (ask (m := m) x B754_nan d ++ ask x t d)) = answer (gexec New (ask (m := m) x t d))).
Proof. exact gerg_t_refuted. Qed.
(* one fraction was NaN for one evaluation *)
Theorem C21_gerg_fraction_refuted : forall m, special_ok m ->
  ~ (forall x y t d, (forall i, good (x i)) -> one_nan x y -> gpos t -> good d ->
     answer (gexec New (ask (m := m) y t d ++ ask x t d)) = answer (gexec New (ask (m := m) x t d))).
Proof. exact gerg_x_refuted. Qed.
(* pure methane answers NaN at every later temperature and density *)
Theorem C21_gerg_stuck : forall m, special_ok m -> forall e t d,
  answer (gexec New (ask (m := m) (pure 1 b1) B754_nan e ++ ask (pure 1 b1) t d)) = Some (@OVal (ArithB64 m) B754_nan).
Proof. exact g_t_nan. Qed.
Theorem C21_gerg_fraction_stuck : forall m e t d, fin t ->
  answer (gexec New (ask (m := m) (pure 1 B754_nan) t e ++ ask (pure 1 b1) t d)) = Some (@OVal (ArithB64 m) B754_nan).
Proof. exact g_x_nan. Qed.

(* DETAIL: after an evaluation in which every fraction and the temperature were NaN the pressure is
   that of the ideal gas, d*R*t, whatever the composition *)
Theorem C21_detail_stuck : forall m, special_ok m -> forall y x e t d, (forall i, (i < 21)%nat -> y i = B754_nan) ->
  gpos t -> fin d -> fin (bmul (@RDETAIL (ArithB64 m)) t) ->
  answer (dexec New (ask (m := m) y B754_nan e ++ ask x t d)) = Some (@OVal (ArithB64 m) (bmul (bmul d (@RDETAIL (ArithB64 m))) t)).
Proof. exact d_both_nan. Qed.
(* the same for a pure component whose fraction was NaN, if the powers of t are finite *)
Theorem C21_detail_fraction_stuck : forall m, special_ok m -> forall i v e t d, gpos t -> fin d -> fin (bmul (@RDETAIL (ArithB64 m)) t) ->
  (forall n, (n < 58)%nat -> fin (lm_powf m t (Bopp (blit (nth n D_UN (L 0 0)))))) ->
  answer (dexec New (ask (m := m) (pure i B754_nan) t e ++ ask (pure i v) t d))
  = Some (@OVal (ArithB64 m) (bmul (bmul d (@RDETAIL (ArithB64 m))) t)).
Proof. exact d_x_nan. Qed.
(* so DETAIL does not recover either, unless a new object too only ever answers with the ideal gas *)
Theorem C21_detail_refuted : forall m, special_ok m ->
  (exists x t d, (forall i, good (x i)) /\ gpos t /\ good d /\ fin (bmul (@RDETAIL (ArithB64 m)) t) /\
     answer (dexec New (ask (m := m) x t d)) <> Some (@OVal (ArithB64 m) (bmul (bmul d (@RDETAIL (ArithB64 m))) t))) ->
  ~ (forall x y t u d, (forall i, good (x i)) -> (forall i, y i = x i \/ y i = B754_nan) -> gpos t -> u = t \/ u = B754_nan -> good d ->
     answer (dexec New (ask (m := m) y u d ++ ask x t d)) = answer (dexec New (ask (m := m) x t d))).
Proof.
  intros m SP (x & t & d & Hx & Ht & Hd & Hr & N) H. apply N.
  rewrite <- (H x (fun _ => B754_nan) t B754_nan d Hx ltac:(now right) Ht ltac:(now right) Hd).
  apply (C21_detail_stuck m SP); trivial. apply Hd.
Qed.

(* What does hold, in any arithmetic and after any history: an evaluation at some y, u, then one at
   x, t that differ from y, u and from zero by the code's own comparison (|a - b| > 1e-7), answers
   like a new object.  NaN is not apart from anything.
   Missing: recovery at the first evaluation after the NaN (false, see above). *)
Theorem C21_detail_partial {A : Arith} : forall l y u e x t d,
  xapart 0 (vec 21 x) (vec 21 y) -> xapart 0 (vec 21 x) (repeat f0 21) -> apart t u -> apart t f0 ->
  answer (dexec New (l ++ asks y u e ++ asks x t d)) = answer (dexec New (asks x t d)).
Proof. exact detail_recovers. Qed.
Theorem C21_gerg_partial {A : Arith} : forall l y u e x t d,
  xapart 1 (vec 22 x) (vec 22 y) -> xapart 1 (vec 22 x) (repeat f0 22) -> apart t f0 ->
  answer (gexec New (l ++ asks y u e ++ asks x t d)) = answer (gexec New (asks x t d)).
Proof. exact gerg_recovers. Qed.

(* ---- the hypotheses can be met *)
Definition toy : Libm := {|
  lm_exp := fun x => if is_nan x then B754_nan else blit (L 1 0);
  lm_ln := fun x => if is_nan x then B754_nan else B754_zero false;
  lm_powf := fun x _ => if is_nan x then B754_nan else blit (L 1 0);
  lm_powi := fun x _ => if is_nan x then B754_nan else blit (L 1 0) |}.
Example C21_toy_special : special_ok toy.
Proof. constructor; reflexivity. Qed.
Definition out_bits (o : option (@out (ArithB64 toy))) :=
  match o with Some (OVal v) => B2SF (v : b64) | _ => SpecFloat.S754_nan end.
Example C21_toy_nonideal : exists x t d, (forall i, good (x i)) /\ gpos t /\ good d /\ fin (bmul (@RDETAIL (ArithB64 toy)) t) /\
  answer (dexec New (ask (m := toy) x t d)) <> Some (@OVal (ArithB64 toy) (bmul (bmul d (@RDETAIL (ArithB64 toy))) t)).
Proof.
  exists (pure 0 b1), T1, b1. split; [|split; [exact T1_pos|]].
  { intros i. unfold pure. destruct (Nat.eqb i 0); (split; [reflexivity|]); [rewrite b1_R; lra|cbn; lra]. }
  split; [split; [reflexivity|rewrite b1_R; lra]|]. split; [vm_compute; reflexivity|].
  intros H. pose proof (eq_trans (eq_sym (@d_once (ArithB64 toy) (pure 0 b1) T1 b1)) H) as K. clear H.
  apply (f_equal out_bits) in K. vm_compute in K. discriminate K.
Qed.
(* a NaN history and two later evaluations, 200 and 300 K, with methane and then nitrogen *)
Example C21_partial_case : forall m, let A := ArithB64 m in
  let x := pure 1 b1 : nat -> @F A in let y := pure 2 b1 : nat -> @F A in
  let t := blit (L 300 0) : @F A in let u := blit (L 200 0) : @F A in
  xapart 0 (vec 21 x) (vec 21 y) /\ xapart 0 (vec 21 x) (repeat f0 21) /\ apart t u /\ apart t f0 /\
  xapart 1 (vec 22 x) (vec 22 y) /\ xapart 1 (vec 22 x) (repeat f0 22).
Proof.
  intros m. cbv zeta.
  assert (H : forall n lo (y : list (@F (ArithB64 m))), (lo <= 1)%nat -> nth 1 y f0 = f0 -> (2 <= n)%nat ->
    xapart lo (vec n (pure 1 b1 : nat -> @F (ArithB64 m))) y).
  { intros n lo y Hl Hy Hn. exists 1%nat. unfold vec. rewrite map_length, seq_length. split; [lia|].
    rewrite Hy. destruct n as [|[|n]]; [lia..|]. vm_compute. reflexivity. }
  split; [apply H; [lia|reflexivity|lia]|]. split; [apply H; [lia|reflexivity|lia]|].
  split; [vm_compute; reflexivity|]. split; [vm_compute; reflexivity|].
  split; (apply H; [lia|reflexivity|lia]).
Qed.

Print Assumptions C21_gerg_refuted.
Print Assumptions C21_gerg_fraction_refuted.
Print Assumptions C21_gerg_stuck.
Print Assumptions C21_gerg_fraction_stuck.
Print Assumptions C21_detail_stuck.
Print Assumptions C21_detail_fraction_stuck.
Print Assumptions C21_detail_refuted.
Print Assumptions C21_detail_partial.
Print Assumptions C21_gerg_partial.
