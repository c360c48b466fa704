(* Exact real arithmetic.  The f64 operations are read as the real functions they approximate;
   where f64 gives NaN or an infinity (division by 0, ln of a non-positive number, a power outside
   its domain) the result here is the default of Coq's total function and no theorem uses it. *)
From Coq Require Import Reals ZArith List Lra Lia.
From Coquelicot Require Import Coquelicot.
From Verif Require Import FArith.
Local Open Scope R_scope.

Definition Rltb (x y : R) : bool := if Rlt_dec x y then true else false.
Definition Rleb (x y : R) : bool := if Rle_dec x y then true else false.
(* x^y for x > 0; 0^0 = 1; 0 otherwise *)
Definition Rpowf (x y : R) : R :=
  if Rlt_dec 0 x then Rpower x y else if Req_EM_T y 0 then 1 else 0.
Definition Rlit (l : lit) : R := let '(L m e) := l in
  match e with
  | Z0 => IZR m
  | Zpos p => IZR (m * 10 ^ Zpos p)
  | Zneg p => IZR m / IZR (10 ^ Zpos p)
  end.

Definition ArithR : Arith := {|
  F := R; fadd := Rplus; fsub := Rminus; fmul := Rmult; fdiv := Rdiv; fneg := Ropp;
  fabs := Rabs; fsqrt := sqrt; fexp := exp; fln := ln; fpowf := Rpowf; fpowi := powerRZ;
  flt := Rltb; fle := Rleb; flit := Rlit; fofnat := INR |}.

Ltac rar := cbn [F fadd fsub fmul fdiv fneg fabs fsqrt fexp fln fpowf fpowi flt fle flit fofnat
  ArithR] in *.
Lemma Rltb_true x y : Rltb x y = true <-> x < y.
Proof. unfold Rltb. destruct (Rlt_dec x y); split; intros; trivial; (discriminate || contradiction). Qed.
Lemma Rltb_false x y : Rltb x y = false <-> y <= x.
Proof. unfold Rltb. destruct (Rlt_dec x y); split; intros; trivial; (discriminate || lra). Qed.
Lemma Rleb_true x y : Rleb x y = true <-> x <= y.
Proof. unfold Rleb. destruct (Rle_dec x y); split; intros; trivial; (discriminate || contradiction). Qed.
Lemma Rpowf_pos x y : 0 < x -> Rpowf x y = Rpower x y.
Proof. intros H. unfold Rpowf. destruct (Rlt_dec 0 x); [reflexivity|contradiction]. Qed.

Lemma is_derive_cst (c s : R) : is_derive (fun _ => c) s 0.
Proof. exact (@is_derive_const R_AbsRing R_NormedModule c s). Qed.
Lemma is_derive_idR (s : R) : is_derive (fun x : R => x) s 1.
Proof. exact (@is_derive_id R_AbsRing s). Qed.

(* Functions of temperature and density, differentiated along every curve at once.
   [sd f t d vt vd]: f is differentiable at (t, d) along every differentiable curve through that
   point, t * df/dt = vt and d * df/dd = vd. *)
Definition sd (f : R -> R -> R) (t d vt vd : R) : Prop :=
  exists ht hd, t * ht = vt /\ d * hd = vd /\
  forall (T D : R -> R) (s T' D' : R), T s = t -> D s = d -> is_derive T s T' -> is_derive D s D' ->
    is_derive (fun r => f (T r) (D r)) s (ht * T' + hd * D').

Lemma sd_conv f t d vt vd vt' vd' : sd f t d vt vd -> vt = vt' -> vd = vd' -> sd f t d vt' vd'.
Proof. now intros H <- <-. Qed.
Lemma sd_const c t d : sd (fun _ _ => c) t d 0 0.
Proof.
  exists 0, 0. split; [ring|]. split; [ring|]. intros.
  replace (0 * T' + 0 * D') with 0 by ring. apply is_derive_cst.
Qed.
Lemma sd_t t d : sd (fun t _ => t) t d t 0.
Proof.
  exists 1, 0. split; [ring|]. split; [ring|]. intros T D s T' D' _ _ HT HD.
  replace (1 * T' + 0 * D') with T' by ring. exact HT.
Qed.
Lemma sd_d t d : sd (fun _ d => d) t d 0 d.
Proof.
  exists 0, 1. split; [ring|]. split; [ring|]. intros T D s T' D' _ _ HT HD.
  replace (0 * T' + 1 * D') with D' by ring. exact HD.
Qed.
Lemma sd_plus f g t d a b a' b' : sd f t d a b -> sd g t d a' b' ->
  sd (fun t d => f t d + g t d) t d (a + a') (b + b').
Proof.
  intros (h1 & h2 & E1 & E2 & H) (k1 & k2 & K1 & K2 & H'). exists (h1 + k1), (h2 + k2).
  split; [lra|]. split; [lra|]. intros T D s T' D' e1 e2 HT HD.
  replace ((h1 + k1) * T' + (h2 + k2) * D') with ((h1 * T' + h2 * D') + (k1 * T' + k2 * D')) by ring.
  apply (is_derive_plus (fun r => f (T r) (D r)) (fun r => g (T r) (D r)));
  [now apply H|now apply H'].
Qed.
Lemma sd_mult f g t d a b a' b' : sd f t d a b -> sd g t d a' b' ->
  sd (fun t d => f t d * g t d) t d (a * g t d + f t d * a') (b * g t d + f t d * b').
Proof.
  intros (h1 & h2 & E1 & E2 & H) (k1 & k2 & K1 & K2 & H').
  exists (h1 * g t d + f t d * k1), (h2 * g t d + f t d * k2).
  split; [rewrite <- E1, <- K1; ring|]. split; [rewrite <- E2, <- K2; ring|].
  intros T D s T' D' e1 e2 HT HD.
  replace ((h1 * g t d + f t d * k1) * T' + (h2 * g t d + f t d * k2) * D')
    with ((h1 * T' + h2 * D') * g (T s) (D s) + f (T s) (D s) * (k1 * T' + k2 * D'))
    by (rewrite e1, e2; ring).
  apply (is_derive_mult (fun r => f (T r) (D r)) (fun r => g (T r) (D r)));
  [now apply H|now apply H'|intros; apply Rmult_comm].
Qed.
(* a function of one variable applied to such a function *)
Lemma sd_comp phi dphi f t d a b : is_derive phi (f t d) dphi -> sd f t d a b ->
  sd (fun t d => phi (f t d)) t d (dphi * a) (dphi * b).
Proof.
  intros Hp (h1 & h2 & E1 & E2 & H). exists (dphi * h1), (dphi * h2).
  split; [rewrite <- E1; ring|]. split; [rewrite <- E2; ring|].
  intros T D s T' D' e1 e2 HT HD.
  replace (dphi * h1 * T' + dphi * h2 * D') with ((h1 * T' + h2 * D') * dphi) by ring.
  apply (is_derive_comp phi (fun r => f (T r) (D r))).
  - now rewrite e1, e2.
  - now apply H.
Qed.
Lemma sd_exp f t d a b : sd f t d a b ->
  sd (fun t d => exp (f t d)) t d (exp (f t d) * a) (exp (f t d) * b).
Proof. intros H. apply sd_comp; [apply is_derive_exp|exact H]. Qed.
Lemma sd_opp f t d a b : sd f t d a b -> sd (fun t d => - f t d) t d (- a) (- b).
Proof.
  intros H. eapply sd_conv; [apply (sd_comp Ropp (-1) f); [|exact H]|ring|ring].
  apply (is_derive_opp (fun x => x) (f t d) 1). apply is_derive_idR.
Qed.
Lemma sd_minus f g t d a b a' b' : sd f t d a b -> sd g t d a' b' ->
  sd (fun t d => f t d - g t d) t d (a - a') (b - b').
Proof. intros H H'. apply sd_plus; [exact H|apply sd_opp; exact H']. Qed.
Lemma sd_scal c f t d a b : sd f t d a b -> sd (fun t d => c * f t d) t d (c * a) (c * b).
Proof. intros H. eapply sd_conv; [apply sd_mult; [apply (sd_const c)|exact H]|cbv beta; ring|cbv beta; ring]. Qed.
Lemma sd_inv f t d a b : f t d <> 0 -> sd f t d a b ->
  sd (fun t d => / f t d) t d (- a / (f t d * f t d)) (- b / (f t d * f t d)).
Proof.
  intros Hn H. eapply sd_conv; [apply (sd_comp Rinv (- / (f t d * f t d)) f); [|exact H]| |].
  - replace (- / (f t d * f t d)) with (- 1 / (f t d) ^ 2) by (field; assumption).
    apply (is_derive_inv (fun x => x) (f t d) 1); [apply is_derive_idR|exact Hn].
  - field. exact Hn.
  - field. exact Hn.
Qed.
Lemma sd_div f g t d a b a' b' : g t d <> 0 -> sd f t d a b -> sd g t d a' b' ->
  sd (fun t d => f t d / g t d) t d ((a * g t d - f t d * a') / (g t d * g t d))
     ((b * g t d - f t d * b') / (g t d * g t d)).
Proof.
  intros Hn H H'. eapply sd_conv; [apply sd_mult; [exact H|apply sd_inv; [exact Hn|exact H']]| |];
  cbv beta; field; exact Hn.
Qed.
Lemma sd_ln f t d a b : 0 < f t d -> sd f t d a b ->
  sd (fun t d => ln (f t d)) t d (a / f t d) (b / f t d).
Proof.
  intros Hp H. eapply sd_conv; [apply (sd_comp ln (/ f t d) f); [|exact H]| |].
  - now apply is_derive_ln.
  - unfold Rdiv. ring.
  - unfold Rdiv. ring.
Qed.
Lemma sd_ext f g t d a b : (forall t d, f t d = g t d) -> sd f t d a b -> sd g t d a b.
Proof.
  intros E (h1 & h2 & E1 & E2 & H). exists h1, h2. split; [assumption|]. split; [assumption|].
  intros T D s T' D' e1 e2 HT HD. apply (is_derive_ext (fun r => f (T r) (D r))); [intros r; apply E|now apply H].
Qed.
Lemma locally_gt (U : R -> R) (s U' m : R) : is_derive U s U' -> m < U s ->
  locally s (fun r => m < U r).
Proof.
  intros HU Hu.
  assert (C : continuous U s).
  { apply (ex_derive_continuous (K := R_AbsRing) (V := R_NormedModule)). now exists U'. }
  apply (C (fun y => m < y)). exists (mkposreal (U s - m) (Rlt_Rminus _ _ Hu)). intros y Hy.
  unfold ball in Hy. cbn in Hy. unfold AbsRing_ball, abs, minus, plus, opp in Hy. cbn in Hy.
  apply Rabs_def2 in Hy. lra.
Qed.
(* equality where t and d are above bounds below the point suffices *)
Lemma sd_ext_gt (m : R) f g t d a b : m < t -> (forall t d, m < t -> f t d = g t d) ->
  sd f t d a b -> sd g t d a b.
Proof.
  intros Hm E (h1 & h2 & E1 & E2 & H). exists h1, h2. split; [assumption|]. split; [assumption|].
  intros T D s T' D' e1 e2 HT HD.
  apply (is_derive_ext_loc (fun r => f (T r) (D r))); [|now apply H].
  rewrite <- e1 in Hm. generalize (locally_gt T s T' m HT Hm). apply filter_imp.
  intros r Hr. now apply E.
Qed.
Lemma sd_ext_gt2 (m n : R) f g t d a b : m < t -> n < d ->
  (forall t d, m < t -> n < d -> f t d = g t d) ->
  sd f t d a b -> sd g t d a b.
Proof.
  intros Hm Hn E (h1 & h2 & E1 & E2 & H). exists h1, h2. split; [assumption|]. split; [assumption|].
  intros T D s T' D' e1 e2 HT HD.
  apply (is_derive_ext_loc (fun r => f (T r) (D r))); [|now apply H].
  rewrite <- e1 in Hm. rewrite <- e2 in Hn.
  generalize (filter_and _ _ (locally_gt T s T' m HT Hm) (locally_gt D s D' n HD Hn)).
  apply filter_imp. intros r [Hr Hr']. now apply E.
Qed.

(* the partial derivatives *)
Lemma sd_dd f t d a b v : sd f t d a b -> d * v = b -> d <> 0 -> is_derive (fun d => f t d) d v.
Proof.
  intros (h1 & h2 & E1 & E2 & H) Ev Hd.
  replace v with (h1 * 0 + h2 * 1).
  - apply (H (fun _ => t) (fun d => d)); trivial.
    + apply is_derive_cst.
    + apply is_derive_idR.
  - apply (Rmult_eq_reg_l d); [|exact Hd]. lra.
Qed.
(* d * f has a derivative in d at 0 too *)
Lemma sd_dmul f t d a b : sd f t d a b -> is_derive (fun d => d * f t d) d (f t d + b).
Proof.
  intros (h1 & h2 & E1 & E2 & H).
  replace (f t d + b) with (1 * f t d + d * (h1 * 0 + h2 * 1)) by (rewrite <- E2; ring).
  apply (is_derive_mult (fun d => d) (fun d => f t d)).
  - apply is_derive_idR.
  - apply (H (fun _ => t) (fun d => d)); trivial; [apply is_derive_cst|apply is_derive_idR].
  - intros; apply Rmult_comm.
Qed.
Lemma sd_dt f t d a b v : sd f t d a b -> t * v = a -> t <> 0 -> is_derive (fun t => f t d) t v.
Proof.
  intros (h1 & h2 & E1 & E2 & H) Ev Hd.
  replace v with (h1 * 1 + h2 * 0).
  - apply (H (fun t => t) (fun _ => d)); trivial.
    + apply is_derive_idR.
    + apply is_derive_cst.
  - apply (Rmult_eq_reg_l t); [|exact Hd]. lra.
Qed.
