(* Composition drift of a DETAIL object, over the reals: the cached mixture terms stay those of the
   first composition. *)
From Coq Require Import Reals ZArith List Bool Lra Lia.
From Coquelicot Require Import Coquelicot.
From Interval Require Import Tactic.
From Verif Require Import FArith Prelude Tab Composition DetailTables DetailModel DetailPure
  DetailRefine DetailEval GergModel Api ApiSafe SpecGeneric SpecHistory DensityProofs BasicProofs GenericLemmas
  HistoryDetail ArithR RSum SpecReal CompReal DetailReal DetailThermo SpecDetail DetailEos DetailLimit NewtonReal
  Drift DriftReal Stale.
Import ListNotations.
Local Open Scope R_scope.
Local Existing Instance ArithR.
Local Existing Instance dp_new.

(* (1 - w) a + w b, component by component *)
Definition mixv (w a b : R) : R := (1 - w) * a + w * b.
Definition mixc (w : R) (a b : @Composition ArithR) : @Composition ArithR :=
  @mkComposition ArithR (mixv w (methane a) (methane b)) (mixv w (nitrogen a) (nitrogen b))
    (mixv w (carbon_dioxide a) (carbon_dioxide b)) (mixv w (ethane a) (ethane b)) (mixv w (propane a) (propane b))
    (mixv w (isobutane a) (isobutane b)) (mixv w (n_butane a) (n_butane b)) (mixv w (isopentane a) (isopentane b))
    (mixv w (n_pentane a) (n_pentane b)) (mixv w (hexane a) (hexane b)) (mixv w (heptane a) (heptane b))
    (mixv w (octane a) (octane b)) (mixv w (nonane a) (nonane b)) (mixv w (decane a) (decane b))
    (mixv w (hydrogen a) (hydrogen b)) (mixv w (oxygen a) (oxygen b)) (mixv w (carbon_monoxide a) (carbon_monoxide b))
    (mixv w (water a) (water b)) (mixv w (hydrogen_sulfide a) (hydrogen_sulfide b)) (mixv w (helium a) (helium b))
    (mixv w (argon a) (argon b)).
(* n equal steps *)
Definition blend (a b : @Composition ArithR) (n i : nat) : @Composition ArithR := mixc (INR (Nat.min i n) / INR n) a b.
Definition blending (a b : @Composition ArithR) (t d : R) (n : nat) : list op :=
  base_ops a t d ++ ramp (fun i => SetComp (blend a b n i)) n.

Lemma fr_fields (c : @Composition ArithR) : fractions c = fields c.
Proof. reflexivity. Qed.
Lemma mix_nth w a b i : (i < 21)%nat -> nth i (fractions (mixc w a b)) 0 = mixv w (nth i (fractions a) 0) (nth i (fractions b) 0).
Proof. intros Hi. do 21 (destruct i as [|i]; [reflexivity|]). lia. Qed.
Lemma mix_total w a b : total (fields (mixc w a b)) = mixv w (total (fields a)) (total (fields b)).
Proof. unfold fields, mixc. cbn [methane nitrogen carbon_dioxide ethane propane isobutane n_butane isopentane n_pentane
    hexane heptane octane nonane decane hydrogen oxygen carbon_monoxide water hydrogen_sulfide helium argon total].
  unfold mixv. ring. Qed.
Lemma mix_check w a b : 0 <= w <= 1 -> comp_check a = ROk -> comp_check b = ROk -> comp_check (mixc w a b) = ROk.
Proof.
  rewrite !check_ok, mix_total. unfold mixv. generalize (total (fields a)) (total (fields b)). intros u v Hw Hu Hv.
  replace ((1 - w) * u + w * v - 1) with ((1 - w) * (u - 1) + w * (v - 1)) by ring.
  eapply Rle_trans; [apply Rabs_triang|]. rewrite !Rabs_mult, (Rabs_right (1 - w)), (Rabs_right w) by lra.
  pose proof (Rmult_le_compat_l (1 - w) _ _ ltac:(lra) Hu). pose proof (Rmult_le_compat_l w _ _ ltac:(lra) Hv). lra.
Qed.
Lemma sum_le_one n f i : (forall j, (j < n)%nat -> 0 <= f j) -> (i < n)%nat -> f i <= sum n f.
Proof.
  induction n as [|n IH]; intros H Hi; [lia|]. cbn [sum]. destruct (Nat.eq_dec i n) as [->|].
  - assert (0 <= sum n f) by (apply sum_ge0; intros; apply H; lia). lra.
  - specialize (IH ltac:(intros; apply H; lia) ltac:(lia)). specialize (H n ltac:(lia)). lra.
Qed.
Lemma blend_exists a b : exists n, (0 < n)%nat /\ blend a b n 0 = mixc 0 a b /\ blend a b n n = mixc 1 a b /\
  (forall i, 0 <= INR (Nat.min i n) / INR n <= 1) /\
  forall i j, (j < 21)%nat -> Rabs (nth j (fractions (blend a b n (S i))) 0 - nth j (fractions (blend a b n i)) 0) <= 1 / 10000000.
Proof.
  set (g := fun j => Rabs (nth j (fractions b) 0 - nth j (fractions a) 0)).
  assert (G : 0 <= sum 21 g) by (apply sum_ge0; intros; apply Rabs_pos).
  destruct (nat_above (sum 21 g * 10000000 + 1)) as [n Hn]; [lra|].
  assert (N : 0 < INR n) by lra. exists n. split; [apply INR_lt; cbn [INR]; lra|].
  split; [unfold blend; rewrite Nat.min_0_l; f_equal; cbn [INR]; unfold Rdiv; ring|].
  split; [unfold blend; rewrite Nat.min_id; f_equal; field; lra|]. split.
  - intros i. pose proof (pos_INR (Nat.min i n)). pose proof (le_INR _ _ (Nat.le_min_r i n)). split.
    + apply Rmult_le_pos; [assumption|]. left. now apply Rinv_0_lt_compat.
    + apply (Rmult_le_reg_r (INR n)); [exact N|]. unfold Rdiv. rewrite Rmult_assoc, Rinv_l by lra. lra.
  - intros i j Hj. unfold blend. rewrite !mix_nth by exact Hj. unfold mixv.
    set (u := nth j (fractions a) 0) in *. set (v := nth j (fractions b) 0) in *.
    replace (_ - _) with ((v - u) * ((INR (Nat.min (S i) n) - INR (Nat.min i n)) * / INR n)) by (field; lra).
    assert (S1 : 0 <= INR (Nat.min (S i) n) - INR (Nat.min i n) <= 1).
    { pose proof (le_INR (Nat.min i n) (Nat.min (S i) n) ltac:(lia)).
      pose proof (le_INR (Nat.min (S i) n) (S (Nat.min i n)) ltac:(lia)) as K. rewrite S_INR in K. lra. }
    revert S1. generalize (INR (Nat.min (S i) n) - INR (Nat.min i n)). intros z Hz.
    assert (B : Rabs (v - u) <= sum 21 g) by exact (sum_le_one 21 g j ltac:(intros; apply Rabs_pos) Hj).
    rewrite !Rabs_mult, (Rabs_right z), (Rabs_right (/ INR n)) by (try (left; now apply Rinv_0_lt_compat); lra).
    rewrite <- Rmult_assoc. apply (Rmult_le_reg_r (INR n)); [exact N|]. rewrite Rmult_assoc, Rinv_l by lra.
    pose proof (Rmult_le_compat _ _ _ _ (Rabs_pos (v - u)) (proj1 Hz) B (proj2 Hz)). lra.
Qed.
Lemma mixv0 a b : mixv 0 a b = a. Proof. unfold mixv. ring. Qed.
Lemma mixv1 a b : mixv 1 a b = b. Proof. unfold mixv. ring. Qed.
Lemma mix_0 a b : mixc 0 a b = a.
Proof. unfold mixc. rewrite !mixv0. destruct a; reflexivity. Qed.
Lemma mix_1 a b : mixc 1 a b = b.
Proof. unfold mixc. rewrite !mixv1. destruct b; reflexivity. Qed.

Section Blend.
Variables (a b : @Composition ArithR) (t d : R).
Hypothesis Ha : comp_check a = ROk.
Hypothesis Hb : comp_check b = ROk.
Hypothesis Hx : exists i, (i < 21)%nat /\ 1 / 10000000 < nth i (fractions a) 0.
Hypothesis Ht : 1 / 10000000 < t.
Lemma blend_end : exists n s r, dexec New (blending a b t d n) = Some (s, r) /\
  (forall i j, (j < 21)%nat -> Rabs (nth j (fractions (blend a b n (S i))) 0 - nth j (fractions (blend a b n i)) 0) <= 1 / 10000000) /\
  @held ArithR dp_new (Some (fractions a)) (Some t) (fractions b) t d s.
Proof.
  destruct (blend_exists a b) as (n & N & B0 & B1 & W & S). rewrite mix_0 in B0. rewrite mix_1 in B1.
  destruct (heat_first a t d Ha Hx Ht) as (s & r & E & Hh).
  destruct (@d_ramp_x ArithR dp_new (blend a b n) (Some (fractions a)) (Some t) t d s) with (n := n) as (s' & r' & E' & Hh').
  - rewrite B0. exact Hh.
  - apply differs_same.
  - intros i. apply mix_check; [apply W|exact Ha|exact Hb].
  - intros i Hi. apply x_diff_false. apply S.
  - exists n. do 2 eexists. split; [exact (dexec_app _ _ _ _ _ _ _ E E')|]. split; [exact S|]. rewrite B1 in Hh'. exact Hh'.
Qed.
Lemma blend_stale : exists n s r, dexec New (blending a b t d n) = Some (s, r) /\
  (forall i j, (j < 21)%nat -> Rabs (nth j (fractions (blend a b n (S i))) 0 - nth j (fractions (blend a b n i)) 0) <= 1 / 10000000) /\
  d_x s = fractions b /\ d_t s = t /\ d_d s = d /\
  exists s', dstep Pressure s = Some (s', OVal (A := ArithR) (eos (nn (fun i => nth i (fractions a) 0)) t d)) /\
    d_k3 s' = cK3 (Some (fractions a)) /\ d_x s' = fractions b.
Proof.
  destruct blend_end as (n & s & r & E & S & [W X T D XO TO]). exists n, s, r. split; [exact E|]. split; [exact S|].
  split; [exact X|]. split; [exact T|]. split; [exact D|].
  destruct (@press_held ArithR dp_new _ _ s (fractions b) (t : @F ArithR) W XO TO) as (s' & E' & [W' X' T' D' XO' TO']).
  - rewrite X. apply x_diff_same_R.
  - rewrite T. apply differs_same.
  - exists s'. split; [|split; [exact (wf_k3 _ _ _ W')|rewrite X'; exact X]].
    cbn [dstep]. rewrite E'. cbn [bind]. rewrite T, D. unfold pp.
    assert (Ht0 : 0 < t) by lra.
    pose proof (pz_list (fractions a) t t d eq_refl Hx Ht Ht0) as Z.
    exact (f_equal (fun z : R => Some (s', OVal (A := ArithR) (d * (831451 / 100000) * t * z))) Z).
Qed.
End Blend.

(* K of nitrogen-like mixtures is below K of methane *)
Lemma sum_le n f g : (forall i, (i < n)%nat -> f i <= g i) -> sum n f <= sum n g.
Proof.
  induction n as [|n IH]; intros H; [apply Rle_refl|]. cbn [sum].
  pose proof (IH ltac:(intros; apply H; lia)). pose proof (H n ltac:(lia)). lra.
Qed.
Lemma pairs_le n f g : (forall i j, (i < j < n)%nat -> f i j <= g i j) -> pairs n f <= pairs n g.
Proof. intros H. apply sum_le. intros j Hj. apply sum_le. intros i Hi. apply H. lia. Qed.
(* a literal at most b *)
Definition lle (b : Z) (l : lit) : bool :=
  let '(L m e) := l in match e with Z0 => (m <=? b)%Z | Zpos p => (m * 10 ^ Zpos p <=? b)%Z | Zneg p => (m <=? b * 10 ^ Zpos p)%Z end.
Lemma lle_ok b l : lle b l = true -> Rlit l <= IZR b.
Proof.
  destruct l as [m e]. unfold lle, Rlit. destruct e as [|p|p]; intros H; apply Z.leb_le in H.
  - now apply IZR_le.
  - now apply IZR_le.
  - apply IZR_le in H. rewrite mult_IZR in H. assert (0 < IZR (10 ^ Z.pos p)) by (apply (IZR_lt 0); lia).
    apply (Rmult_le_reg_r (IZR (10 ^ Z.pos p))); [assumption|]. unfold Rdiv. rewrite Rmult_assoc, Rinv_l by lra. lra.
Qed.
Definition KI_le1 : bool := forallb (lle 1) D_KI.
Definition KIJ_le2 : bool := forallb (forallb (lle 2)) D_KIJ.
Lemma KI_small i : (i < 21)%nat -> tb D_KI i <= 1.
Proof.
  intros Hi. assert (H : KI_le1 = true) by reflexivity. unfold KI_le1 in H. rewrite forallb_forall in H.
  apply (lle_ok 1), H, nth_In. exact Hi.
Qed.
Lemma KIJ_small i j : bip D_KIJ i j <= 2.
Proof.
  assert (H : KIJ_le2 = true) by reflexivity. unfold KIJ_le2 in H. rewrite forallb_forall in H.
  unfold bip. apply (lle_ok 2).
  destruct (nth_in_or_default (Nat.min i j) D_KIJ []) as [I|E].
  - specialize (H _ I). rewrite forallb_forall in H.
    destruct (nth_in_or_default (Nat.max i j) (nth (Nat.min i j) D_KIJ []) (L 0 0)) as [I'|E'].
    + now apply H.
    + rewrite E'. reflexivity.
  - rewrite E. now destruct (Nat.max i j).
Qed.
Definition KN : R := 4479153 / 10000000.
Definition KM : R := 4619255 / 10000000.
Definition un (i : nat) : R := if Nat.eqb i 1 then 10000001 / 10000000 else 1 / 10000000.
Lemma Rpower_le1 a b : 0 < a <= 1 -> 0 <= b -> Rpower a b <= 1.
Proof.
  intros Ha Hb. unfold Rpower. rewrite <- exp_0. destruct (Req_dec (b * ln a) 0) as [->|N]; [lra|].
  left. apply exp_increasing. pose proof (Rmult_le_compat_l b (ln a) 0 Hb) as K. rewrite Rmult_0_r in K.
  assert (ln a <= 0).
  { rewrite <- ln_1. destruct (Req_dec a 1) as [->|]; [lra|]. left. apply ln_increasing; lra. }
  specialize (K H). lra.
Qed.
Lemma K5_near y : (forall i, (i < 21)%nat -> 0 <= y i <= un i) -> K5 y <= 2 / 100.
Proof.
  intros Hy. rewrite K5_form.
  set (c := fun i => if Nat.eqb i 1 then Rpower KN (5/2) else 1).
  assert (C : forall i, (i < 21)%nat -> 0 < Rpower (tb D_KI i) (5/2) <= c i).
  { intros i Hi. split; [apply Rpower_gt0|]. unfold c. destruct (Nat.eqb i 1) eqn:E.
    - apply Nat.eqb_eq in E. subst i. right. apply (f_equal (fun v => Rpower v (5/2))). unfold tb, KN. cbn. lra.
    - apply Rpower_le1; [|lra]. split; [now apply KI_pos|now apply KI_small]. }
  assert (S1 : sum 21 (fun i => (y i * Rpower (tb D_KI i) (5/2)) ^ 2) <= sum 21 (fun i => (un i * c i) ^ 2)).
  { apply sum_le. intros i Hi. specialize (Hy i Hi). specialize (C i Hi). apply pow_incr. split.
    - apply Rmult_le_pos; lra.
    - apply Rmult_le_compat; lra. }
  assert (S2 : pairs 21 (fun i j => y i * y j * bip D_KIJ i j ^ 5 * Rpower (tb D_KI i * tb D_KI j) (5/2))
    <= pairs 21 (fun i j => 32 * (un i * un j))).
  { apply pairs_le. intros i j Hij. pose proof (Hy i ltac:(lia)) as Yi. pose proof (Hy j ltac:(lia)) as Yj.
    assert (B : 0 <= bip D_KIJ i j ^ 5 <= 32).
    { assert (B0 : 0 <= bip D_KIJ i j) by (apply bip_nneg; [lia|lia|reflexivity]). split; [now apply pow_le|].
      pose proof (pow_incr _ 2 5 (conj B0 (KIJ_small i j))). lra. }
    assert (P : 0 <= Rpower (tb D_KI i * tb D_KI j) (5/2) <= 1).
    { split; [left; apply Rpower_gt0|]. pose proof (KI_pos i ltac:(lia)). pose proof (KI_pos j ltac:(lia)).
      pose proof (KI_small i ltac:(lia)). pose proof (KI_small j ltac:(lia)).
      apply Rpower_le1; [|lra]. split; [now apply Rmult_lt_0_compat|].
      pose proof (Rmult_le_compat (tb D_KI i) 1 (tb D_KI j) 1). lra. }
    assert (Y : 0 <= y i * y j <= un i * un j) by (split; [apply Rmult_le_pos; lra|apply Rmult_le_compat; lra]).
    replace (32 * (un i * un j)) with (un i * un j * 32 * 1) by ring.
    apply Rmult_le_compat; [apply Rmult_le_pos; lra|lra| |lra]. apply Rmult_le_compat; lra. }
  rewrite pairs_scal in S2. pose proof (sum_sq 21 un) as Q.
  assert (U1 : sum 21 un = 10000021 / 10000000) by (unfold un; cbn [sum Nat.eqb]; lra).
  assert (U2 : sum 21 (fun i => un i ^ 2) = 100000020000021 / 100000000000000) by (unfold un; cbn [sum Nat.eqb]; lra).
  assert (U3 : sum 21 (fun i => (un i * c i) ^ 2) = (10000001 / 10000000 * Rpower KN (5/2)) ^ 2 + 20 / 100000000000000)
    by (unfold un, c; cbn [sum Nat.eqb]; ring_simplify; lra).
  assert (U4 : (10000001 / 10000000 * Rpower KN (5/2)) ^ 2 <= 181 / 10000).
  { unfold Rpower, KN. interval. }
  rewrite U1, U2 in Q. lra.
Qed.
Lemma K5_methane : K5 pm = Rpower KM (5/2) ^ 2.
Proof.
  rewrite K5_form. rewrite (sum_first 20) by (intros i Hi; unfold pm; destruct (Nat.eqb_spec i 0); [lia|ring]).
  replace (pairs 21 _) with 0.
  - unfold pm. cbn [Nat.eqb]. replace (tb D_KI 0) with KM by (unfold tb, KM; cbn; lra). ring.
  - symmetry. unfold pairs. rewrite (sum_ext 21 _ (fun _ => 0)); [cbn [sum]; ring|]. intros j Hj.
    rewrite (sum_ext j _ (fun _ => 0)); [clear; induction j; cbn [sum]; [reflexivity|rewrite IHj; ring]|]. intros i Hi.
    unfold pm. destruct (Nat.eqb_spec j 0); [lia|ring].
Qed.
Lemma K5_gap y : (forall i, (i < 21)%nat -> 0 <= y i <= un i) -> K5 y < K5 pm.
Proof.
  intros H. pose proof (K5_near y H). rewrite K5_methane.
  assert (21 / 1000 <= Rpower KM (5/2) ^ 2) by (unfold Rpower, KM; interval). lra.
Qed.

(* the cached K^3 of a new object after one evaluation *)
Lemma K5_ext x y : (forall i, (i < 21)%nat -> x i = y i) -> K5 x = K5 y.
Proof.
  intros H. rewrite !K5_form. f_equal.
  - apply sum_ext. intros i Hi. now rewrite (H i Hi).
  - f_equal. apply pairs_ext. intros i j Hij. rewrite (H i), (H j) by lia. reflexivity.
Qed.
Lemma k3_list (v : list (@F ArithR)) : (exists i, (i < 21)%nat /\ 1 / 10000000 < nth i v 0) ->
  @cK3 ArithR dp_new (Some v) = sizeK (nn (fun i => nth i v 0)) ^ 3.
Proof. intros (i & Hi & H). apply (pK3_ok (fun i => nth i v 0)). exists i. split; [exact Hi|lra]. Qed.
Lemma k3_after s s1 o : @wf ArithR dp_new None None s -> d_xold s = repeat (@f0 ArithR) 21 ->
  (exists i, (i < 21)%nat /\ 1 / 10000000 < nth i (d_x s) 0) -> dstep Pressure s = Some (s1, o) ->
  d_k3 s1 = sizeK (nn (fun i => nth i (d_x s) 0)) ^ 3.
Proof.
  intros W O Hy E. cbn [dstep] in E. rewrite (pressure_ok None None s W) in E. cbn [bind] in E. injection E as <- _.
  refine (eq_trans (wf_k3 _ _ _ (wf_press None None s W)) _).
  assert (X : ncx None s = Some (d_x s)).
  { unfold ncx, new_cx. rewrite O. replace (x_diff (d_x s) (repeat f0 21)) with true; [reflexivity|]. symmetry.
    destruct Hy as (i & Hi & Hy). unfold x_diff. apply existsb_exists. exists i. split; [apply in_seq; lia|].
    unfold xf. rewrite nth_repeat. apply differs_0. exact Hy. }
  rewrite X. now apply k3_list.
Qed.
Lemma two_steps {A : Arith} l1 l2 (s s1 : Detail) r : drun [l1; l2] s = Some (s1, r) ->
  exists s0 o o', dstep l1 s = Some (s0, o) /\ dstep l2 s0 = Some (s1, o').
Proof.
  cbn [drun]. destruct (dstep l1 s) as [[s0 o]|]; [|discriminate]. cbn [bind].
  destruct (dstep l2 s0) as [[s2 o']|] eqn:E; [|discriminate]. cbn [bind]. intros H. injection H as <- _.
  exists s0, o, o'. now split.
Qed.
Lemma setx_step {A : Arith} y (s s1 : Detail) o : dstep (SetX y) s = Some (s1, o) -> s1 = set_d_x (map y (seq 0 21)) s.
Proof. cbn [dstep]. intros H. now injection H as <- _. Qed.
Lemma setx_x {A : Arith} v (s : Detail) : d_x (set_d_x v s) = v. Proof. reflexivity. Qed.
Lemma setx_xold {A : Arith} v (s : Detail) : d_xold (set_d_x v s) = d_xold s. Proof. reflexivity. Qed.
Lemma fresh_xold : @d_xold ArithR detail_fresh = repeat (@f0 ArithR) 21. Proof. reflexivity. Qed.
Lemma fresh_k3 (y : nat -> R) s1 r1 : dexec New [SetX (A := ArithR) y; Pressure] = Some (s1, r1) ->
  (exists i, (i < 21)%nat /\ 1 / 10000000 < y i) -> d_k3 s1 = sizeK (nn y) ^ 3.
Proof.
  intros E Hy. apply dexec_new_inv in E. destruct (two_steps _ _ _ _ _ E) as (s & o & o' & E1 & E2). clear E.
  set (v := (map y (seq 0 21) : list (@F ArithR))). assert (L : length v = 21%nat) by reflexivity.
  assert (N : forall i, (i < 21)%nat -> nth i v 0 = y i).
  { intros i Hi. do 21 (destruct i as [|i]; [reflexivity|]). lia. }
  pose proof (wf_set_x v None None detail_fresh L (@wf_fresh ArithR)) as W.
  apply setx_step in E1. change (map y (seq 0 21)) with v in E1. rewrite <- E1 in W.
  assert (X : d_x s = v) by (rewrite E1; apply setx_x).
  assert (O : d_xold s = repeat (@f0 ArithR) 21) by (rewrite E1, setx_xold; exact fresh_xold).
  destruct Hy as (i & Hi & Hy). rewrite (k3_after s s1 o' W O); [|rewrite X; exists i; rewrite (N i Hi); now split|exact E2].
  unfold sizeK. rewrite (K5_ext _ (nn y)); [reflexivity|]. intros j Hj. unfold nn. now rewrite X, (N j Hj).
Qed.
Definition cnitrogen : @Composition ArithR := @mkComposition ArithR 0 1 0 0 0 0 0 0 0 0 0 0 0 0 0 0 0 0 0 0 0.
Lemma cn_check : comp_check cnitrogen = ROk.
Proof.
  apply check_ok. unfold fields, cnitrogen, total. cbn [methane nitrogen carbon_dioxide ethane propane isobutane n_butane isopentane n_pentane
    hexane heptane octane nonane decane hydrogen oxygen carbon_monoxide water hydrogen_sulfide helium argon].
  replace (_ - 1) with 0 by ring. rewrite Rabs_R0. lra.
Qed.
Lemma cn_nth i : (i < 21)%nat -> nth i (fractions cnitrogen) 0 = if Nat.eqb i 1 then 1 else 0.
Proof. intros Hi. do 21 (destruct i as [|i]; [reflexivity|]). lia. Qed.
Lemma sizeK_lt x y : 0 < K5 x -> K5 x < K5 y -> sizeK x ^ 3 < sizeK y ^ 3.
Proof.
  intros H0 H. unfold sizeK. rewrite <- !Rpower_pow by apply Rpower_gt0. rewrite !Rpower_mult.
  apply Rlt_Rpower_l; [cbn; lra|]. split; assumption.
Qed.
Lemma d_bound_witness : exists n s r s' o, dexec New (blending cmethane cnitrogen 300 1 n) = Some (s, r) /\
  (forall i j, (j < 21)%nat -> Rabs (nth j (fractions (blend cmethane cnitrogen n (S i))) 0
    - nth j (fractions (blend cmethane cnitrogen n i)) 0) <= 1 / 10000000) /\
  dstep Pressure s = Some (s', o) /\ d_x s' = fractions cnitrogen /\
  forall (y : nat -> R) s1 r1, (forall i, (i < 21)%nat -> Rabs (y i - nth i (fractions cnitrogen) 0) <= 1 / 10000000) ->
    dexec New [SetX (A := ArithR) y; Pressure] = Some (s1, r1) -> d_k3 s1 < d_k3 s'.
Proof.
  destruct (blend_stale cmethane cnitrogen 300 1 cm_check cn_check xm_some ltac:(lra))
    as (n & s & r & E & St & _ & _ & _ & s' & E' & K & X).
  exists n, s, r, s'. eexists. split; [exact E|]. split; [exact St|]. split; [exact E'|]. split; [exact X|].
  intros y s1 r1 Hy E1.
  assert (Y1 : 1 / 10000000 < y 1%nat).
  { specialize (Hy 1%nat ltac:(lia)). rewrite cn_nth in Hy by lia. cbn [Nat.eqb] in Hy. apply Rabs_le_between in Hy. lra. }
  rewrite (fresh_k3 y s1 r1 E1) by (exists 1%nat; split; [lia|exact Y1]).
  rewrite K, (k3_list (fractions cmethane) xm_some).
  assert (G : K5 (nn (fun i => nth i (fractions cmethane) 0)) = K5 pm) by (apply K5_ext; apply xm_pm).
  apply sizeK_lt; [|rewrite G; apply K5_gap].
  - apply K5_pos; [intros; apply nn_ge0|]. exists 1%nat. split; [lia|]. unfold nn. rewrite Rmax_right; lra.
  - intros i Hi. split; [apply nn_ge0|]. specialize (Hy i Hi). rewrite cn_nth in Hy by exact Hi.
    apply Rabs_le_between in Hy. unfold nn, un. apply Rmax_lub; destruct (Nat.eqb i 1); lra.
Qed.
Lemma d_bound_false : ~ (forall l (s s' : @Detail ArithR) r o, dexec New l = Some (s, r) ->
  dstep Pressure s = Some (s', o) ->
  exists (y : nat -> R) s1 r1, (forall i, (i < 21)%nat -> Rabs (y i - nth i (d_x s') 0) <= 1 / 10000000) /\
    dexec New [SetX (A := ArithR) y; Pressure] = Some (s1, r1) /\ d_k3 s' = d_k3 s1).
Proof.
  intros H. destruct d_bound_witness as (n & s & r & s' & o & E & _ & E' & X & K).
  destruct (H _ _ _ _ _ E E') as (y & s1 & r1 & Hy & E1 & Q). rewrite X in Hy. specialize (K y s1 r1 Hy E1).
  rewrite Q in K. exact (Rlt_irrefl _ K).
Qed.
