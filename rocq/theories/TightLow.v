(* density() of a new DETAIL object in double precision at moderate pressure. *)
From Coq Require Import Reals ZArith List Bool Lra Lia Psatz.
From Coquelicot Require Import Coquelicot.
From Flocq Require Import Core BinarySingleNaN.
From Interval Require Import Tactic.
From Verif Require Import FArith Prelude Tab ArithB64 B64Lemmas ArithR RSum SpecDetail SpecStd SpecAcc SpecSlope SpecConv SpecHistory SpecGeneric DetailTables DetailModel DetailPure DetailRefine DetailEval
  DetailEos Api ApiSafe BasicProofs DensityProofs GenericLemmas HistoryDetail Newton NewtonReal DetailThermo Drift StdDetailProof B64Err AccFold AccMix AccMix2 AccMix3 AccMix4 AccEos AccProof AccSlope AccSlopeProof ConvDetail SlopeReal AccDens AccDensProof Converge ConvergeEps ConvDouble ConvFin ConvFinLow SpecMed Tight TightDouble TightFin.
Import ListNotations.
Local Open Scope R_scope.
Local Notation RR := (831451 / 100000).
Section L.
Variable m : Libm.
Hypothesis A : accurate m.
Local Notation B := (ArithB64 m).
Variables (x : nat -> b64) (t P : b64) (i : Z).
Let r j := bR (x j).
Hypothesis Hx : forall j, (j < 21)%nat -> fin (x j) /\ (r j = 0 \/ p2 (-50) <= r j).
Hypothesis Hs : 99 / 100 <= tot 21 r <= 101 / 100.
Hypothesis HT : fin t /\ 32 <= bR t <= 2048.
Hypothesis FP : fin P.
Let T := bR t.
Let d0 := bR P / RR / T.
Hypothesis Hd0 : p2 (-17) <= d0 <= 290.
Hypothesis HD : detail_D r (7 / 5 * d0) <= 1.
Hypothesis HZ : forall d, 0 < d <= 7 / 5 * d0 -> -185 / 1000 <= detail_Z r T d - 1 <= 60 / 1000 /\ -185 / 1000 <= d * Z1 r T d <= 60 / 1000.
Hypothesis HZ0 : forall d, 0 < d <= 1001 / 1000 * d0 -> -128 / 1000 <= detail_Z r T d - 1.
Hypothesis HSt : slope_top r T (7 / 5 * d0) <= 8.
Let l : list (@op B) := [SetX (A := B) x; Poke (A := B) PT t; Poke (A := B) PP P].
Let s1 : @Detail B := set_d_p (P : @F B) (set_d_t (t : @F B) (@set_d_x B (map x (seq 0 21)) detail_fresh)).
Lemma tbrun1 : @dexec B New l = Some (s1, [OUnit; OUnit; OUnit]).
Proof. apply (@dexec_new B). reflexivity. Qed.
Lemma tbsep1 : separated 0 (dasked (l ++ [Density (A := B) i])).
Proof.
  cbn [l app dasked asked]. split.
  - intros a b c e [[= <- <-]|[]] [[= <- <-]|[]]. split; now left.
  - intros a b [[= <- <-]|[]]. split.
    + destruct (big_x x Hs) as (j & Hj & H). exists j. split; [cbn [length map seq]; lia|]. rewrite nth_repeat.
      change (@differs B (@xf B (map x (seq 0 21)) j) (@f0 B) = true). rewrite (X_i m x j Hj). apply differs_0; [apply Hx, Hj|].
      assert (1 / 100 <= bR (x j)) by exact H. assert (bR (x j) <= 101 / 100) by exact (r_le x Hx Hs j Hj). lra.
    + change (@differs B t (@f0 B) = true). apply differs_0; [apply HT|]. lra.
Qed.
Lemma tdp0 : 0 < d0. Proof. pose proof (p2_pos (-17)). lra. Qed.
Lemma tEP : bR P = d0 * RR * T. Proof. unfold d0, T. field. lra. Qed.
Let g : b64 := bdiv (bdiv P (blit (L 831451 (-5)))) t.
Lemma teps_pos : 0 < bR (blit (L 1 (-15))).
Proof. pose proof (eps_R) as H. pose proof (p2_pos (-50)). lra. Qed.
Lemma tguess_b : @dguess B s1 = g.
Proof.
  unfold dguess. change (d_d s1) with (@f0 B). change (@flt B (@fneg B (@EPSILON B)) (@f0 B)) with (Bltb (Bopp (blit (L 1 (-15)))) B0).
  rewrite lt_fin; [|unfold fin; rewrite is_finite_Bopp; reflexivity|reflexivity]. unfold bR at 1. rewrite B2R_Bopp. fold (bR (blit (L 1 (-15)))). change (bR B0) with 0.
  pose proof teps_pos. rewrite Rlt_bool_true by lra. reflexivity.
Qed.
Lemma tguess_near : fin g /\ Rabs (bR g - d0) <= 1 / 10000000000000 * d0.
Proof.
  pose proof tdp0 as D0. pose proof tEP as E. pose proof (p2_pos (-17)). assert (0 < d0 * RR * T) by (apply Rmult_lt_0_compat; unfold T; lra).
  assert (RP : p2 (-17) <= bR P <= p2 24).
  { rewrite E. change (p2 (-17)) with (/ 131072) in *. change (p2 24) with 16777216. unfold T in *. split.
    - apply Rle_trans with (d0 * 8 * 32); [lra|]. apply Rmult_le_compat; [lra|lra| |lra]. apply Rmult_le_compat_l; lra.
    - apply Rle_trans with (290 * 9 * 2048); [|lra]. apply Rmult_le_compat; [lra|lra| |lra]. apply Rmult_le_compat; lra. }
  assert (Q : ap 0 (-17) 24 P (bR P) (bR P)).
  { eapply ap_eq; [apply ap_exact; [exact FP|]|reflexivity|]; rewrite Rabs_pos_eq by lra; [right; exact RP|reflexivity]. }
  assert (QR : ap 1 3 4 (blit (L 831451 (-5))) RR RR).
  { pose proof (ap_lit (L 831451 (-5)) 3 4 eq_refl ltac:(zc)) as QL. replace (Rlit (L 831451 (-5))) with RR in QL by (cbn; lra). rewrite (Rabs_pos_eq RR) in QL by lra. exact QL. }
  assert (QT : ap 0 5 11 t (bR t) (bR t)).
  { eapply ap_eq; [apply ap_exact; [apply HT|]|reflexivity|]; rewrite Rabs_pos_eq by lra; [right; change (p2 5) with 32; change (p2 11) with 2048; lra|reflexivity]. }
  pose proof (ap_div _ _ _ _ _ _ _ _ _ _ _ Q QR ltac:(lra) ltac:(zc) ltac:(zc) ltac:(zc) ltac:(zc)) as Q1.
  pose proof (ap_div _ _ _ _ _ _ _ _ _ _ _ Q1 QT ltac:(lra) ltac:(zc) ltac:(zc) ltac:(zc) ltac:(zc)) as Q2.
  destruct Q2 as (F & E2 & _). split; [exact F|]. eapply Rle_trans; [exact E2|]. change (bR P / RR / bR t) with d0. apply Rmult_le_compat_r; [lra|].
  rewrite u64_val. change (IZR (0 + 1 + 3 + 0 + 3)) with 7. lra.
Qed.
Lemma medZ d : 0 < d <= 7 / 5 * d0 -> 815 / 1000 * (d * RR * T) <= detail_p r T d <= 106 / 100 * (d * RR * T).
Proof.
  intros H. destruct (HZ d H) as [Z _]. assert (0 < d * RR * T) as Q by (apply Rmult_lt_0_compat; unfold T; lra). unfold detail_p. set (z := detail_Z r T d) in *. clearbody z. nra.
Qed.
Lemma medNI e0 : (1 - 1 / 10000000000000) * d0 <= e0 <= (1 + 1 / 10000000000000) * d0 -> medium_ideal (detail_p r T) e0 (bR P).
Proof.
  intros He. pose proof tdp0 as D0. pose proof tEP as E. assert (T0 : 32 <= T) by (unfold T; lra). split.
  - pose proof (HZ0 e0 ltac:(lra)) as Z0. destruct (HZ e0 ltac:(lra)) as [Z _]. unfold detail_p. rewrite E. assert (0 < RR * T) as Q by lra.
    set (z := detail_Z r T e0) in *. clearbody z. replace (e0 * RR * T * z) with (e0 * z * (RR * T)) by ring. replace (d0 * RR * T) with (d0 * (RR * T)) by ring.
    assert (87 / 100 * d0 <= e0 * z <= 23 / 20 * d0) as [G1 G2] by (split; nra). split; nra.
  - intros d Hd'. destruct (HZ d ltac:(lra)) as [A2 B2].
    rewrite (is_derive_unique _ _ _ (p_derive r T d ltac:(lra))).
    unfold detail_p. set (z := detail_Z r T d) in *. set (w := d * Z1 r T d) in *.
    assert (0 < d * RR * T) as Q by (apply Rmult_lt_0_compat; lra). set (rr := d * RR * T) in *.
    replace (d * (RR * T * (z + w))) with (rr * (z + w)) by (unfold rr; ring). clearbody z w rr. split; [nra|]. split; nra.
Qed.
Lemma med_bstep : exists s e, dstep (A := B) (Density i) s1 = Some (s, ODens (A := B) ROk) /\ dframe (A := B) [PD; PZ] s1 s /\
  let d := dread (A := B) PD s in
  fin d /\ Rabs (detail_p r T (bR d) - bR P) <= 1 / 10000000 * bR P /\ Rabs (bR d - e) <= 1 / 10000000 * e /\
  9 / 10 * d0 <= e <= 5 / 4 * d0 /\ detail_p r T e = bR P /\ forall e', 0 < e' <= 7 / 5 * d0 -> detail_p r T e' = bR P -> e' = e.
Proof.
  pose proof tdp0 as D0. pose proof tEP as E. destruct tguess_near as [Fg Ng]. assert (T0 : 32 <= T) by (unfold T; lra).
  assert (Ng' : (1 - 1 / 10000000000000) * d0 <= bR g <= (1 + 1 / 10000000000000) * d0) by (apply Rabs_le_inv in Ng; lra).
  pose proof (t_density_converges m A l i s1 _ tbrun1 tbsep1) as C. cbv zeta in C. rewrite tguess_b in C.
  change (dread (A := B) PT s1) with t in C. change (dread (A := B) PP s1) with P in C. change (d_x s1) with (map x (seq 0 21)) in C.
  assert (Xj : forall j, (j < 21)%nat -> nth j (map x (seq 0 21)) B0 = x j) by (exact (X_i m x)).
  set (r' := fun j => bR (nth j (map x (seq 0 21)) B0)) in C.
  assert (Er : forall j, (j < 21)%nat -> r' j = r j) by (intros j Hj; unfold r'; now rewrite Xj).
  assert (Ep : forall d, detail_p r' T d = detail_p r T d) by (intros d; now apply p_ext).
  destruct C as (s & e & E1 & Fr & F1 & A1 & A2 & A3 & A4 & A5).
  - intros j Hj. unfold r'. rewrite Xj by exact Hj. apply Hx, Hj.
  - change (99 / 100 <= tot 21 r' <= 101 / 100). rewrite (tot_ext 21 r' r) by exact Er. exact Hs.
  - exact HT.
  - exact FP.
  - rewrite E. apply Rmult_lt_0_compat; lra.
  - split; [exact Fg|]. replace (-17)%Z with (-18 + 1)%Z in Hd0 by lia. rewrite bpow_plus in Hd0. change (bpow radix2 1) with 2 in Hd0. pose proof (p2_pos (-18)). lra.
  - rewrite (D_ext r' r _ Er). pose proof (kap_pos r) as Kp. unfold detail_D in HD |- *. set (kap := Rpower _ _ ^ 3) in *. nra.
  - pose proof (medNI (bR g) Ng') as [N1 N2]. split.
    + rewrite Ep. exact N1.
    + intros d Hd. rewrite Ep. rewrite (Derive_ext _ (detail_p r T)) by exact Ep. apply N2, Hd.
  - intros d Hd. rewrite Ep, (slope_ext r' r) by exact Er. pose proof (medZ d ltac:(lra)) as Z. pose proof (slope_le_top r T d (7 / 5 * d0) ltac:(lra) HD) as S.
    fold T. set (sl := slope_size r T d) in *. assert (0 < d * RR * T) by (apply Rmult_lt_0_compat; lra).
    assert (d * RR * T * sl <= d * RR * T * 8) by (apply Rmult_le_compat_l; lra). lra.
  - fold T in A1, A4, A5. rewrite Ep in A1, A4.
    assert (Loc : forall e', 0 < e' <= 7 / 5 * d0 -> detail_p r T e' = bR P -> 9 / 10 * d0 <= e' <= 5 / 4 * d0).
    { intros e' He' Q. pose proof (medZ e' He') as Z. rewrite Q, E in Z. assert (0 < RR * T) by lra.
      replace (e' * RR * T) with (e' * (RR * T)) in Z by ring. replace (d0 * RR * T) with (d0 * (RR * T)) in Z by ring. split; nra. }
    exists s, e. split; [exact E1|]. split; [exact Fr|].
    cbv zeta. split; [exact F1|]. split; [exact A1|]. split; [exact A2|]. split; [apply Loc; [lra|exact A4]|]. split; [exact A4|].
    intros e' He' Q. pose proof (Loc e' ltac:(lra) Q). apply A5; [lra|]. rewrite Ep. exact Q.
Qed.
Lemma med_double : exists s e, @dexec B New [SetX (A := B) x; Poke (A := B) PT t; Poke (A := B) PP P; Density (A := B) i] = Some (s, [OUnit; OUnit; OUnit; ODens (A := B) ROk]) /\
  let d := dread (A := B) PD s in
  fin d /\ Rabs (detail_p r T (bR d) - bR P) <= 1 / 10000000 * bR P /\ Rabs (bR d - e) <= 1 / 10000000 * e /\
  9 / 10 * d0 <= e <= 5 / 4 * d0 /\ detail_p r T e = bR P /\ forall e', 0 < e' <= 7 / 5 * d0 -> detail_p r T e' = bR P -> e' = e.
Proof.
  destruct med_bstep as (s & e & E1 & _ & Q). exists s, e. split; [|exact Q].
  change (@dexec B New (l ++ [Density (A := B) i]) = Some (s, [OUnit; OUnit; OUnit] ++ [ODens (A := B) ROk])). eapply (@dexec_app B); [exact tbrun1|].
  cbn [drun]. match goal with |- context [@dstep ?a ?b ?c] => assert (EL : @dstep a b c = Some (s, ODens (A := B) ROk)) by exact E1; rewrite EL end. reflexivity.
Qed.
End L.
