(* The whole computation with DETAIL for a natural gas near base conditions, in double precision. *)
From Coq Require Import Reals ZArith List Bool Lra Lia Psatz.
From Coquelicot Require Import Coquelicot.
From Flocq Require Import Core BinarySingleNaN.
From Verif Require Import FArith Prelude Tab ArithB64 B64Lemmas ArithR RSum DetailPure SpecIdeal SpecDetail StdDetail SpecStd SpecGas SpecAcc SpecSlope SpecConv SpecAll SpecAllF SpecAllD SpecRel SpecHistory SpecGeneric DetailTables DetailModel DetailRefine DetailEval HistoryDetail Api ApiSafe Drift SpecReal DetailReal DetailThermo IdealGas MassReal Consistency
  ConvDetail AccProof AccDensProof B64Err AccEos AccLibm DetailEos StdDetailProof RelDouble AccAll2 AccAllF AccAllM AccProps AccAllCase ConvFinLow SlopeReal FixUp GasThird GasCase GasSum GasIdeal GasDerived SpecGasState.
Import ListNotations.
Local Open Scope R_scope.
Local Notation RR := (831451 / 100000).

Lemma n01 : Z.leb (sumU 0 1) 7886000 = true. Proof. vm_compute. reflexivity. Qed.
Lemma n02 : Z.leb (sumU 0 2) 1167000 = true. Proof. vm_compute. reflexivity. Qed.
Lemma n11 : Z.leb (sumU 1 1) 37741000 = true. Proof. vm_compute. reflexivity. Qed.
Lemma n20 : Z.leb (sumU 2 0) 46036000 = true. Proof. vm_compute. reflexivity. Qed.
Section S.
Variable x : nat -> R.
Hypothesis Hx : natural_gas x.
Variables (T d : R).
Hypothesis HT : 270 <= T <= 350.
Hypothesis Hd : 0 < d <= 573 / 10000.
Lemma S_le w e b : (w <= 2)%nat -> (e <= 2)%nat -> (sumU w e <= b)%Z -> 0 <= dsum w e x T d <= IZR b / 268435456.
Proof. intros Hw He H. destruct (dsum_le x Hx T HT d Hd w e Hw He) as [A B]. split; [exact A|]. apply fx_le in H. apply Rle_trans with (1 := B). exact H. Qed.
Lemma S01_le : 0 <= dsum 0 1 x T d <= 2938 / 100000. Proof. pose proof (S_le 0 1 _ ltac:(lia) ltac:(lia) (proj1 (Z.leb_le _ _) n01)). lra. Qed.
Lemma S02_le : 0 <= dsum 0 2 x T d <= 435 / 100000. Proof. pose proof (S_le 0 2 _ ltac:(lia) ltac:(lia) (proj1 (Z.leb_le _ _) n02)). lra. Qed.
Lemma S11_le : 0 <= dsum 1 1 x T d <= 1406 / 10000. Proof. pose proof (S_le 1 1 _ ltac:(lia) ltac:(lia) (proj1 (Z.leb_le _ _) n11)). lra. Qed.
Lemma S20_le : 0 <= dsum 2 0 x T d <= 1715 / 10000. Proof. pose proof (S_le 2 0 _ ltac:(lia) ltac:(lia) (proj1 (Z.leb_le _ _) n20)). lra. Qed.
End S.

Section P.
Variable m : Libm.
Hypothesis A : accurate m.
Local Notation B := (ArithB64 m).
Variables (x : nat -> b64) (t d : b64).
Local Notation r := (fun j => bR (x j)).
Hypothesis Hx : forall j, (j < 21)%nat -> fin (x j) /\ (bR (x j) = 0 \/ bpow radix2 (-50) <= bR (x j)).
Hypothesis Hg : natural_gas r.
Hypothesis Ft : fin t. Hypothesis HT : 270 <= bR t <= 350.
Hypothesis Fd : fin d. Hypothesis Hd : / 262144 <= bR d <= 573 / 10000.
Lemma Hs : 99 / 100 <= tot 21 r <= 101 / 100. Proof. apply Hg. Qed.
Lemma HTt : fin t /\ 32 <= bR t <= 2048. Proof. split; [exact Ft|lra]. Qed.
Lemma d20 : bpow radix2 (-20) <= bR d. Proof. replace (bpow radix2 (-20)) with (/ 1048576) by (cbn; lra). lra. Qed.
Lemma Hdd' : fin d /\ bpow radix2 (-20) <= bR d. Proof. split; [exact Fd|exact d20]. Qed.
Lemma d0p : 0 < bR d <= 573 / 10000. Proof. lra. Qed.
Lemma D3 : detail_D r (bR d) <= 3.
Proof. destruct (D2_up r Hg (bR d) d0p) as [_ H]. apply Rle_trans with (1 := H). unfold fx. change SC with 268435456%Z. unfold D2. lra. Qed.
Local Notation X := (@xf B (map x (seq 0 21))).
Local Notation kB := (AccEos.kB m X t).
Local Notation kR := (DetailThermo.dk New r (bR t)).
Local Notation fB f := (@dfield B dp_new kB X t d f).
Lemma T7' : 1 / 10000000 < bR t. Proof. lra. Qed.
Lemma got f : detail_field f -> fin (fB f) /\ Rabs (bR (fB f) - dvals New r f (bR t) (bR d)) <= 3 / 20000000000 * dfield_size f r (bR t) (bR d).
Proof. intros Hf. pose proof (fields m A x t d Hx Hs HTt Hdd' D3 f Hf) as Q. rewrite dprop_ok in Q; [exact Q|exact T7']. Qed.
Ltac R1 E := change (@fadd ArithR) with Rplus in E; change (@fsub ArithR) with Rminus in E; change (@fmul ArithR) with Rmult in E; change (@fdiv ArithR) with Rdiv in E; change (@fneg ArithR) with Ropp in E; change (@f1 ArithR) with 1 in E; change (@f2 ArithR) with 2 in E.
Lemma GT : 2244 <= RD * bR t <= 2911. Proof. unfold RD. lra. Qed.
Lemma z_val : fin (fB PZ) /\ Rabs (bR (fB PZ) - 1) <= 3 / 100.
Proof.
  destruct (got PZ I) as [F E]. split; [exact F|]. destruct (K01 m A x t d Hx Hs HTt Hdd' D3) as (_ & _ & S1 & _). pose proof (S01_le r Hg (bR t) (bR d) HT d0p) as S2. pose proof GT as G.
  set (v := bR (fB PZ)) in *. clearbody v. cbn [dvals dfield_size] in E. unfold qz, qrt in E. R1 E. rewrite RDe in E.
  set (a1 := @ar01 ArithR kR _ _) in *. set (s := dsum 0 1 _ _ _) in *. set (g := RD * bR t) in *. clearbody a1 s g.
  assert (W : Rabs (a1 / g) <= s).
  { unfold Rdiv. rewrite Rabs_mult, (Rabs_pos_eq (/ g)) by (apply Rlt_le, Rinv_0_lt_compat; lra).
    apply Rmult_le_reg_r with g; [lra|]. rewrite Rmult_assoc, Rinv_l by lra. lra. }
  set (w := a1 / g) in *. clearbody w. apply Rabs_le_inv in E. apply Rabs_le_inv in W. apply Rabs_le. lra.
Qed.
Lemma q_val : fin (fB PDpDd) /\ Rabs (bR (fB PDpDd) - RD * bR t) <= 65 / 1000 * (RD * bR t).
Proof.
  destruct (got PDpDd I) as [F E]. split; [exact F|]. destruct (K01 m A x t d Hx Hs HTt Hdd' D3) as (_ & _ & S1 & _). pose proof (S01_le r Hg (bR t) (bR d) HT d0p) as S2.
  destruct (K02 m A x t d Hx Hs HTt Hdd' D3) as (_ & _ & U1 & _). pose proof (S02_le r Hg (bR t) (bR d) HT d0p) as U2. pose proof GT as G.
  set (v := bR (fB PDpDd)) in *. clearbody v. cbn [dvals dfield_size] in E. unfold qdpdd, qrt in E. R1 E. rewrite RDe in E.
  set (a1 := @ar01 ArithR kR _ _) in *. set (a2 := @ar02 ArithR kR _ _) in *. set (s := dsum 0 1 _ _ _) in *. set (u := dsum 0 2 _ _ _) in *. set (g := RD * bR t) in *. clearbody a1 a2 s u g.
  assert (g * s <= g * (2938 / 100000)) by (apply Rmult_le_compat_l; lra). assert (g * u <= g * (435 / 100000)) by (apply Rmult_le_compat_l; lra).
  replace (g * (1 + 2 * s + u)) with (g + 2 * (g * s) + g * u) in E by ring.
  set (gs := g * s) in *. set (gu := g * u) in *. clearbody gs gu. apply Rabs_le_inv in E. apply Rabs_le_inv in S1. apply Rabs_le_inv in U1. apply Rabs_le. lra.
Qed.
Lemma p_val : fin (fB PDpDt) /\ Rabs (bR (fB PDpDt) - bR d * RD) <= 143 / 1000 * (bR d * RD).
Proof.
  destruct (got PDpDt I) as [F E]. split; [exact F|]. destruct (K11 m A x t d Hx Hs HTt Hdd' D3) as (_ & _ & S1 & _). pose proof (S11_le r Hg (bR t) (bR d) HT d0p) as S2.
  set (v := bR (fB PDpDt)) in *. clearbody v. cbn [dvals dfield_size] in E. unfold qdpdt in E. R1 E. rewrite RDe in E.
  set (a1 := @ar11 ArithR kR _) in *. set (s := dsum 1 1 _ _ _) in *. pose proof Hd as Hd2. set (dd := bR d) in *. clearbody a1 s dd.
  assert (PG : 0 < dd * RD) by (unfold RD; lra). assert (E1 : Rabs (dd * a1) <= dd * RD * s) by (rewrite Rabs_mult, (Rabs_pos_eq dd) by lra; rewrite Rmult_assoc; apply Rmult_le_compat_l; lra).
  assert (dd * RD * s <= dd * RD * (1406 / 10000)) by (apply Rmult_le_compat_l; lra). rewrite Rmult_plus_distr_l, Rmult_1_r in E.
  set (g := dd * RD) in *. set (gs := g * s) in *. set (b := dd * a1) in *. clearbody g gs b. apply Rabs_le_inv in E. apply Rabs_le_inv in E1. apply Rabs_le. lra.
Qed.
Lemma cv_zero : - xf (@pa0 ArithR dp_new (dX r) (bR t) (bR d)) 2 = mix_cv RD (nn r) (bR t).
Proof.
  unfold mix_cv. rewrite <- (pa_cv r (bR t) T7').
  destruct (@pa0_entries dp_new (dX r) (bR t) (bR d)) as (_ & _ & E). unfold e2 in E. rewrite E, RDe.
  unfold pa0sum. rewrite (fold_trip (fun i st => @a0_step ArithR dp_new (dX r) (bR t) (bR d) i st) (@a0_inc dp_new (dX r) (bR t) (bR d))) by (intros; apply a0_step_inc).
  rewrite (fold_trip (fun i st => @a0_step ArithR DN (dX r) (bR t) 0 i st) (@a0_inc dp_new (dX r) (bR t) 0)) by (intros; apply a0_step_inc).
  rewrite !p3E.
  rewrite (rsum_ext (fun i => p3 (@a0_inc dp_new (dX r) (bR t) (bR d) i)) (fun i => p3 (@a0_inc dp_new (dX r) (bR t) 0 i))); [ring|].
  intros i _. unfold a0_inc. destruct (Rltb _ _); reflexivity.
Qed.
Lemma v_val : fin (fB PCv) /\ 5 / 2 * RD <= bR (fB PCv) <= 47 / 10 * RD.
Proof.
  destruct (got PCv I) as [F E]. split; [exact F|]. destruct (K20 m A x t d Hx Hs HTt Hdd' D3) as (_ & _ & S1 & _). pose proof (S20_le r Hg (bR t) (bR d) HT d0p) as S2. pose proof (size2_le r Hg (bR t) (bR d) HT) as I2.
  set (v := bR (fB PCv)) in *. clearbody v. cbn [dvals dfield_size] in E. unfold qcv in E. R1 E.
  pose proof cv_zero as C. pose proof (cv_range r Hg (bR t) HT) as V. rewrite <- C in V. clear C. cbn [dpar] in E.
  set (a1 := @ar20 ArithR kR _) in *. set (s1 := dsum 2 0 _ _ _) in *. set (i2 := dideal_sum 2 _ _ _) in *.
  set (a0 := xf _ 2) in *. clearbody a0 a1 s1 i2. unfold RD in *. apply Rabs_le_inv in E. apply Rabs_le_inv in S1. lra.
Qed.
Lemma m_val : fin (fB PMM) /\ 143 / 10 <= bR (fB PMM) <= 301 / 10.
Proof.
  destruct (mvalue m x t d Hx Hs HTt) as [F E]. split; [exact F|]. pose proof (d_mass New r (bR t) (bR d) T7') as G.
  assert (M : 144 / 10 <= SpecDetail.sum 21 (fun i => bR (x i) * tb D_MMI i) <= 30) by exact (mass_range r Hg). cbv beta in G. rewrite <- G in M. set (mm := dprop New PMM _ _ _) in *. clearbody mm. apply Rabs_le_inv in E. lra.
Qed.
End P.

Section Run.
Variable m : Libm.
Hypothesis A : accurate m.
Local Notation B := (ArithB64 m).
Variables (x : nat -> b64) (t P : b64) (i : Z).
Local Notation r := (fun j => bR (x j)).
Hypothesis Hx : forall j, (j < 21)%nat -> fin (x j) /\ (bR (x j) = 0 \/ bpow radix2 (-50) <= bR (x j)).
Hypothesis Hg : natural_gas r.
Hypothesis Ht : fin t /\ 270 <= bR t <= 350.
Hypothesis HP : fin P /\ 1 / 10 <= bR P <= 110.
Local Notation T := (bR t).
Local Notation d0 := (bR P / RR / T).
Let l : list (@op B) := [SetX (A := B) x; Poke (A := B) PT t; Poke (A := B) PP P].
Let s1 : @Detail B := set_d_p (P : @F B) (set_d_t (t : @F B) (@set_d_x B (map x (seq 0 21)) detail_fresh)).
Lemma lsep : separated (A := B) 0 (dasked (A := B) ((l ++ [Density (A := B) i]) ++ [Properties (A := B)])).
Proof.
  destruct (bsep1 m x t P i Hx (proj2 (proj2 Hg)) (HTt t (proj1 Ht) (proj2 Ht))) as [S1 S2]. cbn [l app dasked asked In] in *. split.
  - intros a b c e [[= <- <-]|[[= <- <-]|[]]] [[= <- <-]|[[= <- <-]|[]]]; split; now left.
  - intros a b H. apply S2. destruct H as [H|[H|[]]]; now left.
Qed.
Lemma gas_state_detail : exists s, @dexec B New [SetX (A := B) x; Poke (A := B) PT t; Poke (A := B) PP P; Density (A := B) i; Properties (A := B)]
    = Some (s, [OUnit; OUnit; OUnit; ODens (A := B) ROk; OUnit]) /\
  gas_state RR T (bR P) (bR (dread (A := B) PP s)) (fun k => dread (A := B) k s).
Proof.
  destruct Ht as [Ft RT]. destruct HP as [FP RP].
  pose proof (start_range RR (bR P) T ltac:(lra) RP RT) as Q1. pose proof (start_top RR (bR P) T ltac:(lra) ltac:(lra) (proj1 RT)) as Q2.
  destruct (low_bstep m A x t P i Hx (proj2 (proj2 Hg)) (HTt t Ft RT) FP Q1) as (s & e & E1 & [Fx Ff] & Fd & Ep & Ed & Er & _).
  { apply Rle_trans with (1 / 40); [|lra]. exact (D_le r Hg (4 * d0) Q2). }
  { exact (spread_le r Hg T RT (4 * d0) Q2). }
  { exact (top_le r Hg T RT (4 * d0) Q2). }
  cbv zeta in *. set (d := dread (A := B) PD s) in *.
  assert (R1 : @dexec B New (l ++ [Density (A := B) i]) = Some (s, [OUnit; OUnit; OUnit] ++ [ODens (A := B) ROk])).
  { eapply (@dexec_app B); [exact (brun1 m x t P)|]. cbn [drun]. match goal with |- context [@dstep ?a ?b ?c] => assert (EL : @dstep a b c = Some (s, ODens (A := B) ROk)) by exact E1; rewrite EL end. reflexivity. }
  assert (X21 : d_x s = map x (seq 0 21)) by (rewrite Fx; reflexivity).
  assert (Et : dread (A := B) PT s = t) by (rewrite Ff by (cbn; intuition discriminate); reflexivity).
  destruct (dprops_run m _ s _ x R1 lsep X21) as (s' & E' & Et' & Ed' & Hf). cbv zeta in Hf. rewrite Et in *. fold d in Ed', Hf.
  assert (Rd : / 262144 <= bR d <= 573 / 10000).
  { replace (bpow radix2 (-17)) with (/ 131072) in Q1 by (cbn; lra). apply Rabs_le_inv in Ed. set (dd0 := bR P / RR / T) in *. clearbody dd0. clear - Q1 Q2 Ed Er. lra. }
  assert (R2 : @dexec B New ((l ++ [Density (A := B) i]) ++ [Properties (A := B)]) = Some (s', ([OUnit; OUnit; OUnit] ++ [ODens (A := B) ROk]) ++ [OUnit (A := B)])).
  { eapply (@dexec_app B); [exact R1|]. cbn [drun]. match goal with |- context [@dstep ?a ?b ?c] => assert (EL : @dstep a b c = Some (s', OUnit (A := B))) by exact E'; rewrite EL end. reflexivity. }
  exists s'. split; [exact R2|].
  assert (Hr : dreach (A := B) s) by (exists New; eexists; eexists; exact R1).
  destruct (drel m A s s' _ Hr E') as (G & Gp & _).
  { rewrite Et'. exact (HTt t Ft RT). }
  { rewrite Ed'. split; [exact Fd|]. split; [exact (d20 d Rd)|]. lra. }
  pose proof (z_val m A x t d Hx Hg Ft RT Fd Rd) as V1. pose proof (q_val m A x t d Hx Hg Ft RT Fd Rd) as V2. pose proof (p_val m A x t d Hx Hg Ft RT Fd Rd) as V3.
  pose proof (v_val m A x t d Hx Hg Ft RT Fd Rd) as V4. pose proof (m_val m x t d Hx Hg Ft RT) as V5.
  pose proof (got m A x t d Hx Hg Ft RT Fd Rd) as V6.
  assert (V7 : forall f, detail_field f -> fin (dread (A := B) f s')) by (intros f Pf; rewrite Hf by (destruct f; try contradiction Pf; exact I); exact (proj1 (V6 f Pf))). clear V6.
  rewrite <- !Hf in V1, V2, V3, V4, V5 by exact I. clear Hf. change RD with RR in *.
  destruct V1 as [F1 V1]. destruct V2 as [F2 V2]. destruct V3 as [F3 V3]. destruct V4 as [F4 V4]. destruct V5 as [F5 V5].
  set (f k := dread (A := B) k s') in *.
  assert (ET : bR (f PT) = T) by (unfold f; now rewrite Et'). assert (ED : bR (f PD) = bR d) by (unfold f; now rewrite Ed').
  assert (EP : Rabs (bR (f PP) - bR P) <= 2 / 10000000 * bR P).
  { pose proof (props_fields m A _ s _ R1 lsep) as PF. cbv zeta in PF. fold d in PF. rewrite Et in PF. rewrite X21 in PF.
    set (r' := fun j => bR (nth j (map x (seq 0 21)) B0)) in PF.
    assert (Xj : forall j, (j < 21)%nat -> nth j (map x (seq 0 21)) B0 = x j) by (exact (X_i m x)).
    assert (Er' : forall j, (j < 21)%nat -> r' j = bR (x j)) by (intros j Hj; unfold r'; now rewrite Xj).
    destruct PF as (s2 & E2 & _ & Pp & _).
    - intros j Hj. unfold r'. rewrite Xj by exact Hj. apply Hx, Hj.
    - change (99 / 100 <= tot 21 r' <= 101 / 100). rewrite (tot_ext 21 r' r) by exact Er'. apply Hg.
    - exact (HTt t Ft RT).
    - split; [exact Fd|exact (d20 d Rd)].
    - rewrite (D_ext r' r _ Er'). exact (D3 x d Hg Rd).
    - assert (ES : s2 = s') by congruence. subst s2. change (dread (A := ArithB64 m) PP s') with (f PP) in Pp. rewrite (p_ext r' r) in Pp by exact Er'.
      assert (SZ : detail_size r' T (bR d) = 1 + dsum 0 1 r T (bR d)).
      { rewrite (AccAll2.S01 m x t d), (AccProof.s_eq m x t d). transitivity (dsize r' T (bR d)); [apply size_std|]. transitivity (dsize r T (bR d)); [now apply dsize_ext|]. symmetry. apply size_std. }
      change (Rabs (bR (f PP) - detail_p r T (bR d)) <= 3 / 20000000000 * (bR d * RR * T * detail_size r' T (bR d))) in Pp. rewrite SZ in Pp. pose proof (S01_le r Hg T (bR d) RT (d0p d Rd)) as S1. apply Rabs_le_inv in Ep.
      assert (PE : bR P = d0 * RR * T) by (field; lra). set (dd0 := bR P / RR / T) in *. clearbody dd0. set (sz := dsum 0 1 _ _ _) in *. set (pr := detail_p _ _ _) in *. set (fp := bR (f PP)) in *. clearbody sz pr fp.
      assert (Q : bR d * RR * T * (1 + sz) <= 2 * bR P).
      { apply Rabs_le_inv in Ed. rewrite PE. apply Rle_trans with (bR d * RR * T * (11 / 10)); [apply Rmult_le_compat_l; [apply Rmult_le_pos; lra|lra]|].
        replace (bR d * RR * T * (11 / 10)) with (RR * T * (bR d * (11 / 10))) by ring. replace (2 * (dd0 * RR * T)) with (RR * T * (2 * dd0)) by ring. apply Rmult_le_compat_l; lra. }
      apply Rabs_le_inv in Pp. apply Rabs_le. lra. }
  assert (Rd' : / 262144 <= bR (f PD) <= 6 / 100) by (rewrite ED; lra).
  assert (RT' : 270 <= bR (f PT) <= 350) by (rewrite ET; exact RT).
  assert (HG : 831 / 100 <= RR <= 832 / 100) by lra.
  assert (V1w : Rabs (bR (f PZ) - 1) <= 4 / 100) by (change (Rabs (bR (f PZ) - 1) <= 3 / 100) in V1; lra). clear V1. rename V1w into V1. assert (V2w : Rabs (bR (f PDpDd) - RR * T) <= 75 / 1000 * (RR * T)) by (change (Rabs (bR (f PDpDd) - RR * T) <= 65 / 1000 * (RR * T)) in V2; lra). clear V2. rename V2w into V2. change (Rabs (bR (f PDpDt) - bR d * RR) <= 143 / 1000 * (bR d * RR)) in V3.
  change (5 / 2 * RR <= bR (f PCv) <= 47 / 10 * RR) in V4. change (143 / 10 <= bR (f PMM) <= 301 / 10) in V5.
  pose proof V2 as V2'. pose proof V3 as V3'. rewrite <- ET in V2'. rewrite <- ED in V3'.
  assert (W6 : fin (f PCp) /\ 68 / 100 * RR <= bR (f PCp) - bR (f PCv) <= 142 / 100 * RR) by (eapply cp_val; eassumption). destruct W6 as [F6 V6].
  assert (F7 : fin (f PJt)) by (eapply (jt_val RR); eassumption).
  assert (W8 : fin (f PW) /\ 280 <= bR (f PW) <= 590) by (edestruct (w_val RR f) as (W1 & W2 & _); [eassumption..|]; now split). destruct W8 as [F8 V8].
  assert (W9 : fin (f PKappa) /\ 1 < bR (f PKappa) < 9 / 5) by (eapply (k_val RR); eassumption). destruct W9 as [F9 V9].
  unfold gas_state. cbv beta zeta. split; [|split; [exact ET|split; [exact EP|split; [exact V1|split; [|split; [exact V2|split; [exact V3'|split; [exact V4|split; [exact V6|split; [exact V5|split; [exact V8|exact V9]]]]]]]]]]].
  - intros k. destruct k; try assumption; try (apply V7; exact I).
    + unfold f. rewrite Et'. exact Ft.
    + unfold f. rewrite Ed'. exact Fd.
    + destruct (Consistency.dconsistent s s' _ Hr E') as (_ & _ & Z & _). unfold f. change (fin (d_d2p_dtd s')). rewrite Z. reflexivity.
  - destruct (Gp (proj1 (pz' f F1 V1))) as [_ W]. rewrite Et', Ed' in W. change (dread (A := B) PP s') with (f PP) in W. change (dread (A := B) PZ s') with (f PZ) in W. rewrite ED.
    pose proof (rz f V1) as Z. assert (PE : bR P = d0 * RR * T) by (field; lra). set (dd0 := bR P / RR / T) in *. clearbody dd0. set (z := bR (f PZ)) in *. set (p := bR (f PP)) in *. clearbody z p.
    rewrite (Rabs_pos_eq z) in W by lra. assert (HD : 0 < bR d * (RR * T)) by (apply Rmult_lt_0_compat; lra). assert (H0 : 0 < dd0) by lra.
    rewrite PE in EP. replace (dd0 * RR * T) with (dd0 * (RR * T)) in EP by ring. set (g := RR * T) in *. assert (G0 : 0 < g) by (unfold g; lra). set (dd := bR d) in *. clearbody g dd.
    apply Rabs_le_inv in W. apply Rabs_le_inv in EP.
    assert (Y : (1 - 3 / 10000000) * dd0 <= dd * z <= (1 + 3 / 10000000) * dd0).
    { split; apply (Rmult_le_reg_r g); nra. }
    clear - Y Z H0. apply Rabs_le. split; nra.
Qed.
End Run.
