(* The whole computation with DETAIL for a natural gas up to 1.2 MPa, in double precision. *)
From Coq Require Import Reals ZArith List Bool Lra Lia Psatz.
From Coquelicot Require Import Coquelicot.
From Flocq Require Import Core BinarySingleNaN.
From Verif Require Import FArith Prelude Tab ArithB64 B64Lemmas ArithR RSum DetailPure SpecIdeal SpecDetail StdDetail SpecStd SpecGas SpecAcc SpecSlope SpecConv SpecAll SpecAllF SpecAllD SpecRel SpecHistory SpecGeneric DetailTables DetailModel DetailRefine DetailEval HistoryDetail Api ApiSafe Drift SpecReal DetailReal DetailThermo IdealGas MassReal Consistency
  ConvDetail AccProof AccDensProof B64Err AccEos AccLibm DetailEos StdDetailProof RelDouble AccAll2 AccAllF AccAllM AccProps AccAllCase ConvFinLow SlopeReal FixUp GasThird GasTight TightLow GasVir2 GasCase MedCase GasIdeal MedSum GasDerived MedDerived MedSlope SpecMedState.
From Verif Require GasProps Converge.
Import ListNotations.
Local Open Scope R_scope.
Local Notation RR := (831451 / 100000).


Lemma n01 : Z.leb (sumU 0 1) 93600000 = true. Proof. vm_compute. reflexivity. Qed.
Lemma n11 : Z.leb (sumU 1 1) 217100000 = true. Proof. vm_compute. reflexivity. Qed.
Lemma n20 : Z.leb (sumU 2 0) 394100000 = true. Proof. vm_compute. reflexivity. Qed.
Lemma tail3_num : (tailZ MedSum.D2 <=? 3690000)%Z = true. Proof. vm_compute. reflexivity. Qed.
Section S.
Variable x : nat -> R.
Hypothesis Hx : natural_gas x.
Variables (T d : R).
Hypothesis HT : 270 <= T <= 350.
Hypothesis Hd : 0 < d <= 669 / 1000.
Lemma S_le w e b : (w <= 2)%nat -> (e <= 2)%nat -> (sumU w e <= b)%Z -> 0 <= dsum w e x T d <= IZR b / 268435456.
Proof. intros Hw He H. destruct (dsum_le x Hx T HT d Hd w e Hw He) as [A B]. split; [exact A|]. apply fx_le in H. apply Rle_trans with (1 := B). exact H. Qed.
Lemma S01_le : 0 <= dsum 0 1 x T d <= 349 / 1000. Proof. pose proof (S_le 0 1 _ ltac:(lia) ltac:(lia) (proj1 (Z.leb_le _ _) n01)). lra. Qed.
Lemma S11_le : 0 <= dsum 1 1 x T d <= 809 / 1000. Proof. pose proof (S_le 1 1 _ ltac:(lia) ltac:(lia) (proj1 (Z.leb_le _ _) n11)). lra. Qed.
Lemma S20_le : 0 <= dsum 2 0 x T d <= 1469 / 1000. Proof. pose proof (S_le 2 0 _ ltac:(lia) ltac:(lia) (proj1 (Z.leb_le _ _) n20)). lra. Qed.
Lemma D1' : detail_D x d <= 1.
Proof. destruct (MedSum.D2_up x Hx d Hd) as [_ H]. apply Rle_trans with (1 := H). unfold fx. change SC with 268435456%Z. unfold MedSum.D2. lra. Qed.
Lemma w_range : - (9705 / 100000) <= d * Z1 x T d <= 218 / 10000.
Proof.
  pose proof (Z1_near x Hx T HT d MedSum.D2 (proj1 Hd) (MedSum.D2_up x Hx d Hd) D1') as B. pose proof (second_bounds x Hx T HT) as S.
  pose proof (leU _ _ tail3_num) as F. assert (F' : fx 3690000 <= 1375 / 100000) by (unfold fx; change SC with 268435456%Z; lra).
  set (b := second_virial x T) in *. assert (- (8330 / 100000) <= b * d <= 803 / 100000) by (clearbody b; nra). apply Converge.Rabs_le_inv in B. lra.
Qed.
Lemma zq_range : 902 / 1000 <= detail_Z x T d <= 1022 / 1000 /\ 805 / 1000 * (RR * T) <= Derive (detail_p x T) d <= 1044 / 1000 * (RR * T).
Proof.
  pose proof (Z_near x Hx T HT d MedSum.D2 (MedSum.D2_up x Hx d Hd) D1') as A. pose proof (Z1_near x Hx T HT d MedSum.D2 (proj1 Hd) (MedSum.D2_up x Hx d Hd) D1') as B. pose proof (second_bounds x Hx T HT) as S.
  pose proof (leU _ _ tail3_num) as F. assert (F' : fx 3690000 <= 1375 / 100000) by (unfold fx; change SC with 268435456%Z; lra).
  rewrite (is_derive_unique _ _ _ (p_derive x T d (proj1 Hd))).
  set (b := second_virial x T) in *. assert (- (8330 / 100000) <= b * d <= 803 / 100000) by (clearbody b; nra). apply Converge.Rabs_le_inv in A, B.
  assert (Z : 902 / 1000 <= detail_Z x T d <= 1022 / 1000) by lra. split; [exact Z|].
  set (z := detail_Z x T d) in *. set (w := d * Z1 x T d) in *. clearbody z w. assert (805 / 1000 <= z + w <= 1044 / 1000) by lra. assert (0 < RR * T) by lra. nra.
Qed.
End S.

Section P.
Variable m : Libm.
Hypothesis A : accurate m.
Local Notation B := (ArithB64 m).
Variables (x : nat -> b64) (t d : b64).
Local Notation r := (fun j => bR (x j)).
Hypothesis Hx : forall j, (j < 21)%nat -> fin (x j) /\ (bR (x j) = 0 \/ bpow radix2 (-50) <= bR (x j)).
Hypothesis Hg : natural_gas r.
Hypothesis Ft : fin t. Hypothesis HT : 270 <= bR t <= 350.
Hypothesis Fd : fin d. Hypothesis Hd : / 262144 <= bR d <= 669 / 1000.
Lemma Hs : 99 / 100 <= tot 21 r <= 101 / 100. Proof. apply Hg. Qed.
Lemma HTt : fin t /\ 32 <= bR t <= 2048. Proof. split; [exact Ft|lra]. Qed.
Lemma d20 : bpow radix2 (-20) <= bR d. Proof. replace (bpow radix2 (-20)) with (/ 1048576) by (cbn; lra). lra. Qed.
Lemma Hdd' : fin d /\ bpow radix2 (-20) <= bR d. Proof. split; [exact Fd|exact d20]. Qed.
Lemma d0p : 0 < bR d <= 669 / 1000. Proof. lra. Qed.
Lemma D3 : detail_D r (bR d) <= 3. Proof. pose proof (D1' r Hg (bR d) d0p). lra. Qed.
Local Notation X := (@xf B (map x (seq 0 21))).
Local Notation kB := (AccEos.kB m X t).
Local Notation kR := (DetailThermo.dk New r (bR t)).
Local Notation fB f := (@dfield B dp_new kB X t d f).
Lemma T7' : 1 / 10000000 < bR t. Proof. lra. Qed.
Lemma got f : detail_field f -> fin (fB f) /\ Rabs (bR (fB f) - dvals New r f (bR t) (bR d)) <= 3 / 20000000000 * dfield_size f r (bR t) (bR d).
Proof. intros Hf. pose proof (fields m A x t d Hx Hs HTt Hdd' D3 f Hf) as Q. rewrite dprop_ok in Q; [exact Q|exact T7']. Qed.
Ltac R1 E := change (@fadd ArithR) with Rplus in E; change (@fsub ArithR) with Rminus in E; change (@fmul ArithR) with Rmult in E; change (@fdiv ArithR) with Rdiv in E; change (@fneg ArithR) with Ropp in E; change (@f1 ArithR) with 1 in E; change (@f2 ArithR) with 2 in E.
Lemma p_val : fin (fB PDpDt) /\ 84 / 100 * (bR d * RD) <= bR (fB PDpDt) <= 126 / 100 * (bR d * RD).
Proof.
  destruct (got PDpDt I) as [F E]. split; [exact F|]. pose proof (S11_le r Hg (bR t) (bR d) HT d0p) as S2. rewrite (dpdt_eq r Hg (bR t) (bR d) HT) in E. cbn [dfield_size] in E.
  pose proof (zt_range r Hg (bR t) (bR d) HT d0p) as Z1. pose proof (proj1 (zq_range r Hg (bR t) (bR d) HT d0p)) as Z2. rewrite SensDetail.Z_sum in Z2. fold (SensDetail.z0 r (bR t) (bR d)) in Z2.
  set (v := bR (fB PDpDt)) in *. set (z := SensDetail.z0 _ _ _) in *. set (w := SensDetail.zt _ _ _) in *. set (s := dsum 1 1 _ _ _) in *. pose proof Hd as Hd2. set (dd := bR d) in *. clearbody v z w s dd.
  change RD with RR in *. assert (PG : 0 < dd * RR) by lra. replace (RR * dd * (1 + z + w)) with (dd * RR * (1 + z + w)) in E by ring. set (g := dd * RR) in *. clearbody g.
  assert (8467 / 10000 * g <= g * (1 + z + w) <= 12555 / 10000 * g) by (split; rewrite (Rmult_comm g); apply Rmult_le_compat_r; lra).
  assert (g * (1 + s) <= g * 2) by (apply Rmult_le_compat_l; lra). set (y := g * (1 + z + w)) in *. set (q := g * (1 + s)) in *. clearbody y q. apply Rabs_le_inv in E. lra.
Qed.
Lemma v_val : fin (fB PCv) /\ 12 / 10 * RD <= bR (fB PCv) <= 6 * RD.
Proof.
  destruct (got PCv I) as [F E]. split; [exact F|]. destruct (K20 m A x t d Hx Hs HTt Hdd' D3) as (_ & _ & S1 & _). pose proof (S20_le r Hg (bR t) (bR d) HT d0p) as S2. pose proof (size2_le r Hg (bR t) (bR d) HT) as I2.
  set (v := bR (fB PCv)) in *. clearbody v. cbn [dvals dfield_size] in E. unfold qcv in E. R1 E.
  pose proof (GasProps.cv_zero x t d HT) as C. pose proof (cv_range r Hg (bR t) HT) as V. rewrite <- C in V. clear C. cbn [dpar] in E.
  set (a1 := @ar20 ArithR kR _) in *. set (s1 := dsum 2 0 _ _ _) in *. set (i2 := dideal_sum 2 _ _ _) in *.
  set (a0 := xf _ 2) in *. clearbody a0 a1 s1 i2. unfold RD in *. apply Rabs_le_inv in E. apply Rabs_le_inv in S1. lra.
Qed.
End P.

Section Run.
Variable m : Libm.
Hypothesis A : accurate m.
Local Notation B := (ArithB64 m).
Variables (x : nat -> b64) (t P : b64) (i : Z).
Local Notation r := (fun j => bR (x j)).
Hypothesis Hx : forall j, (j < 21)%nat -> fin (x j) /\ (bR (x j) = 0 \/ bpow radix2 (-50) <= bR (x j)).
Hypothesis Hg : natural_gas r.
Hypothesis Ht : fin t /\ 270 <= bR t <= 350.
Hypothesis HP : fin P /\ 1 / 10 <= bR P <= 1200.
Local Notation T := (bR t).
Local Notation d0 := (bR P / RR / T).
Let l : list (@op B) := [SetX (A := B) x; Poke (A := B) PT t; Poke (A := B) PP P].
Let s1 : @Detail B := set_d_p (P : @F B) (set_d_t (t : @F B) (@set_d_x B (map x (seq 0 21)) detail_fresh)).
Lemma lsep : separated (A := B) 0 (dasked (A := B) ((l ++ [Density (A := B) i]) ++ [Properties (A := B)])).
Proof.
  destruct (bsep1 m x t P i Hx (proj2 (proj2 Hg)) (HTt t (proj1 Ht) (proj2 Ht))) as [S1 S2]. cbn [l app dasked asked In] in *. split.
  - intros a b c e [[= <- <-]|[[= <- <-]|[]]] [[= <- <-]|[[= <- <-]|[]]]; split; now left.
  - intros a b H. apply S2. destruct H as [H|[H|[]]]; now left.
Qed.
Lemma start12 : bpow radix2 (-17) <= d0 <= 53455 / 100000.
Proof.
  destruct Ht as [_ RT]. destruct HP as [_ RP]. split; [apply (med_start (bR P) T ltac:(lra) RT)|]. assert (E : d0 * (RR * T) = bR P) by (field; lra).
  apply (Rmult_le_reg_r (RR * T)); [lra|]. rewrite E. lra.
Qed.
Lemma med_state_detail : exists s, @dexec B New [SetX (A := B) x; Poke (A := B) PT t; Poke (A := B) PP P; Density (A := B) i; Properties (A := B)]
    = Some (s, [OUnit; OUnit; OUnit; ODens (A := B) ROk; OUnit]) /\
  medium_state RR T (bR P) (bR (dread (A := B) PP s)) (fun k => dread (A := B) k s).
Proof.
  pose proof start12 as Q0. destruct Ht as [Ft RT]. destruct HP as [FP RP]. pose proof (bpow_gt_0 radix2 (-17)) as B0'.
  assert (S2 : 0 < 7 / 5 * d0 <= 1120 / 1000) by lra.
  destruct (med_bstep m A x t P i Hx (proj2 (proj2 Hg)) (HTt t Ft RT) FP) as (s & e & E1 & [Fx Ff] & Fd & Ep & Ed & Er & _).
  { lra. }
  { exact (proj2 (GasTight.D2_up r Hg (7 / 5 * d0) S2)). }
  { intros d Hd. pose proof (med_Z r Hg T RT d ltac:(lra)) as Q. lra. }
  { intros d Hd. pose proof (med_Z0 r Hg T RT d ltac:(lra)) as Q. lra. }
  { exact (med_top r Hg T RT (7 / 5 * d0) S2). }
  cbv zeta in *. set (d := dread (A := B) PD s) in *.
  assert (R1 : @dexec B New (l ++ [Density (A := B) i]) = Some (s, [OUnit; OUnit; OUnit] ++ [ODens (A := B) ROk])).
  { eapply (@dexec_app B); [exact (tbrun1 m x t P)|]. cbn [drun]. match goal with |- context [@dstep ?a ?b ?c] => assert (EL : @dstep a b c = Some (s, ODens (A := B) ROk)) by exact E1; rewrite EL end. reflexivity. }
  assert (X21 : d_x s = map x (seq 0 21)) by (rewrite Fx; reflexivity).
  assert (Et : dread (A := B) PT s = t) by (rewrite Ff by (cbn; intuition discriminate); reflexivity).
  destruct (dprops_run m _ s _ x R1 lsep X21) as (s' & E' & Et' & Ed' & Hf). cbv zeta in Hf. rewrite Et in *. fold d in Ed', Hf.
  assert (Rd : / 262144 <= bR d <= 669 / 1000).
  { replace (bpow radix2 (-17)) with (/ 131072) in Q0 by (cbn; lra). apply Rabs_le_inv in Ed. set (dd0 := bR P / RR / T) in *. clearbody dd0. clear - Q0 Ed Er. lra. }
  assert (R2 : @dexec B New ((l ++ [Density (A := B) i]) ++ [Properties (A := B)]) = Some (s', ([OUnit; OUnit; OUnit] ++ [ODens (A := B) ROk]) ++ [OUnit (A := B)])).
  { eapply (@dexec_app B); [exact R1|]. cbn [drun]. match goal with |- context [@dstep ?a ?b ?c] => assert (EL : @dstep a b c = Some (s', OUnit (A := B))) by exact E'; rewrite EL end. reflexivity. }
  exists s'. split; [exact R2|].
  assert (Hr : dreach (A := B) s) by (exists New; eexists; eexists; exact R1).
  destruct (drel m A s s' _ Hr E') as (G & Gp & _).
  { rewrite Et'. exact (HTt t Ft RT). }
  { rewrite Ed'. split; [exact Fd|]. split; [exact (d20 d Rd)|]. lra. }
  pose proof (p_val m A x t d Hx Hg Ft RT Fd Rd) as V3. pose proof (v_val m A x t d Hx Hg Ft RT Fd Rd) as V4. pose proof (GasProps.m_val m x t d Hx Hg Ft RT) as V5.
  pose proof (got m A x t d Hx Hg Ft RT Fd Rd) as V6.
  assert (V7 : forall f, detail_field f -> fin (dread (A := B) f s')) by (intros f Pf; rewrite Hf by (destruct f; try contradiction Pf; exact I); exact (proj1 (V6 f Pf))). clear V6.
  rewrite <- !Hf in V3, V4, V5 by exact I. clear Hf. change RD with RR in *.
  destruct V3 as [F3 V3]. destruct V4 as [F4 V4]. destruct V5 as [F5 V5].
  set (f k := dread (A := B) k s') in *.
  assert (ET : bR (f PT) = T) by (unfold f; now rewrite Et'). assert (ED : bR (f PD) = bR d) by (unfold f; now rewrite Ed').
  assert (PZQ : Rabs (bR (f PP) - bR P) <= 2 / 10000000 * bR P /\ (fin (f PZ) /\ 90 / 100 <= bR (f PZ) <= 103 / 100) /\ fin (f PDpDd) /\ 80 / 100 * (RR * T) <= bR (f PDpDd) <= 105 / 100 * (RR * T)).
  { pose proof (props_fields m A _ s _ R1 lsep) as PF. cbv zeta in PF. fold d in PF. rewrite Et in PF. rewrite X21 in PF.
    set (r' := fun j => bR (nth j (map x (seq 0 21)) B0)) in PF.
    assert (Xj : forall j, (j < 21)%nat -> nth j (map x (seq 0 21)) B0 = x j) by (exact (X_i m x)).
    assert (Er' : forall j, (j < 21)%nat -> r' j = bR (x j)) by (intros j Hj; unfold r'; now rewrite Xj).
    destruct PF as (s2 & E2 & _ & Pp & Fz & Pz & Fq & Pq).
    - intros j Hj. unfold r'. rewrite Xj by exact Hj. apply Hx, Hj.
    - change (99 / 100 <= tot 21 r' <= 101 / 100). rewrite (tot_ext 21 r' r) by exact Er'. apply Hg.
    - exact (HTt t Ft RT).
    - split; [exact Fd|exact (d20 d Rd)].
    - rewrite (D_ext r' r _ Er'). exact (D3 x d Hg Rd).
    - assert (ES : s2 = s') by congruence. subst s2. change (dread (A := ArithB64 m) PP s') with (f PP) in Pp. change (dread (A := ArithB64 m) PZ s') with (f PZ) in Fz, Pz. change (dread (A := ArithB64 m) PDpDd s') with (f PDpDd) in Fq, Pq. rewrite (p_ext r' r) in Pp by exact Er'.
      rewrite (slope_ext r' r) in Pq by exact Er'. rewrite (Derive_ext _ (detail_p r T)) in Pq by (intros; now apply p_ext).
      assert (ZE : detail_Z r' T (bR d) = detail_Z r T (bR d)).
      { apply (Rmult_eq_reg_l (bR d * RR * T)); [pose proof (p_ext r' r T (bR d) Er') as PX; unfold detail_p in PX; exact PX|]. apply Rgt_not_eq. apply Rmult_lt_0_compat; lra. }
      change (Rabs (bR (f PZ) - detail_Z r' T (bR d)) <= 3 / 20000000000 * detail_size r' T (bR d)) in Pz. rewrite ZE in Pz.
      change (Rabs (bR (f PP) - detail_p r T (bR d)) <= 3 / 20000000000 * (bR d * RR * T * detail_size r' T (bR d))) in Pp.
      assert (SZ : detail_size r' T (bR d) = 1 + dsum 0 1 r T (bR d)).
      { rewrite (AccAll2.S01 m x t d), (AccProof.s_eq m x t d). transitivity (dsize r' T (bR d)); [apply size_std|]. transitivity (dsize r T (bR d)); [now apply dsize_ext|]. symmetry. apply size_std. }
      rewrite SZ in Pp, Pz. pose proof (S01_le r Hg T (bR d) RT (d0p d Rd)) as S1. pose proof (zq_range r Hg T (bR d) RT (d0p d Rd)) as [ZR QR].
      assert (ST : slope_size r T (bR d) <= 8).
      { apply Rle_trans with (slope_top r T (bR d)); [apply slope_le_top; [lra|exact (D1' r Hg (bR d) (d0p d Rd))]|]. apply (med_top r Hg T RT). lra. }
      split; [|split].
      + apply Rabs_le_inv in Ep. clear Pz Pq ZR QR ST ZE Fz Fq.
        change (Rabs (bR (f PP) - detail_p r T (bR d)) <= 3 / 20000000000 * (bR d * RR * T * (1 + dsum 0 1 r T (bR d)))) in Pp.
        assert (PE : bR P = d0 * RR * T) by (field; lra). set (dd0 := bR P / RR / T) in *. clearbody dd0. set (sz := dsum 0 1 _ _ _) in *. set (pr := detail_p _ _ _) in *. set (fp := bR (f PP)) in *. clearbody sz pr fp.
        assert (Q : bR d * RR * T * (1 + sz) <= 2 * bR P).
        { apply Rabs_le_inv in Ed. rewrite PE. apply Rle_trans with (bR d * RR * T * (1349 / 1000)); [apply Rmult_le_compat_l; [apply Rmult_le_pos; lra|lra]|].
          replace (bR d * RR * T * (1349 / 1000)) with (RR * T * (bR d * (1349 / 1000))) by ring. replace (2 * (dd0 * RR * T)) with (RR * T * (2 * dd0)) by ring. apply Rmult_le_compat_l; lra. }
        apply Rabs_le_inv in Pp. apply Rabs_le. lra.
      + split; [exact Fz|]. apply Rabs_le_inv in Pz. lra.
      + split; [exact Fq|]. apply Rabs_le_inv in Pq. set (g := RR * T) in *. set (sl := slope_size _ _ _) in *. set (q := Derive _ _) in *. assert (G0 : 0 < g) by (unfold g; lra). clearbody g sl q.
        assert (g * sl <= g * 8) by (apply Rmult_le_compat_l; lra). lra. }
  destruct PZQ as (EP & [F1 V1] & F2 & V2).
  assert (Rd' : / 262144 <= bR (f PD) <= 67 / 100) by (rewrite ED; lra).
  assert (RT' : 270 <= bR (f PT) <= 350) by (rewrite ET; exact RT).
  assert (HG : 831 / 100 <= RR <= 832 / 100) by lra.
  change (84 / 100 * (bR d * RR) <= bR (f PDpDt) <= 126 / 100 * (bR d * RR)) in V3.
  change (12 / 10 * RR <= bR (f PCv) <= 6 * RR) in V4. change (143 / 10 <= bR (f PMM) <= 301 / 10) in V5.
  pose proof V2 as V2'. pose proof V3 as V3'. rewrite <- ET in V2'. rewrite <- ED in V3'.
  assert (W6 : fin (f PCp) /\ 671 / 1000 * RR <= bR (f PCp) - bR (f PCv) <= 1985 / 1000 * RR) by (eapply cp_val; eassumption). destruct W6 as [F6 V6].
  assert (F7 : fin (f PJt)) by (eapply (jt_val RR); eassumption).
  assert (W8 : fin (f PW) /\ 255 <= bR (f PW) <= 755) by (edestruct (w_val RR f) as (W1 & W2 & _); [eassumption..|]; now split). destruct W8 as [F8 V8].
  assert (W9 : fin (f PKappa) /\ 86 / 100 < bR (f PKappa) < 31 / 10) by (eapply (k_val RR); eassumption). destruct W9 as [F9 V9].
  unfold medium_state. cbv beta zeta. split; [|split; [exact ET|split; [exact EP|split; [exact V1|split; [|split; [exact V2|split; [|split; [exact V4|split; [lra|split; [exact V5|split; [exact V8|exact V9]]]]]]]]]]].
  - intros k. destruct k; try assumption; try (apply V7; exact I).
    + unfold f. rewrite Et'. exact Ft.
    + unfold f. rewrite Ed'. exact Fd.
    + destruct (Consistency.dconsistent s s' _ Hr E') as (_ & _ & Z & _). unfold f. change (fin (d_d2p_dtd s')). rewrite Z. reflexivity.
  - destruct (Gp (proj1 (MedDerived.pz' f F1 V1))) as [_ W]. rewrite Et', Ed' in W. change (dread (A := B) PP s') with (f PP) in W. change (dread (A := B) PZ s') with (f PZ) in W. rewrite ED.
    pose proof V1 as Z. assert (PE : bR P = d0 * RR * T) by (field; lra). set (dd0 := bR P / RR / T) in *. clearbody dd0. set (z := bR (f PZ)) in *. set (p := bR (f PP)) in *. clearbody z p.
    rewrite (Rabs_pos_eq z) in W by lra. assert (HD : 0 < bR d * (RR * T)) by (apply Rmult_lt_0_compat; lra). assert (H0 : 0 < dd0) by lra.
    rewrite PE in EP. replace (dd0 * RR * T) with (dd0 * (RR * T)) in EP by ring. set (g := RR * T) in *. assert (G0 : 0 < g) by (unfold g; lra). set (dd := bR d) in *. clearbody g dd.
    apply Rabs_le_inv in W. apply Rabs_le_inv in EP.
    assert (Y : (1 - 3 / 10000000) * dd0 <= dd * z <= (1 + 3 / 10000000) * dd0).
    { split; apply (Rmult_le_reg_r g); nra. }
    clear - Y Z H0. split; nra.
  - exact V3'.
Qed.
End Run.
Lemma med12_ok : let r j := bR (gas5 j) in
  (forall j, (j < 21)%nat -> fin (gas5 j) /\ (r j = 0 \/ bpow radix2 (-50) <= r j)) /\ natural_gas r /\
  (fin (bofZ 288) /\ 270 <= bR (bofZ 288) <= 350) /\ (fin (bofZ 1100) /\ 1 / 10 <= bR (bofZ 1100) <= 1200).
Proof. destruct gas5_ok as (H1 & H2 & H3 & _). repeat (split; [assumption|]). rewrite ofZ_R by reflexivity. split; [reflexivity|lra]. Qed.
