(* Relations between the fields that properties() reports, in double precision. *)
From Coq Require Import Reals ZArith List Bool Lra Lia Psatz.
From Coquelicot Require Import Coquelicot.
From Flocq Require Import Core BinarySingleNaN.
From Verif Require Import FArith Prelude Tab ArithB64 B64Lemmas ArithR SpecAcc SpecGerg SpecAllF SpecRel DetailTables DetailModel GergTables GergModel Api ApiSafe SpecGeneric Consistency
  GergThermo B64Err AccFold AccMix AccEos AccSlope GAccEos GAllIdeal.
Import ListNotations.
Local Open Scope R_scope.

Lemma tame_ap v : tame v -> ap 0 (-100) 100 v (bR v) (Rabs (bR v)).
Proof. intros [F R]. apply ap_exact; [exact F|now right]. Qed.
Lemma tame_pos v : tame v -> 0 < bR v -> ap 0 (-100) 100 v (bR v) (bR v).
Proof. intros H P. eapply ap_eq; [exact (tame_ap v H)|reflexivity|apply Rabs_pos_eq; lra]. Qed.
Lemma few k a b v x M : ap k a b v x M -> (0 <= k <= 90)%Z -> fin v /\ Rabs (bR v - x) <= 1 / 100000000000000 * M.
Proof.
  intros (F & E & _ & R) Hk. split; [exact F|]. eapply Rle_trans; [exact E|]. apply Rmult_le_compat_r; [exact (rng_ge0 _ _ _ R)|].
  apply Rle_trans with (90 * u64); [apply Rmult_le_compat_r; [apply Rlt_le, u_pos|apply IZR_le; lia]|rewrite u64_val; lra].
Qed.
Section R.
Variable m : Libm.
Hypothesis A : accurate m.
Local Notation B := (ArithB64 m).
Lemma powi2 v x a b : ap 3 a b v x (Rabs x) -> x <> 0 -> (-400 <= a)%Z -> (b <= 400)%Z -> ap 30 (2 * a) (2 * b) (lm_powi m v 2) (x ^ 2) (x ^ 2).
Proof.
  intros (F & E & _ & R) Hx Ha Hb. assert (0 < Rabs x) as Px by now apply Rabs_pos_lt.
  destruct R as [R|[R1 R2]]; [lra|]. rewrite <- (pow2_abs x). set (y := Rabs x) in *.
  assert (H : (1 - 3 * u64) * y <= Rabs (bR v) <= (1 + 3 * u64) * y).
  { pose proof (Rabs_triang_inv (bR v) x) as T1. pose proof (Rabs_triang_inv x (bR v)) as T2. rewrite Rabs_minus_sym in T2. unfold y in *. lra. }
  pose proof u_pos as U0. pose proof u_small as U1.
  assert (V1 : p2 (a - 1) <= Rabs (bR v)). { unfold Z.sub. rewrite bpow_plus. change (p2 (-(1))) with (/2). assert (1 / 2 * y <= (1 - 3 * u64) * y) by (apply Rmult_le_compat_r; lra). lra. }
  assert (V2 : Rabs (bR v) <= p2 (b + 1)). { rewrite bpow_plus. change (p2 1) with 2. assert ((1 + 3 * u64) * y <= 2 * y) by (apply Rmult_le_compat_r; lra). lra. }
  destruct A as (_ & A2 & _). destruct (A2 v 2%nat F ltac:(lia)) as [F2 E2].
  { right. unfold middle. rewrite <- RPow_abs. set (z := Rabs (bR v)) in *. assert (0 <= p2 (a - 1)) by apply bpow_ge_0. assert (0 <= z) by lra.
    assert (p2 (a - 1) * p2 (a - 1) <= z * z <= p2 (b + 1) * p2 (b + 1)) as Q by (split; apply Rmult_le_compat; lra).
    rewrite <- !bpow_plus in Q. replace (z ^ 2) with (z * z) by ring. split; [eapply Rle_trans; [|apply Q]|eapply Rle_trans; [apply Q|]]; apply bpow_le; lia. }
  change (Z.of_nat 2) with 2%Z in *. split; [exact F2|]. split; [|split; [rewrite Rabs_pos_eq by apply pow2_ge_0; lra|]].
  - rewrite <- RPow_abs in E2. rewrite <- (pow2_abs (bR v)) in E2. set (z := Rabs (bR v)) in *. replace (p2 (-50)) with (8 * u64) in E2 by (change (-50)%Z with (3 + -53)%Z; rewrite bpow_plus; reflexivity).
    assert (Z0 : 0 <= z) by (unfold z; apply Rabs_pos).
    assert (Q : Rabs (z ^ 2 - y ^ 2) <= 7 * u64 * y ^ 2).
    { replace (z ^ 2 - y ^ 2) with ((z - y) * (z + y)) by ring. rewrite Rabs_mult, (Rabs_pos_eq (z + y)) by lra.
      assert (Rabs (z - y) <= 3 * u64 * y) as Q1 by (apply Rabs_le; lra).
      assert (z + y <= (2 + 3 * u64) * y) by lra. assert (3 * u64 <= 1 / 10) by lra.
      assert ((2 + 3 * u64) * y <= 21 / 10 * y) by (apply Rmult_le_compat_r; lra).
      apply Rle_trans with ((3 * u64 * y) * (21 / 10 * y)).
      - apply Rmult_le_compat; [apply Rabs_pos| |exact Q1|lra]. lra.
      - assert (0 <= u64 * (y * y)) by (apply Rmult_le_pos; [lra|apply Rlt_le, Rmult_lt_0_compat; lra]). nra. }
    assert (0 < y ^ 2) by (apply pow_lt; lra). assert (Q' := Q). apply Rabs_le_inv in Q'.
    assert (z ^ 2 <= 2 * y ^ 2). { assert (7 * u64 * y ^ 2 <= 1 * y ^ 2) by (apply Rmult_le_compat_r; lra). lra. }
    assert (8 * u64 * z ^ 2 <= 8 * u64 * (2 * y ^ 2)) by (apply Rmult_le_compat_l; lra).
    replace (bR (lm_powi m v 2) - y ^ 2) with ((bR (lm_powi m v 2) - z ^ 2) + (z ^ 2 - y ^ 2)) by ring.
    eapply Rle_trans; [apply Rabs_triang|]. assert (0 <= u64 * y ^ 2) by (apply Rmult_le_pos; lra). lra.
  - right. replace (y ^ 2) with (y * y) by ring. replace (2 * a)%Z with (a + a)%Z by lia. replace (2 * b)%Z with (b + b)%Z by lia. rewrite !bpow_plus.
    pose proof (bpow_ge_0 radix2 a). split; apply Rmult_le_compat; lra.
Qed.
(* the gas constant of the variant *)
Variables (g : b64) (G : R).
Hypothesis HG : ap 1 3 4 g G G.
Hypothesis G0 : 0 < G.
Variables (T d cv cp q pt z mm w : b64).
Hypothesis HT : fin T /\ p2 5 <= bR T <= p2 11.
Hypothesis Hd : fin d /\ p2 (-20) <= bR d <= p2 10.
Local Notation t := (bR T).
Lemma tpos : 0 < t. Proof. eapply Rlt_le_trans; [|apply HT]. apply bpow_gt_0. Qed.
Lemma dpos : 0 < bR d. Proof. eapply Rlt_le_trans; [|apply Hd]. apply bpow_gt_0. Qed.
Lemma at0 : ap 0 5 11 T t t.
Proof. eapply ap_eq; [apply ap_exact; [apply HT|right; rewrite Rabs_pos_eq; [apply HT|apply Rlt_le, tpos]]|reflexivity|apply Rabs_pos_eq, Rlt_le, tpos]. Qed.
Lemma ad0 : ap 0 (-20) 10 d (bR d) (bR d).
Proof. eapply ap_eq; [apply ap_exact; [apply Hd|right; rewrite Rabs_pos_eq; [apply Hd|apply Rlt_le, dpos]]|reflexivity|apply Rabs_pos_eq, Rlt_le, dpos]. Qed.
Lemma gt0 : ap 4 8 15 (bmul g T) (G * t) (G * t).
Proof. eapply ap_weak; [eapply ap_mul; [exact HG|exact at0|zc|zc|zc|zc]|zc|zc|zc]. Qed.
Lemma eps_lt : Bltb (blit (L 1 (-15))) d = true.
Proof.
  destruct Hd as [Fd [H1 _]]. change (p2 (-20)) with (/ 1048576) in H1.
  destruct (lit_err (L 1 (-15)) (-50) (-49) eq_refl ltac:(zc)) as [L1 L2].
  change (Rlit (L 1 (-15))) with (@GEPSILON ArithR) in L2; rewrite glit15 in L2. rewrite (Rabs_pos_eq (1 / 1000000000000000)) in L2 by lra. apply Rabs_le_inv in L2.
  pose proof u_small. rewrite lt_fin by assumption. apply Rlt_bool_true. lra.
Qed.
Local Notation "x 'is' y 'of' M" := (fin x /\ Rabs (bR x - y) <= 1 / 100000000000000 * M) (at level 70, y at level 60, M at level 60).
(* pressure *)
Lemma r_p : tame z -> bmul (bmul d (bmul g T)) z is (bR d * (G * t) * bR z) of (bR d * (G * t) * Rabs (bR z)).
Proof. intros Hz. eapply (few 20). 2: lia. eapply ap_weak; [eapply ap_mul; [eapply ap_mul; [exact ad0|exact gt0|zc|zc|zc|zc]|exact (tame_ap _ Hz)|zc|zc|zc|zc]|zc|apply Z.le_refl|apply Z.le_refl]. Qed.
Lemma r_h (u p : b64) : tame u -> tame p -> badd u (bdiv p d) is (bR u + bR p / bR d) of (Rabs (bR u) + Rabs (bR p) / bR d).
Proof.
  intros Hu Hp. eapply (few 20). 2: lia.
  eapply ap_weak; [eapply apA; [exact (tame_ap _ Hu)|eapply ap_div; [exact (tame_ap _ Hp)|exact ad0|exact dpos|zc|zc|zc|zc]|zc|zc|zc]|zc|apply Z.le_refl|apply Z.le_refl].
Qed.
Hypothesis Hq : tame q /\ 0 < bR q.
Hypothesis Hpt : tame pt.
Lemma qpos : 0 < bR q. Proof. apply Hq. Qed.
Lemma adp0 : ap 3 (-111) 121 (bdiv pt d) (bR pt / bR d) (Rabs (bR pt) / bR d).
Proof. eapply ap_weak; [eapply ap_div; [exact (tame_ap _ Hpt)|exact ad0|exact dpos|zc|zc|zc|zc]|zc|zc|zc]. Qed.
Lemma absd : Rabs (bR pt) / bR d = Rabs (bR pt / bR d).
Proof. rewrite Rabs_div by (pose proof dpos; lra). now rewrite (Rabs_pos_eq (bR d)) by (pose proof dpos; lra). Qed.
Lemma term_g : ap 15 (-340) 365 (bdiv (bmul (bmul T (bdiv pt d)) (bdiv pt d)) q) (t * (bR pt / bR d) ^ 2 / bR q) (t * (bR pt / bR d) ^ 2 / bR q).
Proof.
  eapply ap_eq; [eapply ap_weak; [eapply ap_div; [eapply ap_mul; [eapply ap_mul; [exact at0|exact adp0|zc|zc|zc|zc]|exact adp0|zc|zc|zc|zc]|exact (tame_pos _ (proj1 Hq) (proj2 Hq))|exact qpos|zc|zc|zc|zc]|zc|zc|zc]| |].
  - f_equal. ring.
  - f_equal. rewrite absd. rewrite Rmult_assoc, <- Rabs_mult. rewrite (Rabs_pos_eq (_ * _)) by (pose proof (pow2_ge_0 (bR pt / bR d)); lra). ring.
Qed.
Lemma ptn : bR pt <> 0.
Proof. destruct Hpt as [_ [H _]]. intros E. rewrite E, Rabs_R0 in H. pose proof (bpow_gt_0 radix2 (-100)). change (IZR radix2) with 2 in *. lra. Qed.
Lemma term_d : ap 60 (-340) 365 (bdiv (bmul T (lm_powi m (bdiv pt d) 2)) q) (t * (bR pt / bR d) ^ 2 / bR q) (t * (bR pt / bR d) ^ 2 / bR q).
Proof.
  pose proof adp0 as Q. rewrite absd in Q. pose proof dpos. pose proof ptn.
  apply powi2 in Q; [|unfold Rdiv; apply Rmult_integral_contrapositive; split; [assumption|apply Rinv_neq_0_compat; lra]|lia|lia].
  eapply ap_weak; [eapply ap_div; [eapply ap_mul; [exact at0|exact Q|zc|zc|zc|zc]|exact (tame_pos _ (proj1 Hq) (proj2 Hq))|exact qpos|zc|zc|zc|zc]|zc|zc|zc].
Qed.
Lemma r_cp k v : (0 <= k <= 60)%Z -> ap k (-340) 365 v (t * (bR pt / bR d) ^ 2 / bR q) (t * (bR pt / bR d) ^ 2 / bR q) -> tame cv ->
  badd cv v is (bR cv + t * (bR pt / bR d) ^ 2 / bR q) of (Rabs (bR cv) + t * (bR pt / bR d) ^ 2 / bR q).
Proof. intros Hk Q Hcv. eapply (few 70). 2: lia. eapply ap_weak; [eapply apA; [exact (tame_ap _ Hcv)|eapply ap_weak; [exact Q|apply Hk|apply Z.le_refl|apply Z.le_refl]|zc|zc|zc]|zc|apply Z.le_refl|apply Z.le_refl]. Qed.
Hypothesis Hcp : tame cp /\ 0 < bR cp.
Lemma r_jt : bdiv (bdiv (bsub (bdiv (bmul (bdiv T d) pt) q) (@f1 B)) cp) d is ((t / bR d * bR pt / bR q - 1) / bR cp / bR d) of ((t / bR d * Rabs (bR pt) / bR q + 1) / bR cp / bR d).
Proof.
  destruct Hcp as [Hc P]. eapply (few 40). 2: lia.
  eapply ap_weak; [eapply ap_div; [eapply ap_div; [eapply apS; [eapply ap_div; [eapply ap_mul; [eapply ap_div; [exact at0|exact ad0|exact dpos|zc|zc|zc|zc]|exact (tame_ap _ Hpt)|zc|zc|zc|zc]|exact (tame_pos _ (proj1 Hq) (proj2 Hq))|exact qpos|zc|zc|zc|zc]|
    exact (a1 m)|zc|zc|zc]|exact (tame_pos _ Hc P)|exact P|zc|zc|zc|zc]|exact ad0|exact dpos|zc|zc|zc|zc]|zc|apply Z.le_refl|apply Z.le_refl].
Qed.
Lemma a1000 : ap 1 9 10 (@flit B (L 1000 0)) 1000 1000.
Proof. eapply ap_eq; [apply (ap_inok (L 1000 0) 9 10); [reflexivity|zc]|reflexivity|reflexivity]. Qed.
Hypothesis Hcv : tame cv /\ 0 < bR cv.
Hypothesis Hmm : tame mm /\ 0 < bR mm.
Local Notation W2 := (1000 * bR cp / bR cv * bR q / bR mm).
Local Notation Wv := (bdiv (bmul (bdiv (bmul (blit (L 1000 0)) cp) cv) q) mm).
Lemma w2pos : 0 < W2.
Proof.
  destruct Hcp as [C1 C2], Hcv as [V1 V2], Hmm as [M1 M2], Hq as [Q1 Q2].
  apply Rdiv_lt_0_compat; [apply Rmult_lt_0_compat; [apply Rdiv_lt_0_compat; [apply Rmult_lt_0_compat|]|]|]; lra.
Qed.
Lemma aw : ap 20 (-250) 250 (bsqrt (if Bltb Wv B0 then B0 else Wv)) (sqrt W2) (sqrt W2).
Proof.
  pose proof w2pos as P. destruct Hcp as [C1 C2], Hcv as [V1 V2], Hmm as [M1 M2], Hq as [Q1 Q2].
  assert (Q : ap 13 (-400) 420 Wv W2 W2).
  { eapply ap_weak; [eapply ap_div; [eapply ap_mul; [eapply ap_div; [eapply ap_mul; [exact a1000|exact (tame_pos _ C1 C2)|zc|zc|zc|zc]|exact (tame_pos _ V1 V2)|exact V2|zc|zc|zc|zc]|exact (tame_pos _ Q1 Q2)|zc|zc|zc|zc]|exact (tame_pos _ M1 M2)|exact M2|zc|zc|zc|zc]|zc|zc|zc]. }
  set (W := Wv) in *. clearbody W.
  destruct (rel_of _ _ _ _ _ Q P ltac:(zc)) as (F & _ & _ & _ & Wp).
  assert (Bltb W B0 = false) as -> by (rewrite lt_fin by (reflexivity || exact F); apply Rlt_bool_false; change (bR B0) with 0; lra).
  eapply ap_weak; [eapply (ap_sqrt _ _ _ _ _ (-250) 250); [exact Q|exact P|zc|zc|zc|zc]|zc|zc|zc].
Qed.
Lemma r_w : bsqrt (if Bltb Wv B0 then B0 else Wv) is (sqrt W2) of (sqrt W2).
Proof. eapply few; [exact aw|zc]. Qed.
Hypothesis Hz : tame z /\ 0 < bR z.
Hypothesis Hw : w = bsqrt (if Bltb Wv B0 then B0 else Wv).
Lemma aw0 : ap 0 (-251) 251 w (bR w) (bR w) /\ 0 < bR w.
Proof.
  pose proof aw as W. rewrite <- Hw in W.
  assert (Sp : 0 < sqrt W2) by (apply sqrt_lt_R0, w2pos).
  destruct (rel_of _ _ _ _ _ W Sp ltac:(zc)) as (F & E & Rg' & Ku & Wp). apply Rabs_le_inv in E. split; [|exact Wp].
  eapply ap_eq; [apply ap_exact; [exact F|]|reflexivity|]; rewrite Rabs_pos_eq by lra; [|reflexivity]. right.
  set (s := sqrt _) in *. assert (IZR 20 * u64 * s <= 1 / 2 * s) by (apply Rmult_le_compat_r; lra).
  change (-251)%Z with (-1 + -250)%Z. change 251%Z with (1 + 250)%Z. rewrite !bpow_plus. change (p2 (-1)) with (/ 2). change (p2 1) with 2. lra.
Qed.
Lemma sq_d : ap 12 (-502) 502 (bmul w w) (bR w ^ 2) (bR w ^ 2).
Proof. destruct aw0 as [W _]. eapply ap_eq; [eapply ap_weak; [eapply ap_mul; [exact W|exact W|zc|zc|zc|zc]|zc|zc|zc]|ring|ring]. Qed.
Lemma sq_g : ap 12 (-502) 502 (lm_powi m w 2) (bR w ^ 2) (bR w ^ 2).
Proof.
  destruct aw0 as [W' Wp]. change 2%Z with (Z.of_nat 2).
  eapply ap_weak; [eapply (ap_powi m A 2 0 _ _ w (bR w) 2 (-502) 502); [lia|exact W'|lra|zc|lia|zc|change (-502)%Z with (Z.of_nat 2 * -251)%Z; change 502%Z with (Z.of_nat 2 * 251)%Z; apply rng_pow; [apply W'|lia]|lia|lia]|zc|zc|zc].
Qed.
Lemma r_kappa v : ap 12 (-502) 502 v (bR w ^ 2) (bR w ^ 2) ->
  bdiv (bmul v mm) (bmul (bmul (bmul g T) (blit (L 1000 0))) z) is (bR w ^ 2 * bR mm / (G * t * 1000 * bR z)) of (bR w ^ 2 * bR mm / (G * t * 1000 * bR z)).
Proof.
  intros Q1. destruct Hmm as [M1 M2], Hz as [Z1 Z2]. pose proof tpos as T0.
  assert (R0 : 0 < G * t) by (apply Rmult_lt_0_compat; assumption).
  eapply (few 60). 2: lia.
  eapply ap_weak; [eapply ap_div; [eapply ap_mul; [exact Q1|exact (tame_pos _ M1 M2)|zc|zc|zc|zc]|eapply ap_mul; [eapply ap_mul; [exact gt0|exact a1000|zc|zc|zc|zc]|exact (tame_pos _ Z1 Z2)|zc|zc|zc|zc]|
    apply Rmult_lt_0_compat; [|exact Z2]; lra|zc|zc|zc|zc]|zc|apply Z.le_refl|apply Z.le_refl].
Qed.
End R.
Lemma RRpos : 0 < 831451 / 100000. Proof. lra. Qed.
Lemma Rgpos : 0 < Rg. Proof. unfold Rg. lra. Qed.
Section Api.
Variable m : Libm.
Hypothesis A : accurate m.
Local Notation B := (ArithB64 m).
Lemma drel (s s' : @Detail B) r : dreach (A := B) s -> dstep (A := B) Properties s = Some (s', r) ->
  let f k := dread (A := B) k s' in
  fin (f PT) /\ 32 <= bR (f PT) <= 2048 -> fin (f PD) /\ bpow radix2 (-20) <= bR (f PD) <= 1024 ->
  relations (831451 / 100000) f /\
  (tame (f PZ) -> within (f PP) (bR (f PD) * (831451 / 100000 * bR (f PT)) * bR (f PZ)) (bR (f PD) * (831451 / 100000 * bR (f PT)) * Rabs (bR (f PZ)))) /\
  (tame (f PU) -> tame (f PP) -> within (f PH) (bR (f PU) + bR (f PP) / bR (f PD)) (Rabs (bR (f PU)) + Rabs (bR (f PP)) / bR (f PD))).
Proof.
  intros H E f HT Hd. pose proof (dconsistent (A := B) s s' r H E) as C. cbv zeta in C.
  pose proof (eps_lt (d_d s') Hd) as EL. change (@flt B (@EPSILON B) (d_d s')) with (Bltb (blit (L 1 (-15))) (d_d s')) in C. rewrite EL in C.
  destruct C as (Ep & _ & _ & Eh & Ec & Ej & Ew & Ek). pose proof (aR m) as HG. pose proof RRpos as HP.
  split; [split; [|split; [|split]]|split].
  - intros C1 P1 Q1. unfold within. change (f PCp) with (d_cp s'). rewrite Ec.
    exact (r_cp (d_t s') (d_d s') (d_cv s') (d_dp_dd s') (d_dp_dt s') 60 _ ltac:(lia) (term_d m A (d_t s') (d_d s') (d_dp_dd s') (d_dp_dt s') HT Hd Q1 P1) C1).
  - intros C1 P1 Q1. unfold within. change (f PJt) with (d_jt s'). rewrite Ej. exact (r_jt m (d_t s') (d_d s') (d_cp s') (d_dp_dd s') (d_dp_dt s') HT Hd Q1 P1 C1).
  - intros C1 C2 Q1 M1 c. unfold within. change (f PW) with (d_w s'). rewrite Ew. exact (r_w m (d_cv s') (d_cp s') (d_dp_dd s') (d_mm s') Q1 C1 C2 M1).
  - intros C1 C2 Q1 M1 Z1 k. unfold within. change (f PKappa) with (d_kappa s'). rewrite Ek.
    exact (r_kappa m _ _ HG HP (d_t s') (d_z s') (d_mm s') (d_w s') HT M1 Z1 _ (sq_d m (d_cv s') (d_cp s') (d_dp_dd s') (d_mm s') (d_w s') Q1 C1 C2 M1 Ew)).
  - intros Z1. unfold within. change (f PP) with (d_p s'). rewrite Ep. exact (r_p _ _ HG (d_t s') (d_d s') (d_z s') HT Hd Z1).
  - intros U1 P1. unfold within. change (f PH) with (d_h s'). rewrite Eh. exact (r_h (d_d s') Hd (d_u s') (d_p s') U1 P1).
Qed.
Lemma grel (s s' : @Gerg B) r : greach (A := B) s -> gstep (A := B) Properties s = Some (s', r) ->
  let f k := gread (A := B) k s' in
  fin (f PT) /\ 32 <= bR (f PT) <= 2048 -> fin (f PD) /\ bpow radix2 (-20) <= bR (f PD) <= 1024 ->
  relations Rg f /\
  (tame (f PZ) -> exists p, r = OVal (A := B) p /\ within p (bR (f PD) * (Rg * bR (f PT)) * bR (f PZ)) (bR (f PD) * (Rg * bR (f PT)) * Rabs (bR (f PZ)))).
Proof.
  intros H E f HT Hd. pose proof (gconsistent (A := B) s s' r H E) as C. cbv zeta in C.
  pose proof (eps_lt (g_d s') Hd) as EL. change (@flt B (@GEPSILON B) (g_d s')) with (Bltb (blit (L 1 (-15))) (g_d s')) in C. rewrite EL in C.
  destruct C as (Ep & _ & Ec & Ej & Ew & Ek). pose proof (aRG m) as HG. pose proof Rgpos as HP.
  split; [split; [|split; [|split]]|].
  - intros C1 P1 Q1. unfold within. change (f PCp) with (g_cp s'). rewrite Ec.
    exact (r_cp (g_t s') (g_d s') (g_cv s') (g_dp_dd s') (g_dp_dt s') 15 _ ltac:(lia) (term_g (g_t s') (g_d s') (g_dp_dd s') (g_dp_dt s') HT Hd Q1 P1) C1).
  - intros C1 P1 Q1. unfold within. change (f PJt) with (g_jt s'). rewrite Ej. exact (r_jt m (g_t s') (g_d s') (g_cp s') (g_dp_dd s') (g_dp_dt s') HT Hd Q1 P1 C1).
  - intros C1 C2 Q1 M1 c. unfold within. change (f PW) with (g_w s'). rewrite Ew. exact (r_w m (g_cv s') (g_cp s') (g_dp_dd s') (g_mm s') Q1 C1 C2 M1).
  - intros C1 C2 Q1 M1 Z1 k. unfold within. change (f PKappa) with (g_kappa s'). rewrite Ek.
    exact (r_kappa m _ _ HG HP (g_t s') (g_z s') (g_mm s') (g_w s') HT M1 Z1 _ (sq_g m A (g_cv s') (g_cp s') (g_dp_dd s') (g_mm s') (g_w s') Q1 C1 C2 M1 Ew)).
  - intros Z1. exists (bmul (bmul (g_d s') (bmul (@RGERG B) (g_t s'))) (g_z s')). split; [exact Ep|]. exact (r_p _ _ HG (g_t s') (g_d s') (g_z s') HT Hd Z1).
Qed.
End Api.
