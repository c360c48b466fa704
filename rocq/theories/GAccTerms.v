(* Error analysis of the terms of the GERG equation of state in double precision. *)
From Coq Require Import Reals ZArith List Bool Lra Lia Psatz.
From Flocq Require Import Core BinarySingleNaN.
From Interval Require Import Tactic.
From Verif Require Import FArith Prelude Tab ArithB64 B64Lemmas ArithR RSum SpecDetail SpecGerg SpecAcc DetailPure GergTables GergModel GergPure GergRefine Api ApiSafe BasicProofs HistoryGerg SpecReal Thermo DetailReal DetailThermo GergReal GergIdeal GergThermo
  DetailEos GergEos B64Err AccFold AccMix AccEos GAccRed.
Import ListNotations.

(* the list of terms *)
Inductive desc := DP (i k : nat) | DE (i k : nat) | DM (i j k : nat) | DX (i j k : nat).
Definition dpure (a : nat -> bool) (i : nat) : list desc :=
  if a i then map (DP i) (seq 1 (kpol i)) ++ map (DE i) (seq (1 + kpol i) (kexp i)) else [].
Definition dmix (a : nat -> bool) (i j : nat) : list desc :=
  if a j then if Nat.ltb 0 (mnumb i j) then map (DM i j) (seq 1 (kpolij (mnumb i j))) ++ map (DX i j) (seq (1 + kpolij (mnumb i j)) (kexpij (mnumb i j))) else []
  else [].
Definition drow (a : nat -> bool) (i : nat) : list desc := if a i then flat_map (dmix a i) (seq (i + 1) (21 - i)) else [].
Definition descs (a : nat -> bool) : list desc := flat_map (dpure a) (seq 1 21) ++ flat_map (drow a) (seq 1 20).
Lemma map_flat {S T U} (f : T -> U) (g : S -> list T) l : map f (flat_map g l) = flat_map (fun s => map f (g s)) l.
Proof. induction l as [|s l IH]; [reflexivity|]. cbn [flat_map]. now rewrite map_app, IH. Qed.
Section Den.
Context {A : Arith} {P : GParams}.
Definition den (X : nat -> F) del lntau TP TM (u : desc) : nat -> F :=
  match u with
  | DP i k => pterm X del TP i k | DE i k => eterm X del TP i k
  | DM i j k => mpterm X del TM i j (mnumb i j) k | DX i j k => meterm X del lntau i j (mnumb i j) k
  end.
Lemma gterms_den X del lntau TP TM : gterms X del lntau TP TM = map (den X del lntau TP TM) (descs (fun i => act (X i))).
Proof.
  unfold gterms, descs. rewrite map_app, !map_flat. apply f_equal2; apply flat_map_ext; intros i.
  - unfold pure_terms, dpure. destruct (act (X i)); [|reflexivity]. now rewrite map_app, !map_map.
  - unfold mixrow, drow. destruct (act (X i)); [|reflexivity]. rewrite map_flat. apply flat_map_ext. intros j.
    unfold mix_terms, dmix. destruct (act (X j)); [|reflexivity]. cbv zeta. destruct (Nat.ltb 0 (mnumb i j)); [|reflexivity]. now rewrite map_app, !map_map.
Qed.
Definition tpow (lntau : F) (i k : nat) : F := fmul (lv2 G_NOIK i k) (fexp (fmul (q_toik (if short_form i then 5%nat else i) k) lntau)).
Definition tmow (lntau : F) (m k : nat) : F := fmul (q_nijk m k) (fexp (fmul (q_tijk m k) lntau)).
Lemma arS_descs X del lntau TP TM e : arS (gterms X del lntau TP TM) e
  = fold_left (fun s u => fadd s (den X del lntau TP TM u e)) (descs (fun i => act (X i))) f0.
Proof. unfold arS. rewrite gterms_den. generalize f0 as s. generalize (descs (fun i => act (X i))) as l. induction l as [|u l IH]; intros s; [reflexivity|]. cbn [map fold_left]. apply IH. Qed.
End Den.
Definition okd (u : desc) : Prop :=
  match u with
  | DP i k => (1 <= i < 22)%nat /\ (1 <= k <= kpol i)%nat
  | DE i k => (1 <= i < 22)%nat /\ (kpol i < k <= kpol i + kexp i)%nat
  | DM i j k => (1 <= i < j)%nat /\ (j < 22)%nat /\ (0 < mnumb i j)%nat /\ (1 <= k <= kpolij (mnumb i j))%nat
  | DX i j k => (1 <= i < j)%nat /\ (j < 22)%nat /\ (0 < mnumb i j)%nat /\ (kpolij (mnumb i j) < k <= kpolij (mnumb i j) + kexpij (mnumb i j))%nat
  end.
Lemma descs_ok a u : In u (descs a) -> okd u.
Proof.
  intros H. apply in_app_or in H. destruct H as [H|H]; apply in_flat_map in H; destruct H as (i & Hi & H); apply in_seq in Hi.
  - unfold dpure in H. destruct (a i); [|destruct H]. apply in_app_or in H.
    destruct H as [H|H]; apply in_map_iff in H; destruct H as (k & <- & Hk); apply in_seq in Hk; unfold okd; lia.
  - unfold drow in H. destruct (a i); [|destruct H]. apply in_flat_map in H. destruct H as (j & Hj & H). apply in_seq in Hj.
    unfold dmix in H. destruct (a j); [|destruct H]. destruct (Nat.ltb_spec 0 (mnumb i j)) as [Hm|Hm]; [|destruct H]. apply in_app_or in H.
    destruct H as [H|H]; apply in_map_iff in H; destruct H as (k & <- & Hk); apply in_seq in Hk; unfold okd; lia.
Qed.
Lemma flat_len {S T} (g : S -> list T) (c : S -> nat) l : (forall s, In s l -> (length (g s) <= c s)%nat) -> (length (flat_map g l) <= list_sum (map c l))%nat.
Proof.
  induction l as [|s l IH]; intros H; [cbn; lia|]. cbn [flat_map map list_sum fold_right]. rewrite app_length.
  pose proof (H s (or_introl eq_refl)). pose proof (IH (fun s' h => H s' (or_intror h))). unfold list_sum in *. cbn [fold_right]. lia.
Qed.
Lemma descs_len a : (length (descs a) <= 436)%nat.
Proof.
  unfold descs. rewrite app_length.
  assert (length (flat_map (dpure a) (seq 1 21)) <= 304)%nat as H1.
  { change 304%nat with (list_sum (map (fun i => kpol i + kexp i)%nat (seq 1 21))). apply flat_len. intros i _. unfold dpure.
    destruct (a i); [|cbn; lia]. now rewrite app_length, !map_length, !seq_length. }
  assert (length (flat_map (drow a) (seq 1 20)) <= 132)%nat as H2.
  { change 132%nat with (list_sum (map (fun i => list_sum (map (fun j => if Nat.ltb 0 (mnumb i j) then kpolij (mnumb i j) + kexpij (mnumb i j) else 0)%nat (seq (i + 1) (21 - i)))) (seq 1 20))).
    apply flat_len. intros i _. unfold drow. destruct (a i); [|cbn; lia]. apply flat_len. intros j _. unfold dmix.
    destruct (a j); [|cbn; lia]. destruct (Nat.ltb 0 (mnumb i j)); [|cbn; lia]. now rewrite app_length, !map_length, !seq_length. }
  lia.
Qed.

Local Open Scope R_scope.
Local Existing Instance gp_new.
(* exponents *)
Definition ilist : list (nat * nat) := flat_map (fun i => map (pair i) (seq 1 (kpol i + kexp i))) (seq 1 21).
Lemma in_ilist i k : (1 <= i < 22)%nat -> (1 <= k <= kpol i + kexp i)%nat -> In (i, k) ilist.
Proof. intros Hi Hk. apply in_flat_map. exists i. split; [apply in_seq; lia|]. apply in_map. apply in_seq. lia. Qed.
Definition tsmall (l : lit) : bool := inok (-4) 5 l && match l with L m e => ((e <=? 0) && (m <=? 30 * 10 ^ (- e)))%Z end.
Lemma tsmall_ok l : tsmall l = true -> inok (-4) 5 l = true /\ 0 <= Rlit l <= 30.
Proof.
  intros H. apply andb_true_iff in H. destruct H as [H1 H2]. split; [exact H1|]. apply andb_true_iff in H1. destruct H1 as [_ H1].
  pose proof (lnneg_ok _ H1). split; [exact H|]. destruct l as [n e]. apply andb_true_iff in H2. destruct H2 as [E1 E2].
  apply Z.leb_le in E1, E2. apply IZR_le in E2. rewrite mult_IZR in E2. cbn [Rlit]. destruct e as [|e|e]; [|lia|].
  - change (10 ^ - 0)%Z with 1%Z in E2. lra.
  - change (- Z.neg e)%Z with (Z.pos e) in E2. assert (0 < IZR (10 ^ Z.pos e)) as Hp by (apply IZR_lt; apply Z.pow_pos_nonneg; lia).
    apply Rmult_le_reg_r with (IZR (10 ^ Z.pos e)); [exact Hp|]. unfold Rdiv. rewrite Rmult_assoc, Rinv_l by lra. lra.
Qed.
Definition prow (p : nat * nat) : bool := let '(i, k) := p in
  (tsmall (nth k (nth (if short_form i then 5 else i)%nat G_TOIK []) (L 0 0)) && lit_in (-13) 3 (nth k (nth i G_NOIK []) (L 0 0))
   && Nat.leb 1 (nv2 G_DOIK i k) && Nat.leb (nv2 G_DOIK i k) 7 && Nat.leb (nv2 G_COIK i k) 6 && (Nat.leb k (kpol i) || Nat.leb 1 (nv2 G_COIK i k)))%bool.
Lemma prow_ok : forallb prow ilist = true. Proof. vm_compute. reflexivity. Qed.
Lemma prow_at i k : (1 <= i < 22)%nat -> (1 <= k <= kpol i + kexp i)%nat ->
  tsmall (nth k (nth (if short_form i then 5 else i)%nat G_TOIK []) (L 0 0)) = true /\ lit_in (-13) 3 (nth k (nth i G_NOIK []) (L 0 0)) = true /\
  (1 <= nv2 G_DOIK i k <= 7)%nat /\ (nv2 G_COIK i k <= 6)%nat /\ ((kpol i < k)%nat -> (1 <= nv2 G_COIK i k)%nat).
Proof.
  intros Hi Hk. pose proof (proj1 (forallb_forall prow ilist) prow_ok (i, k) (in_ilist i k Hi Hk)) as H. unfold prow in H.
  apply andb_true_iff in H. destruct H as [H H6]. apply andb_true_iff in H. destruct H as [H H5]. apply andb_true_iff in H. destruct H as [H H4].
  apply andb_true_iff in H. destruct H as [H H3]. apply andb_true_iff in H. destruct H as [H1 H2].
  apply Nat.leb_le in H3, H4, H5. apply orb_true_iff in H6. rewrite !Nat.leb_le in H6. repeat split; trivial; lia.
Qed.
Lemma dijk_chk : forallb (forallb (fun n => Nat.leb n 7)) G_DIJK = true. Proof. reflexivity. Qed.
Lemma aval_lit l (Q : lit -> bool) i j : forallb (fun e => Q (snd e)) l = true -> Q (L 0 0) = true ->
  exists v, Q v = true /\ forall A : Arith, @aval A l i j f0 = flit v.
Proof.
  intros H H0. unfold aval, alookup.
  assert (G : forall o, match o with Some v => Q v = true | None => True end ->
      match fold_left (fun o e => if (Nat.eqb i (fst (fst e)) && Nat.eqb j (snd (fst e)))%bool then Some (snd e) else o) l o with
              | Some v => Q v = true | None => True end).
  { induction l as [|e l IH]; intros o Ho; [exact Ho|]. cbn [forallb fold_left] in *. apply andb_true_iff in H. destruct H as [H1 H2].
    apply IH; [exact H2|]. destruct (_ && _)%bool; [exact H1|exact Ho]. }
  specialize (G None I). destruct (fold_left _ l None) as [v|]; [exists v; now split|exists (L 0 0); now split].
Qed.
Definition mtok (l : lit) : bool := lit_in (-5) 3 l && (lnneg l || match l with L m e => (m =? -1)%Z && (e =? 0)%Z end).
Lemma mtok_ok l : mtok l = true -> lit_in (-5) 3 l = true /\ -1 <= Rlit l <= 8.
Proof.
  intros H. apply andb_true_iff in H. destruct H as [H1 H2]. split; [exact H1|].
  pose proof (lit_in_ok _ _ _ H1) as Rg'. pose proof (rng_le _ _ _ Rg') as R8. change (p2 3) with 8 in R8. pose proof (Rle_abs (Rlit l)).
  apply orb_true_iff in H2. destruct H2 as [H2|H2].
  - pose proof (lnneg_ok _ H2). lra.
  - destruct l as [n e]. apply andb_true_iff in H2. destruct H2 as [E1 E2]. apply Z.eqb_eq in E1, E2. subst. cbn [Rlit]. lra.
Qed.

Section M.
Variable m : Libm.
Hypothesis A : accurate m.
Local Notation B := (ArithB64 m).
Lemma ap_ln k a b v x K Mx a' b' : ap k a b v x x -> 0 < x -> (0 <= k <= KM)%Z -> Rabs (ln x) + 1 <= Mx -> 
  IZR k + 1 + 8 * Mx <= IZR K * Mx -> rng a' b' Mx -> ap K a' b' (lm_ln m v) (ln x) Mx.
Proof.
  intros P Hx Hk HM HK HR. destruct (rel_of k a b v x P Hx Hk) as (F & E & _ & Q & V).
  assert (0 <= IZR k * u64 <= 1 / 2) as Q' by lra. pose proof (ln_rel _ _ _ Hx Q' E) as L. destruct A as (_ & _ & _ & AL). destruct (AL v F V) as [F1 F2]. 
  set (q := IZR k * u64) in *. pose proof u_pos as U. pose proof u_small as U1.
  assert (q * (1 + 2 * q) <= IZR k * u64 + u64) as L2.
  { assert (IZR k <= 16777216) by (apply IZR_le; unfold KM in *; lia). assert (2 * q * q <= u64); [|unfold q in *; nra].
    unfold q at 1. assert (0 <= IZR k) by (apply IZR_le; lia).
    assert (IZR k * IZR k * u64 <= 1 / 16) by (apply KM_prod; unfold KM in *; lia). unfold q. nra. }
  split; [exact F1|]. split; [|split; [lra|exact HR]].
  change (bpow radix2 (-50)) with (bpow radix2 (3 + -53)) in F2. rewrite bpow_plus in F2. change (p2 3) with 8 in F2. fold u64 in F2.
  replace (bR (lm_ln m v) - ln x) with ((bR (lm_ln m v) - ln (bR v)) + (ln (bR v) - ln x)) by ring.
  eapply Rle_trans; [apply Rabs_triang|].
  assert (Rabs (ln (bR v)) <= Mx) as LM.
  { replace (ln (bR v)) with ((ln (bR v) - ln x) + ln x) by ring. eapply Rle_trans; [apply Rabs_triang|]. assert (q * (1 + 2 * q) <= 1) by nra. lra. }
  assert (8 * u64 * Rabs (ln (bR v)) <= 8 * u64 * Mx) by (apply Rmult_le_compat_l; lra).
  apply Rle_trans with ((IZR k + 1 + 8 * Mx) * u64); [|rewrite (Rmult_comm (IZR K * u64)), <- Rmult_assoc, (Rmult_comm Mx); apply Rmult_le_compat_r; lra].
  lra.
Qed.

Variable X : nat -> b64.
Hypothesis HX : forall i, (1 <= i < 22)%nat -> fin (X i) /\ rng (-49) 1 (bR (X i)).
Local Notation Y := (fun i => bR (X i)).
Hypothesis Hs : 99 / 100 <= sumf 0 21 Y <= 101 / 100.
Local Notation vB := (fst (@gred B gp_new X)).
Local Notation vR := (fst (@gred ArithR gp_new Y)).
Local Notation tB := (snd (@gred B gp_new X)).
Local Notation tR := (snd (@gred ArithR gp_new Y)).
Lemma vR_pos : 0 < vR. Proof. eapply Rlt_le_trans; [apply bpow_gt_0|apply (vR_bd m A X HX Hs)]. Qed.
Lemma tR_pos : 0 < tR. Proof. eapply Rlt_le_trans; [apply bpow_gt_0|apply (tR_bd m X HX Hs)]. Qed.
Lemma gdr_R : @gdr ArithR gp_new Y = 1 / vR.
Proof.
  unfold gdr. change (@flt ArithR (@GEPSILON ArithR) vR) with (Rltb (@GEPSILON ArithR) vR). rewrite glit15. pose proof (vR_bd m A X HX Hs) as H.
  change (p2 (-8)) with (/ 256) in H. assert (Rltb (1 / 1000000000000000) vR = true) as -> by (apply Rltb_true; lra). reflexivity.
Qed.
Lemma gdr_B : @gdr B gp_new X = bdiv (@f1 B) vB.
Proof.
  unfold gdr. cbn [flt fdiv ArithB64]. destruct (rel_of _ _ _ _ _ (a_vred m A X HX Hs) vR_pos ltac:(zc)) as (F & E & R1 & Q & V).
  destruct (lit_err (L 1 (-15)) (-50) (-49) eq_refl ltac:(zc)) as [L1 L2].
  change (Rlit (L 1 (-15))) with (@GEPSILON ArithR) in L2; rewrite glit15 in L2. rewrite (Rabs_pos_eq (1 / 1000000000000000)) in L2 by lra. apply Rabs_le_inv in L2, E.
  pose proof u_small. pose proof u_pos. change (@GEPSILON B) with (blit (L 1 (-15))). change (p2 (-8)) with (/ 256) in R1.
  rewrite lt_fin by assumption. rewrite Rlt_bool_true; [reflexivity|]. nra.
Qed.
Lemma adr : ap 504 (-3) 8 (@gdr B gp_new X) (@gdr ArithR gp_new Y) (@gdr ArithR gp_new Y).
Proof.
  rewrite gdr_R, gdr_B. eapply ap_weak; [eapply ap_div; [exact (a1 m)|exact (a_vred m A X HX Hs)|exact vR_pos|zc|zc|zc|zc]|zc|zc|zc].
Qed.
Lemma dr_pos : 0 < @gdr ArithR gp_new Y.
Proof. rewrite gdr_R. apply Rdiv_lt_0_compat; [lra|exact vR_pos]. Qed.
(* temperature powers *)
Section Tau.
Variable T : b64.
Hypothesis HT : fin T /\ p2 5 <= bR T <= p2 11.
Lemma T_pos : 0 < bR T. Proof. eapply Rlt_le_trans; [apply bpow_gt_0|apply HT]. Qed.
Lemma aTT : ap 0 5 11 T (bR T) (bR T).
Proof.
  eapply ap_eq; [apply ap_exact; [apply HT|]|reflexivity|]; rewrite Rabs_pos_eq by (apply Rlt_le, T_pos); [right; apply HT|reflexivity].
Qed.
Local Notation lB := (lm_ln m (bdiv (@gtr B gp_new X) T)).
Local Notation lR := (ln (@gtr ArithR gp_new Y / bR T)).
Lemma atau : ap 503 (-12) 8 (bdiv (@gtr B gp_new X) T) (@gtr ArithR gp_new Y / bR T) (@gtr ArithR gp_new Y / bR T).
Proof. eapply ap_weak; [eapply ap_div; [exact (a_tred m X HX Hs)|exact aTT|exact T_pos|zc|zc|zc|zc]|zc|zc|zc]. Qed.
Lemma tau_pos : 0 < @gtr ArithR gp_new Y / bR T.
Proof. apply Rdiv_lt_0_compat; [exact tR_pos|exact T_pos]. Qed.
Lemma ln_tau : Rabs lR <= 9 - 1 / 2.
Proof.
  eapply Rle_trans; [apply (ln_rng (-12) 8 _ 12); [exact tau_pos|apply atau|lia|lia]|]. interval.
Qed.
Lemma alntau : ap 63 3 4 lB lR (19/2).
Proof.
  pose proof ln_tau. eapply ap_ln; [exact atau|exact tau_pos|zc|lra|lra|]. right. change (p2 3) with 8. change (p2 4) with 16. lra.
Qed.
Lemma aexpt tv t : ap 1 (-5) 5 tv t (Rabs t) -> -1 <= t <= 30 -> 
  ap 19105 (-360) 240 (lm_exp m (bmul tv lB)) (exp (t * lR)) (exp (t * lR)).
Proof.
  intros Q Ht. assert (ap 67 (-2) 9 (bmul tv lB) (t * lR) (Rabs t * (19 / 2))) as P.
  { eapply ap_weak; [eapply ap_mul; [exact Q|exact alntau|zc|zc|zc|zc]|zc|zc|zc]. }
  assert (Rabs t <= 30) as Ha by (apply Rabs_le; lra).
  change 19105%Z with (19095 + 10)%Z. pose proof ln_tau as LT. eapply (ap_exp m A).
  - exact (ap_fin _ _ _ _ _ _ P).
  - destruct P as (_ & E & _). eapply Rle_trans; [exact E|]. apply Rle_trans with (67 * u64 * (30 * (19 / 2))).
    + apply Rmult_le_compat_l; [pose proof u_pos; lra|]. apply Rmult_le_compat_r; lra.
    + right. lra.
  - zc.
  - rewrite Rabs_mult. apply Rle_trans with (30 * (9 - 1/2)); [|lra]. apply Rmult_le_compat; try apply Rabs_pos; assumption.
  - apply (rpow_rng2 (-12) 8 _ _ (-1) 30); [exact tau_pos|apply atau|exact Ht|lra|lra|lra|lra|lra|lra|lra|lra].
Qed.
Lemma aTP i k : (1 <= i < 22)%nat -> (1 <= k <= kpol i + kexp i)%nat ->
  ap 19109 (-373) 243 (@tpow B gp_new lB i k) (@tpow ArithR gp_new lR i k) (Rabs (@lv2 ArithR G_NOIK i k) * exp (@q_toik ArithR gp_new (if short_form i then 5 else i)%nat k * lR)).
Proof.
  intros Hi Hk. destruct (prow_at i k Hi Hk) as (H1 & H2 & _). apply tsmall_ok in H1. destruct H1 as [H1 H1'].
  eapply ap_weak; [eapply ap_mul; [apply ap_lit; [exact H2|zc]|apply aexpt|zc|zc|zc|zc]|zc|zc|zc].
  - apply andb_true_iff in H1. destruct H1 as [H1 _]. eapply ap_weak; [apply ap_lit; [exact H1|zc]|zc|zc|zc].
  - cbn [q_toik gp_new]. unfold lv2. cbn [flit ArithR]. lra.
Qed.
Lemma mt_lit mm k : exists v, mtok v = true /\ forall A : Arith, @q_tijk A gp_new mm k = flit v.
Proof. apply (aval_lit G_setup_tijk mtok); vm_compute; reflexivity. Qed.
Lemma mn_lit mm k : exists v, lit_in (-15) 3 v = true /\ forall A : Arith, @q_nijk A gp_new mm k = flit v.
Proof. apply (aval_lit G_setup_nijk (lit_in (-15) 3)); vm_compute; reflexivity. Qed.
Lemma amn mm k : ap 1 (-15) 3 (@q_nijk B gp_new mm k) (@q_nijk ArithR gp_new mm k) (Rabs (@q_nijk ArithR gp_new mm k)).
Proof. destruct (mn_lit mm k) as (v & H & E). rewrite !E. apply ap_lit; [exact H|zc]. Qed.
Lemma amt mm k : ap 1 (-5) 5 (@q_tijk B gp_new mm k) (@q_tijk ArithR gp_new mm k) (Rabs (@q_tijk ArithR gp_new mm k)) /\ -1 <= @q_tijk ArithR gp_new mm k <= 8.
Proof.
  destruct (mt_lit mm k) as (v & H & E). rewrite !E. apply mtok_ok in H. destruct H as [H1 H2]. split; [|exact H2].
  eapply ap_weak; [apply ap_lit; [exact H1|zc]|zc|zc|zc].
Qed.
Lemma aTM mm k : ap 19109 (-375) 243 (@tmow B gp_new lB mm k) (@tmow ArithR gp_new lR mm k) (Rabs (@q_nijk ArithR gp_new mm k) * exp (@q_tijk ArithR gp_new mm k * lR)).
Proof.
  destruct (amt mm k) as [Q1 Q2]. unfold tmow. cbn [fmul fexp ArithB64].
  eapply ap_weak; [eapply ap_mul; [apply amn|apply aexpt; [exact Q1|lra]|zc|zc|zc|zc]|zc|zc|zc].
Qed.
End Tau.
End M.
