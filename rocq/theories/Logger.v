(* One object, many readings: each is evaluated as on a new object. *)
From Coq Require Import Reals ZArith List Bool Lra Lia Psatz.
From Flocq Require Import Core BinarySingleNaN.
From Verif Require Import FArith Prelude Composition DetailModel GergModel Api SpecGeneric SpecHistory Drift ReuseDetail ReuseGerg
  ArithB64 B64Lemmas ArithR SpecB64 SpecGerg SpecStd SpecGas SpecAcc SpecGasState SpecSession Session SpecLogger AccDens AccDensProof B64Err.
Import ListNotations.
Local Open Scope R_scope.

Section L.
Variable m : Libm.
Local Notation B := (ArithB64 m).

Lemma ap_top v : fin v -> Rabs (bR v) <= 512 -> ap 0 0 9 v (bR v) 512.
Proof.
  intros H V. split; [exact H|]. replace (bR v - bR v) with 0 by ring. rewrite Rabs_R0. pose proof u_pos. split; [lra|]. split; [exact V|]. right. change (p2 0) with 1. change (p2 9) with 512. lra.
Qed.
Lemma apart_b a b : fin a -> fin b -> Rabs (bR a) <= 512 -> Rabs (bR b) <= 512 -> 2 / 10000000 < Rabs (bR a - bR b) -> apart (A := B) a b.
Proof.
  intros Fa Fb Ha Hb H. unfold apart. change (Bltb (blit (L 1 (-7))) (Babs (bsub a b)) = true).
  assert (R : rng 0 10 (512 + 512)) by (right; change (p2 0) with 1; change (p2 10) with 1024; lra).
  destruct (ap_sub _ _ _ _ _ _ _ _ _ _ _ _ 0 10 (ap_top a Fa Ha) (ap_top b Fb Hb) ltac:(unfold KM; lia) ltac:(unfold KM; lia) ltac:(unfold inr; lia) R) as (S1 & S2 & _).
  destruct tol_R as [L1 L2]. rewrite lt_fin; [|exact L1|unfold fin; rewrite is_finite_Babs; exact S1].
  apply Rlt_bool_true. unfold bR at 2. rewrite B2R_Babs. fold (bR (bsub a b)). change (IZR (Z.max 0 0 + 2)) with 2 in S2. rewrite u64_val in S2.
  replace (bR a - bR b) with (bR (bsub a b) - (bR (bsub a b) - (bR a - bR b))) in H by ring.
  pose proof (Rabs_triang (bR (bsub a b)) (- (bR (bsub a b) - (bR a - bR b)))) as T. rewrite Rabs_Ropp in T. unfold Rminus at 1 in H. lra.
Qed.
Lemma eps_ok v : fin v -> 0 <= bR v -> @flt B (@fneg B (@EPSILON B)) v = true.
Proof.
  intros Fv Hv. change (Bltb (Bopp (blit (L 1 (-15)))) v = true). destruct eps_R as [L1 L2]. rewrite lt_fin; [|unfold fin; rewrite is_finite_Bopp; exact L1|exact Fv].
  apply Rlt_bool_true. unfold bR at 1. rewrite B2R_Bopp. fold (bR (blit (L 1 (-15)))). pose proof (bpow_gt_0 radix2 (-50)). lra.
Qed.
Lemma geps_ok v : fin v -> 0 <= bR v -> @flt B (@fneg B (@GEPSILON B)) v = true.
Proof. exact (eps_ok v). Qed.

Definition rd r := (bfractions m (@r_c m r), @r_t m r).
Lemma asked_all n fr i l : Forall (reading_ok m) l -> forall x t y u, In (y, u) (asked (A := B) n fr x t (evaluate_all m i l)) -> exists r, In r l /\ y = fr (r_c r) /\ u = r_t r.
Proof.
  induction 1 as [|r l (Hc & _) _ IH]; intros x t y u Hi; [elim Hi|]. cbn [evaluate_all flat_map evaluate app asked] in Hi. rewrite (gas_check m _ Hc) in Hi.
  destruct Hi as [[= <- <-]|[[= <- <-]|Hi]]; [exists r; split; [now left|now split]|exists r; split; [now left|now split]|].
  destruct (IH _ _ _ _ Hi) as (r' & Hr & E). exists r'. split; [now right|exact E].
Qed.
Lemma frac_b r i : reading_ok m r -> (i < 21)%nat -> fin (nth i (bfractions m (r_c r)) B0) /\ 0 <= bR (nth i (bfractions m (r_c r)) B0) <= 512.
Proof.
  intros ((Hx & (_ & Hl & _) & _) & _) Hi. split; [apply Hx, Hi|]. pose proof (Hl i Hi) as K. split; [apply K|]. eapply Rle_trans; [apply K|]. unfold gas_limit.
  do 21 (destruct i as [|i]; [cbn; lra|]). lia.
Qed.
Lemma apart_t0 r : reading_ok m r -> apart (A := B) (r_t r) (@f0 B).
Proof.
  intros (_ & (Ft & Ht) & _). apply apart_b; [exact Ft|reflexivity| | |]; change (bR (@f0 B)) with 0; rewrite ?Rabs_R0, ?Rminus_0_r, ?Rabs_pos_eq; lra.
Qed.
Lemma apart_x0 r : reading_ok m r -> apart (A := B) (nth 0 (bfractions m (r_c r)) B0) (@f0 B).
Proof.
  intros H. destruct (frac_b r 0 H ltac:(lia)) as [Fx Hx]. destruct H as ((_ & (H0 & _) & _) & _).
  apply apart_b; [exact Fx|reflexivity| | |]; change (bR (@f0 B)) with 0; rewrite ?Rabs_R0, ?Rminus_0_r, ?Rabs_pos_eq; lra.
Qed.
Lemma apart_x r r' i : reading_ok m r -> reading_ok m r' -> (i < 21)%nat ->
  2 / 10000000 < Rabs (bR (nth i (bfractions m (r_c r)) B0) - bR (nth i (bfractions m (r_c r')) B0)) -> apart (A := B) (nth i (bfractions m (r_c r)) B0) (nth i (bfractions m (r_c r')) B0).
Proof.
  intros H H' Hi D. destruct (frac_b r i H Hi), (frac_b r' i H' Hi). apply apart_b; try assumption; rewrite Rabs_pos_eq; lra.
Qed.
Lemma apart_t r r' : reading_ok m r -> reading_ok m r' -> 2 / 10000000 < Rabs (bR (r_t r) - bR (r_t r')) -> apart (A := B) (r_t r) (r_t r').
Proof. intros (_ & (F1 & H1) & _) (_ & (F2 & H2) & _) D. apply apart_b; try assumption; rewrite Rabs_pos_eq; lra. Qed.

Lemma dsep i l : readings_ok m l -> separated (A := B) 0 (dasked (A := B) (evaluate_all m i l)).
Proof.
  intros [H1 H2]. pose proof (asked_all 21 (fractions (A := B)) i l H1 (repeat (@f0 B) 21) (@f0 B)) as Q. change (asked _ _ _ _ _) with (dasked (A := B) (evaluate_all m i l)) in Q.
  rewrite Forall_forall in H1. split.
  - intros x t x' t' I1 I2. destruct (Q _ _ I1) as (r & Hr & -> & ->). destruct (Q _ _ I2) as (r' & Hr' & -> & ->). destruct (H2 _ _ Hr Hr') as [[E|(j & Hj & D)] Ht]; split.
    + left. now rewrite E.
    + destruct Ht as [Et|D]; [now left|right; apply apart_t; auto].
    + right. exists j. split; [split; [lia|exact Hj]|]. now apply (apart_x r r' j (H1 _ Hr) (H1 _ Hr')).
    + destruct Ht as [Et|D']; [now left|right; apply apart_t; auto].
  - intros x t I1. destruct (Q _ _ I1) as (r & Hr & -> & ->). split; [|apply apart_t0; auto].
    exists 0%nat. split; [split; [lia|cbn; lia]|]. exact (apart_x0 r (H1 _ Hr)).
Qed.
Lemma gsep i l : readings_ok m l -> separated (A := B) 1 (gasked (A := B) (evaluate_all m i l)).
Proof.
  intros [H1 H2]. pose proof (asked_all 22 (fun c => @f0 B :: fractions (A := B) c) i l H1 (repeat (@f0 B) 22) (@f0 B)) as Q. change (asked _ _ _ _ _) with (gasked (A := B) (evaluate_all m i l)) in Q.
  rewrite Forall_forall in H1. split.
  - intros x t x' t' I1 I2. destruct (Q _ _ I1) as (r & Hr & -> & ->). destruct (Q _ _ I2) as (r' & Hr' & -> & ->). destruct (H2 _ _ Hr Hr') as [[E|(j & Hj & D)] Ht]; split.
    + left. now rewrite E.
    + destruct Ht as [Et|D]; [now left|right; apply apart_t; auto].
    + right. exists (S j). split; [split; [lia|exact (proj1 (Nat.succ_lt_mono j 21) Hj)]|]. exact (apart_x r r' j (H1 _ Hr) (H1 _ Hr') Hj D).
    + destruct Ht as [Et|D']; [now left|right; apply apart_t; auto].
  - intros x t I1. destruct (Q _ _ I1) as (r & Hr & -> & ->). split; [|apply apart_t0; auto].
    exists 1%nat. split; [split; [lia|cbn; lia]|]. exact (apart_x0 r (H1 _ Hr)).
Qed.

Lemma all_app i l r : evaluate_all m i (l ++ [r]) = evaluate_all m i l ++ evaluate (A := B) i (r_c r) (r_t r) (r_p r).
Proof. unfold evaluate_all. rewrite flat_map_app. cbn [flat_map]. now rewrite app_nil_r. Qed.
Lemma ok_prefix l l' : readings_ok m (l ++ l') -> readings_ok m l.
Proof. intros [H1 H2]. split; [apply Forall_app in H1; apply H1|]. intros a b Ha Hb. apply H2; apply in_or_app; now left. Qed.
Lemma ok_last l r : readings_ok m (l ++ [r]) -> reading_ok m r.
Proof. intros [H1 _]. apply Forall_app in H1. destruct H1 as [_ H1]. now inversion H1. Qed.
Lemma state_pos G T P p f : 0 < G -> 0 < T -> 0 < P -> gas_state G T P p f -> fin (f PD) /\ 0 <= bR (f PD).
Proof.
  intros HG HT HP (Hf & _ & _ & _ & D & _). split; [apply Hf|]. cbv zeta in D. set (d0 := P / G / T) in *.
  assert (0 < d0) by (unfold d0, Rdiv; repeat apply Rmult_lt_0_compat; try apply Rinv_0_lt_compat; lra). clearbody d0. apply Rabs_le_inv in D. lra.
Qed.
Lemma state_ext_same G T P p f g : (forall k, f k = g k) -> gas_state G T P p f -> gas_state G T P p g.
Proof.
  intros E (H & K). split; [intros k; rewrite <- E; apply H|]. cbv zeta in *. now rewrite <- !E.
Qed.

Variable Acc : accurate m.
Definition dans : list (@out B) := [OComp (A := B) ROk; OUnit; OUnit; ODens (A := B) ROk; OUnit].
Definition gans (v : b64) : list (@out B) := [OComp (A := B) ROk; OUnit; OUnit; ODens (A := B) ROk; OVal (A := B) v].
Section D.
Variable i : Z.
Definition dgood (r : reading m) (s : @Detail B) : Prop := gas_state (831451 / 100000) (bR (r_t r)) (bR (r_p r)) (bR (dread (A := B) PP s)) (fun k => dread (A := B) k s).
Definition dlog l r := exists s o, @dexec B Api.New (evaluate_all m i (l ++ [r])) = Some (s, o ++ dans) /\ dgood r s /\
  exists s', @dexec B Api.New (evaluate (A := B) i (r_c r) (r_t r) (r_p r)) = Some (s', dans) /\ dsame (A := B) s s'.
Lemma dgood_pos r s : reading_ok m r -> dgood r s -> @flt B (@fneg B (@EPSILON B)) (d_d s) = true.
Proof.
  intros (_ & (_ & Ht) & (_ & Hp)) G. assert (Q : fin (d_d s) /\ 0 <= bR (d_d s)) by (refine (state_pos _ _ _ _ _ _ _ _ G); lra). destruct Q as [F1 F2]. exact (eps_ok _ F1 F2).
Qed.
Lemma dlog_step l r s o : readings_ok m (l ++ [r]) -> @dexec B Api.New (evaluate_all m i l) = Some (s, o) -> @flt B (@fneg B (@EPSILON B)) (d_d s) = true -> dlog l r.
Proof.
  intros H E D. pose proof (ok_last _ _ H) as (Hc & Ht & Hp). unfold dlog. pose proof (dsep i _ H) as HS. rewrite all_app in HS |- *.
  destruct (@dreuse B (eps_ok (@f0 B) eq_refl ltac:(change (bR (@f0 B)) with 0; lra)) Api.New _ s o (r_c r) (r_t r) (r_p r) i E (gas_check m _ Hc) D HS) as (s1 & s2 & r2 & R1 & R2 & Sm).
  destruct (rust_detail m Acc _ _ _ Hc Ht Hp i) as (s3 & R3 & G). change (evaluate i _ _ _) with ([SetComp (A := B) (r_c r); Poke (A := B) PT (r_t r); Poke (A := B) PP (r_p r); Density (A := B) i; Properties (A := B)]).
  pose proof (eq_trans (eq_sym R2) R3) as Q. injection Q as Q1 Q2. subst s3 r2. exists s1, o. split; [exact (dexec_app _ _ _ _ _ _ _ E R1)|].
  split; [|exists s2; split; [exact R3|exact Sm]]. unfold dgood. rewrite (proj2 Sm PP). eapply state_ext_same; [|exact G]. intros k. symmetry. apply Sm.
Qed.
Lemma dlog_all l : readings_ok m l -> exists s o, @dexec B Api.New (evaluate_all m i l) = Some (s, o) /\ @flt B (@fneg B (@EPSILON B)) (d_d s) = true.
Proof.
  induction l as [|r l IH] using rev_ind; intros H.
  - exists (@DetailRefine.detail_fresh B), []. split; [exact (@dexec_new B [] _ _ eq_refl)|exact (eps_ok (@f0 B) eq_refl ltac:(change (bR (@f0 B)) with 0; lra))].
  - destruct (IH (ok_prefix _ _ H)) as (s & o & E & D). destruct (dlog_step l r s o H E D) as (s1 & o1 & E1 & G & _). exists s1. eexists. split; [exact E1|]. exact (dgood_pos r s1 (ok_last _ _ H) G).
Qed.
Lemma logger_detail l r : readings_ok m (l ++ [r]) -> dlog l r.
Proof. intros H. destruct (dlog_all l (ok_prefix _ _ H)) as (s & o & E & D). exact (dlog_step l r s o H E D). Qed.
End D.
Section G.
Variable i : Z.
Hypothesis Hi : (i <= 0)%Z.
Definition ggood (r : reading m) (v : b64) (s : @Gerg B) : Prop := gas_state Rg (bR (r_t r)) (bR (r_p r)) (bR v) (fun k => gread (A := B) k s).
Definition glog l r := exists s o v, @gexec B Api.New (evaluate_all m i (l ++ [r])) = Some (s, o ++ gans v) /\ fin v /\ ggood r v s /\
  exists s', @gexec B Api.New (evaluate (A := B) i (r_c r) (r_t r) (r_p r)) = Some (s', gans v) /\ gsame (A := B) s s'.
Lemma ggood_pos r v s : reading_ok m r -> ggood r v s -> @flt B (@fneg B (@GEPSILON B)) (g_d s) = true.
Proof.
  assert (PRg : Rg = 8314472 / 1000000) by reflexivity.
  intros (_ & (_ & Ht) & (_ & Hp)) G. assert (Q : fin (g_d s) /\ 0 <= bR (g_d s)) by (refine (state_pos _ _ _ _ _ _ _ _ G); try rewrite PRg; lra). destruct Q as [F1 F2]. exact (geps_ok _ F1 F2).
Qed.
Lemma glog_step l r s o : readings_ok m (l ++ [r]) -> @gexec B Api.New (evaluate_all m i l) = Some (s, o) -> @flt B (@fneg B (@GEPSILON B)) (g_d s) = true -> glog l r.
Proof.
  intros H E D. pose proof (ok_last _ _ H) as (Hc & Ht & Hp). unfold glog. pose proof (gsep i _ H) as HS. rewrite all_app in HS |- *.
  destruct (@greuse B (geps_ok (@f0 B) eq_refl ltac:(change (bR (@f0 B)) with 0; lra)) Api.New _ s o (r_c r) (r_t r) (r_p r) i E (gas_check m _ Hc) D HS) as (s1 & s2 & r2 & R1 & R2 & Sm).
  destruct (rust_gerg m Acc _ _ _ Hc Ht Hp i Hi) as (s3 & v & R3 & Fv & G). change (evaluate i _ _ _) with ([SetComp (A := B) (r_c r); Poke (A := B) PT (r_t r); Poke (A := B) PP (r_p r); Density (A := B) i; Properties (A := B)]).
  pose proof (eq_trans (eq_sym R2) R3) as Q. injection Q as Q1 Q2. subst s3 r2. exists s1, o, v. split; [exact (gexec_app _ _ _ _ _ _ _ E R1)|]. split; [exact Fv|].
  split; [|exists s2; split; [exact R3|exact Sm]]. unfold ggood. eapply state_ext_same; [|exact G]. intros k. symmetry. apply Sm.
Qed.
Lemma glog_all l : readings_ok m l -> exists s o, @gexec B Api.New (evaluate_all m i l) = Some (s, o) /\ @flt B (@fneg B (@GEPSILON B)) (g_d s) = true.
Proof.
  induction l as [|r l IH] using rev_ind; intros H.
  - exists (@GergRefine.gerg_fresh B), []. split; [exact (@gexec_new B [] _ _ eq_refl)|exact (geps_ok (@f0 B) eq_refl ltac:(change (bR (@f0 B)) with 0; lra))].
  - destruct (IH (ok_prefix _ _ H)) as (s & o & E & D). destruct (glog_step l r s o H E D) as (s1 & o1 & v & E1 & Fv & G & _). exists s1. eexists. split; [exact E1|]. exact (ggood_pos r v s1 (ok_last _ _ H) G).
Qed.
Lemma logger_gerg l r : readings_ok m (l ++ [r]) -> glog l r.
Proof. intros H. destruct (glog_all l (ok_prefix _ _ H)) as (s & o & E & D). exact (glog_step l r s o H E D). Qed.
End G.
End L.
