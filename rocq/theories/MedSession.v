(* End to end and reading after reading, for a natural gas up to 1.2 MPa (DETAIL) or 1.0 MPa (GERG-2008). *)
From Coq Require Import Reals ZArith List Bool Lra Lia Psatz.
From Flocq Require Import Core BinarySingleNaN.
From Verif Require Import FArith Prelude Composition DetailModel GergModel Api ApiSafe DetailRefine GergRefine DetailEval GergEval Drift Ffi SpecFfi ReuseDetail ReuseGerg
  ArithB64 B64Lemmas B64Check SpecB64 SpecGeneric SpecHistory SpecGerg SpecStd SpecGas SpecAcc SpecSession SpecLogger SpecMedState SpecMedStateG SpecMedLogger Session.
From Verif Require AccDensProof MedProps MedPropsG Session2 Logger.
Import ListNotations.
Local Open Scope R_scope.

(* the numbers depend on the fields only; d2p_dtd and p are in no bound *)
Lemma state_ext G T P p p' (f g : pfield -> b64) : bR p = bR p' -> (forall k, k <> PD2pDtd -> k <> PP -> g k = f k) -> fin (g PD2pDtd) -> fin (g PP) -> medium_state G T P (bR p) f -> medium_state G T P (bR p') g.
Proof.
  intros Ep E Z Z' (F & H). unfold medium_state. rewrite <- Ep. rewrite !E by discriminate. split; [|exact H].
  intros k. destruct k; try exact Z; try exact Z'; rewrite E by discriminate; apply F.
Qed.
Lemma state_ext_g G T P p p' (f g : pfield -> b64) : bR p = bR p' -> (forall k, k <> PD2pDtd -> k <> PP -> g k = f k) -> fin (g PD2pDtd) -> fin (g PP) -> medium_state_g G T P (bR p) f -> medium_state_g G T P (bR p') g.
Proof.
  intros Ep E Z Z' (F & H). unfold medium_state_g. rewrite <- Ep. rewrite !E by discriminate. split; [|exact H].
  intros k. destruct k; try exact Z; try exact Z'; rewrite E by discriminate; apply F.
Qed.
Section D.
Variable m : Libm.
Local Notation B := (ArithB64 m).
Variable A : accurate m.
Variables (c : @Composition B) (t P : b64).
Hypothesis Hc : gas_comp m c.
Hypothesis Ht : fin t /\ 270 <= bR t <= 350.
Lemma rust_detail i : fin P /\ 1 / 10 <= bR P <= 1200 -> exists s, @dexec B Api.New [SetComp (A := B) c; Poke (A := B) PT t; Poke (A := B) PP P; Density (A := B) i; Properties (A := B)]
    = Some (s, [OComp (A := B) ROk; OUnit; OUnit; ODens (A := B) ROk; OUnit]) /\
  medium_state (831451 / 100000) (bR t) (bR P) (bR (dread (A := B) PP s)) (fun k => dread (A := B) k s).
Proof.
  intros HP. destruct Hc as (Hx & Hg & Hs).
  destruct (MedProps.med_state_detail m A (fun j => nth j (bfractions m c) B0) t P i) as (s & E & G); try assumption.
  { intros j Hj. destruct (Hx j Hj) as [F [Z|Z]]; split; try exact F; [now left|right]. apply Rle_trans with (2 := Z). apply bpow_le. lia. }
  exists s. split; [|exact G]. apply (dset_comp (A := B) c (fun j => nth j (bfractions m c) B0)); [exact (gas_check m c Hc)|reflexivity|exact E].
Qed.
Lemma rust_gerg i : fin P /\ 1 / 10 <= bR P <= 1000 -> (i <= 0)%Z -> exists s v, @gexec B Api.New [SetComp (A := B) c; Poke (A := B) PT t; Poke (A := B) PP P; Density (A := B) i; Properties (A := B)]
    = Some (s, [OComp (A := B) ROk; OUnit; OUnit; ODens (A := B) ROk; OVal (A := B) v]) /\ fin v /\
  medium_state_g Rg (bR t) (bR P) (bR v) (fun k => gread (A := B) k s).
Proof.
  intros HP Hi. destruct Hc as (Hx & Hg & Hs). pose (x := fun j => match j with O => B0 | S k => nth k (bfractions m c) B0 end).
  destruct (MedPropsG.med_state_gerg m A x t P i) as (s & v & E & Fv & G); try assumption.
  { intros [|j] Hj; [lia|]. apply (Hx j). lia. }
  exists s, v. split; [|split; [exact Fv|exact G]]. apply (gset_comp (A := B) c x); [exact (gas_check m c Hc)|reflexivity|exact E].
Qed.
Lemma c_detail a h : fin P /\ 1 / 10 <= bR P <= 1200 -> a <> null -> exists h' q t' p, ffi_run (A := B) (session (A := B) KDetail a c t P) h = Ret (A := B) h' (no_error (A := B) a q t' p) /\ elsewhere a h h' /\
  medium_state (831451 / 100000) (bR t) (bR P) (bR p) (reported m q t' p).
Proof.
  intros HP N. destruct (rust_detail 0%Z HP) as (s & E & G). destruct (dsession (A := B) a c t P h s N E) as (h' & R & El).
  exists h', (struct (A := B) (dread (A := B)) s), (dread (A := B) PT s), (dread (A := B) PP s). split; [exact R|]. split; [exact El|].
  refine (state_ext _ _ _ _ _ _ _ eq_refl _ _ _ G); [|reflexivity|exact (proj1 G PP)].
  intros k N1 N2. destruct k; try reflexivity. now elim N1.
Qed.
Lemma c_gerg a h : fin P /\ 1 / 10 <= bR P <= 1000 -> a <> null -> exists h' q t' p, ffi_run (A := B) (session (A := B) KGerg a c t P) h = Ret (A := B) h' (no_error (A := B) a q t' p) /\ elsewhere a h h' /\
  medium_state_g Rg (bR t) (bR P) (bR p) (reported m q t' p).
Proof.
  intros HP N. destruct (rust_gerg 0%Z HP ltac:(lia)) as (s & v & E & Fv & G). destruct (gsession (A := B) a c t P h s v N E) as (h' & R & El).
  exists h', (struct (A := B) (gread (A := B)) s), (gread (A := B) PT s), (gread (A := B) PP s). split; [exact R|]. split; [exact El|].
  assert (G' : medium_state_g Rg (bR t) (bR P) (bR (gread (A := B) PP s)) (fun k => gread (A := B) k s)).
  { assert (Ep : gread (A := B) PP s = P) by exact (Session2.gkeep (A := B) c t P 0%Z s _ _ _ _ _ E).
    rewrite Ep. destruct G as (F & GT & _ & G). split; [exact F|]. split; [exact GT|]. split; [|exact G]. rewrite Rminus_diag_eq, Rabs_R0 by reflexivity. lra. }
  refine (state_ext_g _ _ _ _ _ _ _ eq_refl _ _ _ G'); [|reflexivity|exact (proj1 G' PP)].
  intros k N1 N2. destruct k; try reflexivity. now elim N1.
Qed.
End D.

Section L.
Variable m : Libm.
Local Notation B := (ArithB64 m).
(* the caches never ask about the pressure: the same list at 101 kPa asks the same *)
Definition base (r : reading m) : reading m := mkReading (r_c r) (r_t r) (bofZ 101).
Lemma base_asked n fr i l : forall x t, asked (A := B) n fr x t (evaluate_all m i (map base l)) = asked (A := B) n fr x t (evaluate_all m i l).
Proof.
  induction l as [|r l IH]; intros x t; [reflexivity|]. cbn [map]. unfold evaluate_all. cbn [flat_map evaluate app asked]. cbn [base r_c r_t r_p].
  fold (evaluate_all m i l). fold (evaluate_all m i (map base l)). rewrite !IH. reflexivity.
Qed.
Lemma base_readings top l : readings_upto m top l -> readings_ok m (map base l).
Proof.
  intros [H1 H2]. split.
  - apply Forall_forall. intros r Hr. apply in_map_iff in Hr. destruct Hr as (r' & <- & Hr). destruct (proj1 (Forall_forall _ _) H1 _ Hr) as (Hc & Ht & _). split; [exact Hc|]. split; [exact Ht|].
    cbn [base r_p]. rewrite AccDensProof.ofZ_R by reflexivity. split; [reflexivity|lra].
  - intros a b Ha Hb. apply in_map_iff in Ha, Hb. destruct Ha as (a' & <- & Ha). destruct Hb as (b' & <- & Hb). exact (H2 a' b' Ha Hb).
Qed.
Lemma dsep top i l : readings_upto m top l -> separated (A := B) 0 (dasked (A := B) (evaluate_all m i l)).
Proof. intros H. pose proof (Logger.dsep m i _ (base_readings top l H)) as Q. unfold dasked in *. now rewrite base_asked in Q. Qed.
Lemma gsep top i l : readings_upto m top l -> separated (A := B) 1 (gasked (A := B) (evaluate_all m i l)).
Proof. intros H. pose proof (Logger.gsep m i _ (base_readings top l H)) as Q. unfold gasked in *. now rewrite base_asked in Q. Qed.
Lemma all_app i l r : evaluate_all m i (l ++ [r]) = evaluate_all m i l ++ evaluate (A := B) i (r_c r) (r_t r) (r_p r).
Proof. unfold evaluate_all. rewrite flat_map_app. cbn [flat_map]. now rewrite app_nil_r. Qed.
Lemma ok_prefix top l l' : readings_upto m top (l ++ l') -> readings_upto m top l.
Proof. intros [H1 H2]. split; [apply Forall_app in H1; apply H1|]. intros a b Ha Hb. apply H2; apply in_or_app; now left. Qed.
Lemma ok_last top l r : readings_upto m top (l ++ [r]) -> reading_upto m top r.
Proof. intros [H1 _]. apply Forall_app in H1. destruct H1 as [_ H1]. now inversion H1. Qed.
Lemma dens_pos G T P (d : b64) : 0 < G -> 0 < T -> 0 < P -> 97 / 100 * (P / G / T) <= bR d -> 0 <= bR d.
Proof. intros HG HT HP D. assert (0 < P / G / T) by (unfold Rdiv; repeat apply Rmult_lt_0_compat; try apply Rinv_0_lt_compat; lra). lra. Qed.
Lemma state_pos G T P p f : 0 < G -> 0 < T -> 0 < P -> medium_state G T P p f -> fin (f PD) /\ 0 <= bR (f PD).
Proof. intros HG HT HP (Hf & _ & _ & _ & D & _). split; [apply Hf|]. exact (dens_pos G T P _ HG HT HP (proj1 D)). Qed.
Lemma state_pos_g G T P p f : 0 < G -> 0 < T -> 0 < P -> medium_state_g G T P p f -> fin (f PD) /\ 0 <= bR (f PD).
Proof. intros HG HT HP (Hf & _ & _ & _ & D & _). split; [apply Hf|]. exact (dens_pos G T P _ HG HT HP (proj1 D)). Qed.
Lemma state_same G T P p f g : (forall k, f k = g k) -> medium_state G T P p f -> medium_state G T P p g.
Proof. intros E (H & K). split; [intros k; rewrite <- E; apply H|]. cbv zeta in *. now rewrite <- !E. Qed.
Lemma state_same_g G T P p f g : (forall k, f k = g k) -> medium_state_g G T P p f -> medium_state_g G T P p g.
Proof. intros E (H & K). split; [intros k; rewrite <- E; apply H|]. cbv zeta in *. now rewrite <- !E. Qed.
Variable Acc : accurate m.
Definition dans : list (@out B) := [OComp (A := B) ROk; OUnit; OUnit; ODens (A := B) ROk; OUnit].
Definition gans (v : b64) : list (@out B) := [OComp (A := B) ROk; OUnit; OUnit; ODens (A := B) ROk; OVal (A := B) v].
Section D.
Variable i : Z.
Definition dgood (r : reading m) (s : @Detail B) : Prop := medium_state (831451 / 100000) (bR (r_t r)) (bR (r_p r)) (bR (dread (A := B) PP s)) (fun k => dread (A := B) k s).
Definition dlog l r := exists s o, @dexec B Api.New (evaluate_all m i (l ++ [r])) = Some (s, o ++ dans) /\ dgood r s /\
  exists s', @dexec B Api.New (evaluate (A := B) i (r_c r) (r_t r) (r_p r)) = Some (s', dans) /\ dsame (A := B) s s'.
Lemma dgood_pos r s : reading_upto m 1200 r -> dgood r s -> @flt B (@fneg B (@EPSILON B)) (d_d s) = true.
Proof.
  intros (_ & (_ & Ht) & (_ & Hp)) G. assert (Q : fin (d_d s) /\ 0 <= bR (d_d s)) by (refine (state_pos _ _ _ _ _ _ _ _ G); lra). destruct Q as [F1 F2]. exact (Logger.eps_ok m _ F1 F2).
Qed.
Lemma dlog_step l r s o : readings_upto m 1200 (l ++ [r]) -> @dexec B Api.New (evaluate_all m i l) = Some (s, o) -> @flt B (@fneg B (@EPSILON B)) (d_d s) = true -> dlog l r.
Proof.
  intros H E D. pose proof (ok_last 1200 _ _ H) as (Hc & Ht & Hp). unfold dlog. pose proof (dsep 1200 i _ H) as HS. rewrite all_app in HS |- *.
  destruct (@dreuse B (Logger.eps_ok m (@f0 B) eq_refl ltac:(change (bR (@f0 B)) with 0; lra)) Api.New _ s o (r_c r) (r_t r) (r_p r) i E (gas_check m _ Hc) D HS) as (s1 & s2 & r2 & R1 & R2 & Sm).
  destruct (rust_detail m Acc _ _ _ Hc Ht i Hp) as (s3 & R3 & G). change (evaluate i _ _ _) with ([SetComp (A := B) (r_c r); Poke (A := B) PT (r_t r); Poke (A := B) PP (r_p r); Density (A := B) i; Properties (A := B)]).
  pose proof (eq_trans (eq_sym R2) R3) as Q. injection Q as Q1 Q2. subst s3 r2. exists s1, o. split; [exact (dexec_app _ _ _ _ _ _ _ E R1)|].
  split; [|exists s2; split; [exact R3|exact Sm]]. unfold dgood. rewrite (proj2 Sm PP). eapply state_same; [|exact G]. intros k. symmetry. apply Sm.
Qed.
Lemma dlog_all l : readings_upto m 1200 l -> exists s o, @dexec B Api.New (evaluate_all m i l) = Some (s, o) /\ @flt B (@fneg B (@EPSILON B)) (d_d s) = true.
Proof.
  induction l as [|r l IH] using rev_ind; intros H.
  - exists (@DetailRefine.detail_fresh B), []. split; [exact (@dexec_new B [] _ _ eq_refl)|exact (Logger.eps_ok m (@f0 B) eq_refl ltac:(change (bR (@f0 B)) with 0; lra))].
  - destruct (IH (ok_prefix 1200 _ _ H)) as (s & o & E & D). destruct (dlog_step l r s o H E D) as (s1 & o1 & E1 & G & _). exists s1. eexists. split; [exact E1|]. exact (dgood_pos r s1 (ok_last 1200 _ _ H) G).
Qed.
Lemma logger_detail l r : readings_upto m 1200 (l ++ [r]) -> dlog l r.
Proof. intros H. destruct (dlog_all l (ok_prefix 1200 _ _ H)) as (s & o & E & D). exact (dlog_step l r s o H E D). Qed.
End D.
Section G.
Variable i : Z.
Hypothesis Hi : (i <= 0)%Z.
Definition ggood (r : reading m) (v : b64) (s : @Gerg B) : Prop := medium_state_g Rg (bR (r_t r)) (bR (r_p r)) (bR v) (fun k => gread (A := B) k s).
Definition glog l r := exists s o v, @gexec B Api.New (evaluate_all m i (l ++ [r])) = Some (s, o ++ gans v) /\ fin v /\ ggood r v s /\
  exists s', @gexec B Api.New (evaluate (A := B) i (r_c r) (r_t r) (r_p r)) = Some (s', gans v) /\ gsame (A := B) s s'.
Lemma ggood_pos r v s : reading_upto m 1000 r -> ggood r v s -> @flt B (@fneg B (@GEPSILON B)) (g_d s) = true.
Proof.
  assert (PRg : Rg = 8314472 / 1000000) by reflexivity.
  intros (_ & (_ & Ht) & (_ & Hp)) G. assert (Q : fin (g_d s) /\ 0 <= bR (g_d s)) by (refine (state_pos_g _ _ _ _ _ _ _ _ G); try rewrite PRg; lra). destruct Q as [F1 F2]. exact (Logger.geps_ok m _ F1 F2).
Qed.
Lemma glog_step l r s o : readings_upto m 1000 (l ++ [r]) -> @gexec B Api.New (evaluate_all m i l) = Some (s, o) -> @flt B (@fneg B (@GEPSILON B)) (g_d s) = true -> glog l r.
Proof.
  intros H E D. pose proof (ok_last 1000 _ _ H) as (Hc & Ht & Hp). unfold glog. pose proof (gsep 1000 i _ H) as HS. rewrite all_app in HS |- *.
  destruct (@greuse B (Logger.geps_ok m (@f0 B) eq_refl ltac:(change (bR (@f0 B)) with 0; lra)) Api.New _ s o (r_c r) (r_t r) (r_p r) i E (gas_check m _ Hc) D HS) as (s1 & s2 & r2 & R1 & R2 & Sm).
  destruct (rust_gerg m Acc _ _ _ Hc Ht i Hp Hi) as (s3 & v & R3 & Fv & G). change (evaluate i _ _ _) with ([SetComp (A := B) (r_c r); Poke (A := B) PT (r_t r); Poke (A := B) PP (r_p r); Density (A := B) i; Properties (A := B)]).
  pose proof (eq_trans (eq_sym R2) R3) as Q. injection Q as Q1 Q2. subst s3 r2. exists s1, o, v. split; [exact (gexec_app _ _ _ _ _ _ _ E R1)|]. split; [exact Fv|].
  split; [|exists s2; split; [exact R3|exact Sm]]. unfold ggood. eapply state_same_g; [|exact G]. intros k. symmetry. apply Sm.
Qed.
Lemma glog_all l : readings_upto m 1000 l -> exists s o, @gexec B Api.New (evaluate_all m i l) = Some (s, o) /\ @flt B (@fneg B (@GEPSILON B)) (g_d s) = true.
Proof.
  induction l as [|r l IH] using rev_ind; intros H.
  - exists (@GergRefine.gerg_fresh B), []. split; [exact (@gexec_new B [] _ _ eq_refl)|exact (Logger.geps_ok m (@f0 B) eq_refl ltac:(change (bR (@f0 B)) with 0; lra))].
  - destruct (IH (ok_prefix 1000 _ _ H)) as (s & o & E & D). destruct (glog_step l r s o H E D) as (s1 & o1 & v & E1 & Fv & G & _). exists s1. eexists. split; [exact E1|]. exact (ggood_pos r v s1 (ok_last 1000 _ _ H) G).
Qed.
Lemma logger_gerg l r : readings_upto m 1000 (l ++ [r]) -> glog l r.
Proof. intros H. destruct (glog_all l (ok_prefix 1000 _ _ H)) as (s & o & E & D). exact (glog_step l r s o H E D). Qed.
End G.
End L.
