(* The drift of the caches in double precision. *)
From Coq Require Import Reals ZArith List Bool Lra Lia Psatz.
From Flocq Require Import Core BinarySingleNaN.
From Verif Require Import FArith Prelude Tab ArithB64 B64Lemmas ArithR RSum SpecDetail SpecStd SpecAcc SpecGeneric SpecHistory DetailTables DetailModel DetailPure DetailRefine DetailEval
  DetailEos Api ApiSafe BasicProofs GenericLemmas HistoryDetail Drift StdDetailProof B64Err AccFold AccMix AccMix2 AccMix3 AccMix4 AccEos AccProof.
Import ListNotations.
Local Open Scope R_scope.

(* what the code's comparison cannot see *)
Lemma lit_tol : fin (blit (L 1 (-7))) /\ bR (blit (L 1 (-7))) = rnd (1 / 10000000).
Proof.
  assert (E : litR (L 1 (-7)) = 1 / 10000000) by (rewrite litR_Rlit; cbn; lra).
  destruct (blit_correct (L 1 (-7))) as [H F].
  - apply no_overflow with (e := 0%Z); [lia|]. rewrite E. rewrite Rabs_pos_eq by lra. change (bpow radix2 0) with 1. lra.
  - rewrite E in H. exact (conj F H).
Qed.
Lemma differs_near m (v w : b64) : fin v -> fin w -> Rabs (bR v - bR w) <= 1 / 10000000 -> @differs (ArithB64 m) v w = false.
Proof.
  intros F G H. unfold differs. cbn [fabs fsub flt ArithB64 flit]. destruct lit_tol as [LF LR].
  destruct (sub_ok v w F G) as [S1 S2].
  { apply no_overflow with (e := 0%Z); [lia|]. change (bpow radix2 0) with 1. lra. }
  rewrite lt_fin; [|exact LF|]. 2: { unfold fin. rewrite is_finite_Babs. exact S2. }
  apply Rlt_bool_false. unfold bR at 1. rewrite B2R_Babs. fold (bR (bsub v w)). rewrite LR, S1.
  apply Rabs_le. rewrite <- rnd_opp. split; apply rnd_le; apply Rabs_le_inv in H; lra.
Qed.
Lemma differs_self m (v : b64) : fin v -> @differs (ArithB64 m) v v = false.
Proof. intros F. apply differs_near; trivial. rewrite Rminus_diag_eq, Rabs_R0 by reflexivity. lra. Qed.

(* the equation depends on the 21 fractions only *)
Lemma Z_ext y z T d : (forall i, (i < 21)%nat -> y i = z i) -> detail_Z y T d = detail_Z z T d.
Proof. intros E. exact (eq_trans (Z_std y T d) (eq_trans (Zfactor_ext y z E T d) (eq_sym (Z_std z T d)))). Qed.
Lemma size_ext y z T d : (forall i, (i < 21)%nat -> y i = z i) -> detail_size y T d = detail_size z T d.
Proof. intros E. exact (eq_trans (size_std y T d) (eq_trans (dsize_ext y z T d E) (eq_sym (size_std z T d)))). Qed.
Lemma D_ext y z d : (forall i, (i < 21)%nat -> y i = z i) -> detail_D y d = detail_D z d.
Proof. intros E. rewrite (detail_D_std y), (detail_D_std z). unfold sizeK. now rewrite (K5_ext y z E). Qed.

Section New.
Context {A : Arith}.
Local Opaque ar_of ar00 ar01 ar02 ar03 ar10 ar11 ar20 cTun cBs cCsn cK3 x_diff pa0 pmm tab pressure properties differs.
Lemma first_held (x : nat -> F) (t d : F) : x_diff (map x (seq 0 21)) (repeat f0 21) = true -> differs t f0 = true ->
  exists s rr, drun [SetX x; Poke PT t; Poke PD d; Pressure] detail_fresh = Some (s, rr) /\
    @held A dp_new (Some (map x (seq 0 21))) (Some t) (map x (seq 0 21)) t d s.
Proof.
  intros Hx Ht.
  assert (W : @wf A dp_new None None (set_d_d d (set_d_t t (set_d_x (map x (seq 0 21)) detail_fresh)))).
  { apply (@wf_poke A dp_new PD), (@wf_poke A dp_new PT), wf_set_x; [now rewrite map_length, seq_length|exact wf_fresh]. }
  destruct (@press_new A dp_new (map x (seq 0 21)) t d _ None None W eq_refl eq_refl eq_refl Hx Ht) as (s & E & Z).
  do 2 eexists. split; [|exact Z]. cbn [drun dstep dpoke bind]. rewrite E. reflexivity.
Qed.
Lemma copy_pressure (s : Detail) x t d : d_x s = x -> d_t s = t -> d_d s = d -> length x = 21%nat ->
  x_diff x (repeat f0 21) = true -> differs t f0 = true -> exists s1 r1, dexec New (dcopy s) = Some (s1, r1) /\ dsame s s1 /\
  exists s2, dstep Pressure s1 = Some (s2, OVal (pp (@cache_of A dp_new (Some x) (Some t)) t d)).
Proof.
  intros <- <- <- L Hx Ht. set (V := [(d_x s, d_t s)]).
  assert (Ha : xapart 0 (d_x s) (repeat f0 21)).
  { Local Transparent x_diff. unfold x_diff in Hx. Local Opaque x_diff. apply existsb_exists in Hx. destruct Hx as (i & Hi & Q). exists i. apply in_seq in Hi.
    split; [lia|]. exact Q. }
  assert (HV : separated 0 V).
  { split.
    - intros y t y' t' [E|[]] [E'|[]]. injection E as <- <-. injection E' as <- <-. now split; left.
    - intros y t [E|[]]. injection E as <- <-. split; [rewrite L; exact Ha|exact Ht]. }
  assert (HL : forall y t, In (y, t) V -> length y = 21%nat).
  { intros y t [E|[]]. injection E as <- _. exact L. }
  assert (H0 : @HistoryDetail.hinv A dp_new V detail_fresh).
  { exists None, None. split; [exact wf_fresh|]. split; left; split; reflexivity. }
  destruct (HistoryDetail.copy_run V s detail_fresh H0 L) as (s1 & r1 & E1 & K1 & Hsm).
  exists s1, r1. split; [exact (dexec_new _ _ _ E1)|]. split; [exact Hsm|].
  assert (Ex : d_x s1 = d_x s) by (symmetry; apply Hsm).
  assert (Et : d_t s1 = d_t s) by (symmetry; apply (proj2 Hsm PT)).
  assert (Ed : d_d s1 = d_d s) by (symmetry; apply (proj2 Hsm PD)).
  destruct (@HistoryDetail.press_hist A dp_new V HV HL s1 K1) as (s2 & E2 & _).
  { left. now rewrite Ex, Et. }
  exists s2. cbn [dstep]. rewrite E2. cbn [bind]. rewrite Ex, Et, Ed. reflexivity.
Qed.
Lemma held_pressure x0 t0 x t d s : @held A dp_new (Some x0) (Some t0) x t d s -> x_diff x x = false -> differs t t = false ->
  exists s', dstep Pressure s = Some (s', OVal (pp (@cache_of A dp_new (Some x0) (Some t0)) t d)).
Proof.
  intros [W X T D XO TO] Hx Ht.
  destruct (press_held (P := dp_new) _ _ s x t W XO TO) as (s' & E & _); [now rewrite X|now rewrite T|].
  exists s'. cbn [dstep]. rewrite E, T, D. reflexivity.
Qed.
End New.

Section Drift.
Variable m : Libm.
Hypothesis A : accurate m.
Local Notation B := (ArithB64 m).
Variables (x : nat -> b64) (d : b64) (f : nat -> b64) (n : nat).
Let r i := bR (x i).
Hypothesis Hx : forall i, (i < 21)%nat -> fin (x i) /\ (r i = 0 \/ p2 (-50) <= r i).
Hypothesis Hs : 99 / 100 <= tot 21 r <= 101 / 100.
Hypothesis Hf : forall i, (i <= n)%nat -> fin (f i) /\ 32 <= bR (f i) <= 2048.
Hypothesis Hstep : forall i, (i < n)%nat -> Rabs (bR (f (S i)) - bR (f i)) <= 1 / 10000000.
Hypothesis Hd : fin d /\ (bR d = 0 \/ p2 (-20) <= bR d).
Hypothesis HD : detail_D r (bR d) <= 3.
Local Notation xs := (map x (seq 0 21)).
Definition dwarm : list (@op B) := [SetX (A := B) x; Poke (A := B) PT (f 0%nat); Poke (A := B) PD d; Pressure]
  ++ @ramp B (fun i => Poke (A := B) PT (f i)) n.
Lemma xs_len : length xs = 21%nat. Proof. now rewrite map_length, seq_length. Qed.
Lemma xs_same : @x_diff B xs xs = false.
Proof.
  unfold x_diff. destruct (existsb _ _) eqn:E; [|reflexivity]. apply existsb_exists in E. destruct E as (i & Hi & E). apply in_seq in Hi.
  unfold xf in E. rewrite (nth_indep _ _ (x 0%nat)) in E by (rewrite xs_len; lia). rewrite map_nth, seq_nth in E by lia.
  rewrite differs_self in E; [discriminate E|]. apply Hx. lia.
Qed.
Lemma warm_start : exists s rr, @drun B [SetX (A := B) x; Poke (A := B) PT (f 0%nat); Poke (A := B) PD d; Pressure] (@detail_fresh B) = Some (s, rr) /\
  @held B dp_new (Some xs) (Some (f 0%nat)) xs (f 0%nat) d s.
Proof. exact (@first_held B x (f 0%nat) d (diff_x m x Hx Hs) (diff_t m (f 0%nat) (Hf 0%nat ltac:(lia)))). Qed.
Lemma warm_end : exists s rr, @dexec B New dwarm = Some (s, rr) /\ @held B dp_new (Some xs) (Some (f 0%nat)) xs (f n) d s.
Proof.
  destruct warm_start as (s & rr & E & H).
  destruct (@d_ramp_t B dp_new f _ _ _ _ s H xs_same n) as (s' & r' & E' & H').
  - intros i Hi. apply differs_near; [apply Hf; lia|apply Hf; lia|now apply Hstep].
  - do 2 eexists. split; [|exact H']. unfold dwarm. exact (@dexec_app B New _ _ _ _ _ _ (@dexec_new B _ _ _ E) E').
Qed.
Lemma drift_double : exists s rr s' v s1 r1 s2 w, @dexec B New dwarm = Some (s, rr) /\
  @dstep B Pressure s = Some (s', OVal (A := B) v) /\ fin v /\
  Rabs (bR v - bR d * (831451 / 100000) * bR (f n) * detail_Z r (bR (f 0%nat)) (bR d))
    <= 3 / 20000000000 * (bR d * (831451 / 100000) * bR (f n) * detail_size r (bR (f 0%nat)) (bR d)) /\
  @dexec B New (@dcopy B s) = Some (s1, r1) /\ @dsame B s s1 /\ @dstep B Pressure s1 = Some (s2, OVal (A := B) w) /\ fin w /\
  Rabs (bR w - detail_p r (bR (f n)) (bR d)) <= 3 / 20000000000 * (bR d * (831451 / 100000) * bR (f n) * detail_size r (bR (f n)) (bR d)).
Proof.
  destruct warm_end as (s & rr & E & H). destruct (@held_pressure B _ _ _ _ _ _ H xs_same) as (s' & E').
  { apply differs_self, Hf. lia. }
  pose proof (pp_held m A x (f 0%nat) d Hx Hs (Hf 0%nat ltac:(lia)) Hd HD (f n) (Hf n ltac:(lia))) as [F1 V1].
  pose proof (pp_held m A x (f n) d Hx Hs (Hf n ltac:(lia)) Hd HD (f n) (Hf n ltac:(lia))) as [F2 V2].
  destruct H as [W X T D XO TO].
  destruct (@copy_pressure B s xs (f n) d X T D xs_len (diff_x m x Hx Hs) (diff_t m (f n) (Hf n ltac:(lia)))) as (s1 & r1 & C1 & C2 & s2 & C3).
  do 8 eexists.
  split; [exact E|]. split; [exact E'|]. split; [exact F1|]. split; [exact V1|]. split; [exact C1|]. split; [exact C2|].
  split; [exact C3|]. split; [exact F2|]. exact V2.
Qed.
End Drift.
