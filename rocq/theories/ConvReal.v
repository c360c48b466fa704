(* density over the reals succeeds when it starts in a nearly ideal region. *)
From Coq Require Import Reals ZArith List Bool Lra Lia.
From Coquelicot Require Import Coquelicot.
From Interval Require Import Tactic.
From Verif Require Import FArith Prelude Tab Composition DetailTables DetailModel DetailPure
  DetailRefine DetailEval GergTables GergModel GergPure GergRefine GergEval Api ApiSafe SpecGeneric
  SpecHistory DensityProofs BasicProofs GenericLemmas HistoryDetail HistoryGerg ArithR RSum SpecReal
  Thermo DetailReal DetailThermo GergReal GergThermo Newton NewtonReal SpecGerg SpecIdeal SpecConv Converge.
Import ListNotations.
Local Open Scope R_scope.
Local Existing Instance ArithR.
Local Opaque ar_of ar00 ar01 ar02 ar03 ar10 ar11 ar20 cTun cBs cCsn cK3 x_diff pa0 pmm tab
  pressure properties gerg_pressure gerg_properties gterms arT arS tab2 nxold gc_red gc_tau ga0 gmm gx_diff.

Lemma range_ok d0 v : 1 / 1000000000000000 <= d0 <= 400 -> Rabs (v - - ln d0) <= 1 -> @vlog_ok ArithR v = true.
Proof.
  intros Hd Hv. apply Rabs_le_inv in Hv. unfold vlog_ok. rar. cbn [Rlit]. change (10 ^ 0)%Z with 1%Z.
  assert (ln d0 <= 6).
  { rewrite <- (ln_exp 6). apply ln_le; [lra|]. apply Rle_trans with 400; [lra|]. interval. }
  assert (-50 <= ln d0).
  { rewrite <- (ln_exp (-50)). apply ln_le; [apply exp_pos|]. apply Rle_trans with (1 / 1000000000000000); [interval|lra]. }
  apply andb_true_iff. split; apply Rleb_true; lra.
Qed.

Ltac no := match goal with |- context [@flt ArithR ?a ?b] => rewrite (nlt a b) end.
Ltac yes := match goal with |- context [@flt ArithR ?a ?b] => rewrite (ylt a b) end.

(* the values stay away from the thresholds of the code *)
Lemma thresholds p q P d0 v n : 0 < d0 -> 0 < P -> (forall d, d0 / 3 <= d <= 3 * d0 -> 0 < p d /\ 5 / 6 * p d <= d * q d <= 7 / 6 * p d) ->
  2 / 1000000000000000 <= P -> d0 / 100000000000000 <= P -> good p P d0 n v ->
  1 / 1000000000000000 <= p (exp (- v)) /\ 1 / 1000000000000000 <= q (exp (- v)).
Proof.
  intros Hd HP H P1 P2 G. pose proof (good_near _ _ _ _ _ G) as Hv. pose proof (near_d d0 Hd v Hv) as Hn.
  destruct (H _ Hn) as [A B]. destruct G as [_ G]. pose proof (pow_box n) as Pn.
  assert (- (406 / 1000) <= fN p (ln P) v) as L by (apply Rabs_le_inv in G; nra).
  assert (66 / 100 * P <= p (exp (- v))) as Lp.
  { replace (p (exp (- v))) with (P * exp (fN p (ln P) v)).
    - rewrite Rmult_comm. apply Rmult_le_compat_l; [lra|]. apply Rle_trans with (exp (- (406 / 1000))); [interval|].
      destruct L as [L|L]; [left; now apply exp_increasing|rewrite L; lra].
    - unfold fN, Rminus. rewrite exp_plus, (exp_Ropp (ln P)), (exp_ln P HP), (exp_ln _ A). field. lra. }
  split; [lra|]. apply (Rmult_le_reg_l (exp (- v))); [apply exp_pos|]. lra.
Qed.

Section D.
Variables (k : start) (V : list (list R * R)) (x : list R) (t P d0 : R).
Hypothesis HV : @separated ArithR 0 V.
Hypothesis HL : forall x t, In (x, t) V -> length x = 21%nat.
Hypothesis Hin : In (x, t) V.
Hypothesis Ht : 1 / 10000000 < t.
Let p := dpres k (fun j => nth j x 0) t.
Let q := dprop k PDpDd (fun j => nth j x 0) t.
Hypothesis Hd0 : 1 / 1000000000000000 <= d0 <= 400.
Hypothesis P1 : 2 / 1000000000000000 <= P.
Hypothesis P2 : d0 / 100000000000000 <= P.
Hypothesis H : forall d, d0 / 3 <= d <= 3 * d0 -> 0 < p d /\ 5 / 6 * p d <= d * q d <= 7 / 6 * p d.
Hypothesis H0 : 2 / 3 * P <= p d0 <= 3 / 2 * P.

Lemma d_loop j : forall n m v (s : @Detail ArithR), (n + j = 17)%nat -> good p P d0 n v -> @HistoryDetail.hinv ArithR (dpar k) V s ->
  d_x s = x -> d_t s = t -> DetailModel.d_p s = P ->
  exists s' n' w, density_loop (S j + m) (ln P : @F ArithR) (v : @F ArithR) s = Some (s', ROk) /\
    good p P d0 n' w /\ Rabs (step p q P w) < 1 / 10000000 /\ d_d s' = exp (- (w - step p q P w)) /\ dframe [PD; PZ] s s'.
Proof.
  assert (Dp : 0 < d0) by lra. assert (HP : 0 < P) by lra.
  assert (D1 : forall d, 0 < d -> is_derive p d (q d)) by (intros d Hd; apply (d_D1 k x t Ht d Hd)).
  assert (Hx : length x = 21%nat) by exact (HL _ _ Hin).
  assert (Ha : @xapart ArithR 0 x (repeat (@f0 ArithR) 21)) by (rewrite <- Hx; exact (proj1 (proj2 HV _ _ Hin))).
  induction j as [|j IH]; intros n m v s En G Hh Ex Et Ep.
  all: destruct (thresholds p q P d0 v n Dp HP H P1 P2 G) as [T1 T2].
  all: cbn [Nat.add]; rewrite density_loop_S, (range_ok d0 v Hd0 (good_near _ _ _ _ _ G)); cbn [negb].
  all: change (@fexp ArithR (@fneg ArithR (v : @F ArithR))) with (exp (- v)).
  all: destruct (HistoryDetail.press_hist _ HV HL (set_d_d (exp (- v) : @F ArithR) s)
     (HistoryDetail.hinv_poke _ PD (exp (- v) : @F ArithR) _ Hh)) as (s2 & E2 & Hh2 & Hf & Hc & Ed);
     [cbn; change (In (d_x s, d_t s) V); rewrite Ex, Et; exact Hin|].
  all: change (d_x (set_d_d (exp (- v) : @F ArithR) s)) with (d_x s) in *; change (d_t (set_d_d (exp (- v) : @F ArithR) s)) with (d_t s) in *;
    change (d_d (set_d_d (exp (- v) : @F ArithR) s)) with (exp (- v) : @F ArithR) in *; rewrite Ex, Et in E2, Ed.
  all: assert (Edd : d_d s2 = exp (- v)) by (apply (proj2 Hf PD); intros [|[]]; discriminate).
  all: assert (Ex2 : d_x s2 = x) by (rewrite (proj1 Hf); exact Ex).
  all: assert (Et2 : d_t s2 = t) by (rewrite <- Et; apply (proj2 Hf PT); intros [|[]]; discriminate).
  all: assert (Ep2 : DetailModel.d_p s2 = P) by (rewrite <- Ep; apply (proj2 Hf PP); intros [|[]]; discriminate).
  all: assert (Fr : dframe [PD; PZ] s s2) by (eapply dframe_trans; [apply (dframe_set_d (exp (- v) : @F ArithR) s); now left|];
     eapply dframe_incl; [|exact Hf]; intros ? [<-|[]]; right; now left).
  all: rewrite E2; cbn [bind]; rewrite (dpdd_some k x t Hx Ha Ht) in Ed; rewrite (dpres_some k x t Hx Ha Ht); rewrite Ed, Edd; fold p q.
  all: no; [|rewrite lit15; exact T2]; no; [|rewrite lit15; exact T1]; cbn [orb]; cbv zeta.
  all: match goal with |- context [@fabs ArithR ?w] => change w with (step p q P v) end.
  all: change (@fsub ArithR v (step p q P v)) with (v - step p q P v).
  - pose proof (last_step p q P d0 Dp H v) as LS. replace n with 17%nat in G by lia. specialize (LS G).
    yes; [|rar; unfold TOLR; rar; cbn [Rlit]; change (IZR (10 ^ 7)) with 10000000; exact LS].
    do 3 eexists. split; [reflexivity|]. split; [exact G|]. split; [exact LS|]. split; [reflexivity|].
    eapply dframe_trans; [exact Fr|apply dframe_set_d; now left].
  - destruct (Rlt_le_dec (Rabs (step p q P v)) (1 / 10000000)) as [LS|LS].
    + yes; [|rar; unfold TOLR; rar; cbn [Rlit]; change (IZR (10 ^ 7)) with 10000000; exact LS].
      do 3 eexists. split; [reflexivity|]. split; [exact G|]. split; [exact LS|]. split; [reflexivity|].
      eapply dframe_trans; [exact Fr|apply dframe_set_d; now left].
    + no; [|rar; unfold TOLR; rar; cbn [Rlit]; change (IZR (10 ^ 7)) with 10000000; exact LS].
      destruct (IH (S n) m (v - step p q P v) s2) as (s' & n' & w & E & G' & S' & D' & F'); trivial; [lia|apply (good_next p q P d0 Dp D1 H n v G)|].
      exists s', n', w. split; [exact E|]. split; [exact G'|]. split; [exact S'|]. split; [exact D'|]. eapply dframe_trans; [exact Fr|exact F'].
Qed.
End D.

Lemma d_guess_eq (s : @Detail ArithR) : @dguess ArithR s = first_guess RD (d_d s) (DetailModel.d_p s) (d_t s).
Proof.
  unfold dguess, first_guess. destruct (Rlt_dec _ _) as [L|L].
  - yes; [reflexivity|]. rar. rewrite lit15. exact L.
  - no; [reflexivity|]. rar. rewrite lit15. lra.
Qed.
Lemma d_converges l i k s r : dexec k l = Some (s, r) -> separated 0 (dasked (l ++ [Density i])) -> 0 < d_t s ->
  let p := dpres k (fun j => nth j (d_x s) 0) (d_t s) in let P := DetailModel.d_p s in
  let d0 := first_guess RD (d_d s) P (d_t s) in
  1 / 1000000000000000 <= d0 <= 400 -> 2 / 1000000000000000 <= P -> d0 / 100000000000000 <= P -> nearly_ideal p d0 P ->
  exists s' e, dstep (Density i) s = Some (s', ODens ROk) /\ dframe [PD; PZ] s s' /\
    Rabs (p (d_d s') - P) <= 1 / 10000000 * P /\ Rabs (d_d s' - e) <= 1 / 10000000 * e /\
    d0 / 3 <= e <= 3 * d0 /\ p e = P /\ forall e', d0 / 3 <= e' <= 3 * d0 -> p e' = P -> e' = e.
Proof.
  intros E HV Ht0 p P d0 Hd0 P1 P2 [NI0 NI].
  destruct (d_hinv k l [Density i] s r E HV) as (Hh & Hin & HL).
  specialize (Hin _ (or_introl eq_refl)).
  destruct (proj2 HV _ _ Hin) as [_ Hta]. pose proof (apart0_t _ Hta Ht0) as Ht. clear Hta.
  assert (Dp : 0 < d0) by lra. assert (HP : 0 < P) by lra.
  set (q := dprop k PDpDd (fun j => nth j (d_x s) 0) (d_t s)).
  assert (D1 : forall d, 0 < d -> is_derive p d (q d)) by (intros d Hd; apply (d_D1 k (d_x s) (d_t s) Ht d Hd)).
  assert (H : forall d, d0 / 3 <= d <= 3 * d0 -> 0 < p d /\ 5 / 6 * p d <= d * q d <= 7 / 6 * p d).
  { intros d Hd. rewrite <- (is_derive_unique _ _ _ (D1 d ltac:(lra))). now apply NI. }
  cbn [dstep]. unfold density. no; [|rar; fold P; rewrite Rabs_pos_eq, lit15 by lra; lra].
  cbv zeta. rewrite density_start_eq, d_guess_eq. fold P. fold d0.
  destruct (d_loop k _ (d_x s) (d_t s) P d0 HV HL Hin Ht Hd0 P1 P2 H 17 0 2 (- ln d0) (set_d_d (d0 : @F ArithR) s) eq_refl
    (good_start p P d0 Dp HP NI0) (HistoryDetail.hinv_poke _ PD (d0 : @F ArithR) s Hh) eq_refl eq_refl eq_refl) as (s' & n & w & E1 & G & HS & Ed & Fr).
  change (S 17 + 2)%nat with 20%nat in E1.
  destruct (accepted p q P d0 Dp HP D1 H NI0 n w G HS) as (A1 & A2 & e & A3 & A4 & A5).
  exists s', e. split.
  { change (DetailModel.d_p (set_d_d (d0 : @F ArithR) s)) with P. change (@fneg ArithR (@fln ArithR (d_d (set_d_d (d0 : @F ArithR) s)))) with (- ln d0).
    change (@fln ArithR P) with (ln P). rewrite E1. reflexivity. }
  split. { eapply dframe_trans; [apply (dframe_set_d (d0 : @F ArithR) s); now left|exact Fr]. }
  rewrite Ed. split; [exact A1|]. split; [exact A5|]. split; [exact A3|]. split; [exact A4|].
  intros e' He' Ee'. apply (unique p q d0 Dp D1 H); trivial. lra.
Qed.

Lemma gdensity_loop_it {A : Arith} n iflag dcx plog it vlog (s : @Gerg A) : vlog_ok vlog = true -> (it < 20)%nat ->
  gdensity_loop (S n) iflag dcx plog it 0 false vlog s =
  bind (gerg_pressure (set_g_d (fexp (fneg vlog)) s)) (fun '(s, p2) =>
    if flt (g_dpddsave s) GEPSILON || flt p2 GEPSILON then
      gdensity_loop n iflag dcx plog (S it) 0 false (fadd vlog (gvinc it (g_d s) dcx)) s
    else let vdiff := fdiv (fmul (fsub (fln p2) plog) p2) (fmul (fneg (g_d s)) (g_dpddsave s)) in
      if flt (fabs vdiff) TOLR then
        if flt (g_dpddsave s) f0 then gdensity_loop n iflag dcx plog (S it) 0 true (fadd vlog (fneg vdiff)) s
        else let s := set_g_d (fexp (fneg (fadd vlog (fneg vdiff)))) s in
          if (0 <? iflag)%Z then gdensity_check s else Some (s, ROk)
      else gdensity_loop n iflag dcx plog (S it) 0 false (fadd vlog (fneg vdiff)) s).
Proof.
  intros H L. cbn [gdensity_loop]. rewrite H. cbn [negb orb].
  rewrite (proj2 (Nat.eqb_neq it 20)), (proj2 (Nat.eqb_neq it 30)), (proj2 (Nat.eqb_neq it 40)) by lia. reflexivity.
Qed.

Section G.
Variables (k : start) (V : list (list R * R)) (x : list R) (t P d0 : R) (i : Z) (dcx : R).
Hypothesis HV : separated 1 V.
Hypothesis HL : forall x t, In (x, t) V -> length x = 22%nat.
Hypothesis Hin : In (x, t) V.
Hypothesis Hs : exists j, (1 <= j < 22)%nat /\ 1 / 10000000 < nth j x 0.
Hypothesis Ht : 1 / 10000000 < t.
Hypothesis Hi : (i <= 0)%Z.
Let p := gpres k (fun j => nth j x 0) t.
Let q := gprop k PDpDd (fun j => nth j x 0) t.
Hypothesis Hd0 : 1 / 1000000000000000 <= d0 <= 400.
Hypothesis P1 : 2 / 1000000000000000 <= P.
Hypothesis P2 : d0 / 100000000000000 <= P.
Hypothesis H : forall d, d0 / 3 <= d <= 3 * d0 -> 0 < p d /\ 5 / 6 * p d <= d * q d <= 7 / 6 * p d.

Lemma g_loop j : forall n m v (s : @Gerg ArithR), (n + j = 17)%nat -> good p P d0 n v -> @HistoryGerg.hinv ArithR (gpar k) V s ->
  g_x s = x -> g_t s = t -> GergModel.g_p s = P ->
  exists s' n' w, gdensity_loop (S j + m) i (dcx : @F ArithR) (ln P : @F ArithR) (S n) 0 false (v : @F ArithR) s = Some (s', ROk) /\
    good p P d0 n' w /\ Rabs (step p q P w) < 1 / 10000000 /\ g_d s' = exp (- (w - step p q P w)) /\ gframe [PD; PZ] s s'.
Proof.
  assert (Dp : 0 < d0) by lra. assert (HP : 0 < P) by lra. assert (Hx : length x = 22%nat) by exact (HL _ _ Hin).
  assert (D1 : forall d, 0 < d -> is_derive p d (q d)) by (intros d Hd; apply (g_D1 k x t Hs Ht d Hd)).
  induction j as [|j IH]; intros n m v s En G Hh Ex Et Ep.
  all: destruct (thresholds p q P d0 v n Dp HP H P1 P2 G) as [T1 T2].
  all: cbn [Nat.add]; rewrite gdensity_loop_it; [|apply (range_ok d0 v Hd0 (good_near _ _ _ _ _ G))|lia].
  all: change (@fexp ArithR (@fneg ArithR (v : @F ArithR))) with (exp (- v)).
  all: destruct (HistoryGerg.press_hist _ HV HL (set_g_d (exp (- v) : @F ArithR) s)
     (hinv_set_gd _ (exp (- v) : @F ArithR) _ Hh)) as (s2 & E2 & Hh2 & Hf & Hc & Ed);
     [cbn; change (In (g_x s, g_t s) V); rewrite Ex, Et; exact Hin|].
  all: change (g_x (set_g_d (exp (- v) : @F ArithR) s)) with (g_x s) in *; change (g_t (set_g_d (exp (- v) : @F ArithR) s)) with (g_t s) in *;
    change (g_d (set_g_d (exp (- v) : @F ArithR) s)) with (exp (- v) : @F ArithR) in *; rewrite Ex, Et in E2, Ed.
  all: assert (Edd : g_d s2 = exp (- v)) by (apply (proj2 Hf PD); intros [|[]]; discriminate).
  all: assert (Ex2 : g_x s2 = x) by (rewrite (proj1 Hf); exact Ex).
  all: assert (Et2 : g_t s2 = t) by (rewrite <- Et; apply (proj2 Hf PT); intros [|[]]; discriminate).
  all: assert (Ep2 : GergModel.g_p s2 = P) by (rewrite <- Ep; apply (proj2 Hf PP); intros [|[]]; discriminate).
  all: assert (Fr : gframe [PD; PZ] s s2) by (eapply gframe_trans; [apply (gframe_set_d (exp (- v) : @F ArithR) s); now left|];
     eapply gframe_incl; [|exact Hf]; intros ? [<-|[]]; right; now left).
  all: rewrite E2; cbn [bind]; rewrite (gpdd_some k x t Hx Hs Ht) in Ed; rewrite (gpres_some k x t Hx Hs Ht); rewrite Ed, Edd; fold p q.
  all: no; [|rewrite glit15; exact T2]; no; [|rewrite glit15; exact T1]; cbn [orb]; cbv zeta.
  all: match goal with |- context [@fabs ArithR ?w] => change w with (step p q P v) end.
  all: change (@fadd ArithR v (@fneg ArithR (step p q P v))) with (v - step p q P v).
  - pose proof (last_step p q P d0 Dp H v) as LS. replace n with 17%nat in G by lia. specialize (LS G).
    yes; [|rar; unfold TOLR; rar; cbn [Rlit]; change (IZR (10 ^ 7)) with 10000000; exact LS].
    no; [|unfold f0; rar; cbn [Rlit]; eapply Rle_trans; [|exact T2]; lra]. destruct (Z.ltb_spec 0 i); [lia|].
    do 3 eexists. split; [reflexivity|]. split; [exact G|]. split; [exact LS|]. split; [reflexivity|].
    eapply gframe_trans; [exact Fr|apply gframe_set_d; now left].
  - destruct (Rlt_le_dec (Rabs (step p q P v)) (1 / 10000000)) as [LS|LS].
    + yes; [|rar; unfold TOLR; rar; cbn [Rlit]; change (IZR (10 ^ 7)) with 10000000; exact LS].
      no; [|unfold f0; rar; cbn [Rlit]; eapply Rle_trans; [|exact T2]; lra]. destruct (Z.ltb_spec 0 i); [lia|].
      do 3 eexists. split; [reflexivity|]. split; [exact G|]. split; [exact LS|]. split; [reflexivity|].
      eapply gframe_trans; [exact Fr|apply gframe_set_d; now left].
    + no; [|rar; unfold TOLR; rar; cbn [Rlit]; change (IZR (10 ^ 7)) with 10000000; exact LS].
      destruct (IH (S n) m (v - step p q P v) s2) as (s' & n' & w & E & G' & S' & D' & F'); trivial; [lia|apply (good_next p q P d0 Dp D1 H n v G)|].
      exists s', n', w. split; [exact E|]. split; [exact G'|]. split; [exact S'|]. split; [exact D'|]. eapply gframe_trans; [exact Fr|exact F'].
Qed.
End G.

Lemma g_guess_eq i (s : @Gerg ArithR) : (i <= 0)%Z -> @gguess ArithR i s = first_guess Rg (g_d s) (GergModel.g_p s) (g_t s).
Proof.
  intros Hi. unfold gguess, first_guess. destruct (Z.eqb_spec i 2); [lia|]. destruct (Rlt_dec _ _) as [L|L].
  - yes; [reflexivity|]. rar. rewrite glit15. exact L.
  - no; [reflexivity|]. rar. rewrite glit15. lra.
Qed.
Lemma g_converges l i k s r : gexec k l = Some (s, r) -> separated 1 (gasked (l ++ [Density i])) -> (i <= 0)%Z ->
  (exists j, (1 <= j < 22)%nat /\ 1 / 10000000 < nth j (g_x s) 0) -> 0 < g_t s ->
  let p := gpres k (fun j => nth j (g_x s) 0) (g_t s) in let P := GergModel.g_p s in
  let d0 := first_guess Rg (g_d s) P (g_t s) in
  1 / 1000000000000000 <= d0 <= 400 -> 2 / 1000000000000000 <= P -> d0 / 100000000000000 <= P -> nearly_ideal p d0 P ->
  exists s' e, gstep (Density i) s = Some (s', ODens ROk) /\ gframe [PD; PZ] s s' /\
    Rabs (p (g_d s') - P) <= 1 / 10000000 * P /\ Rabs (g_d s' - e) <= 1 / 10000000 * e /\
    d0 / 3 <= e <= 3 * d0 /\ p e = P /\ forall e', d0 / 3 <= e' <= 3 * d0 -> p e' = P -> e' = e.
Proof.
  intros E HV Hi Hs Ht0 p P d0 Hd0 P1 P2 [NI0 NI].
  destruct (g_hinv k l [Density i] s r E HV) as (Hh & Hin & HL).
  specialize (Hin _ (or_introl eq_refl)). pose proof (HL _ _ Hin) as Hx.
  destruct (proj2 HV _ _ Hin) as [_ Hta]. pose proof (apart0_t _ Hta Ht0) as Ht. clear Hta.
  assert (Dp : 0 < d0) by lra. assert (HP : 0 < P) by lra.
  set (q := gprop k PDpDd (fun j => nth j (g_x s) 0) (g_t s)).
  assert (D1 : forall d, 0 < d -> is_derive p d (q d)) by (intros d Hd; apply (g_D1 k (g_x s) (g_t s) Hs Ht d Hd)).
  assert (H : forall d, d0 / 3 <= d <= 3 * d0 -> 0 < p d /\ 5 / 6 * p d <= d * q d <= 7 / 6 * p d).
  { intros d Hd. rewrite <- (is_derive_unique _ _ _ (D1 d ltac:(lra))). now apply NI. }
  cbn [gstep]. unfold gerg_density. rewrite (pcp_ok s Hx). cbn [bind].
  cbv zeta. rewrite (gdensity_start_eq i s Hx), (g_guess_eq i s Hi). fold P. fold d0.
  destruct (g_loop k _ (g_x s) (g_t s) P d0 i (@gdcx ArithR (xf (g_x s))) HV HL Hin Hs Ht Hi Hd0 P1 P2 H 17 0 32 (- ln d0) (set_g_d (d0 : @F ArithR) s) eq_refl
    (good_start p P d0 Dp HP NI0) (hinv_set_gd _ (d0 : @F ArithR) s Hh) eq_refl eq_refl eq_refl) as (s' & n & w & E1 & G & HS & Ed & Fr).
  change (S 17 + 32)%nat with 50%nat in E1.
  destruct (accepted p q P d0 Dp HP D1 H NI0 n w G HS) as (A1 & A2 & e & A3 & A4 & A5).
  exists s', e. split.
  { change (GergModel.g_p (set_g_d (d0 : @F ArithR) s)) with P. change (@fneg ArithR (@fln ArithR (g_d (set_g_d (d0 : @F ArithR) s)))) with (- ln d0).
    change (@fln ArithR P) with (ln P). rewrite E1. reflexivity. }
  split. { eapply gframe_trans; [apply (gframe_set_d (d0 : @F ArithR) s); now left|exact Fr]. }
  rewrite Ed. split; [exact A1|]. split; [exact A5|]. split; [exact A3|]. split; [exact A4|].
  intros e' He' Ee'. apply (unique p q d0 Dp D1 H); trivial. lra.
Qed.
