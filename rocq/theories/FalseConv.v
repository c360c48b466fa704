(* density accepts a density whose pressure is far from the requested one when the pressure there is small: the Newton
   correction in ln p is multiplied by p. *)
From Coq Require Import Reals ZArith List Bool Lra Lia.
From Coquelicot Require Import Coquelicot.
From Verif Require Import FArith Prelude Tab Composition DetailTables DetailModel DetailPure
  DetailRefine DetailEval GergTables GergModel GergPure GergRefine GergEval Api ApiSafe SpecGeneric
  SpecHistory DensityProofs BasicProofs GenericLemmas HistoryDetail HistoryGerg ArithR RSum SpecReal
  Thermo DetailReal DetailThermo GergReal GergThermo Newton NewtonReal.
Import ListNotations.
Local Open Scope R_scope.
Local Existing Instance ArithR.
Local Opaque ar_of ar00 ar01 ar02 ar03 ar10 ar11 ar20 cTun cBs cCsn cK3 x_diff pa0 pmm tab
  pressure properties gerg_pressure gerg_properties gterms arT arS tab2 nxold gc_red gc_tau ga0 gmm gx_diff.

Lemma step_lt a p q d : 0 < d -> 0 < q -> Rabs a * p < 1 / 10000000 * (d * q) -> 0 < p -> Rabs (a * p / (- d * q)) < 1 / 10000000.
Proof.
  intros Hd Hq H Hp. assert (0 < d * q) by nra. replace (a * p / (- d * q)) with (- (a * p / (d * q))) by (field; lra).
  rewrite Rabs_Ropp. unfold Rdiv. rewrite Rabs_mult, Rabs_mult, (Rabs_pos_eq p), (Rabs_pos_eq (/ (d * q))) by (try lra; left; now apply Rinv_0_lt_compat).
  apply (Rmult_lt_reg_r (d * q)); [lra|]. rewrite Rmult_assoc, Rinv_l, Rmult_1_r by lra. lra.
Qed.
Lemma d_one k l i s r d0 : dexec k l = Some (s, r) -> separated 0 (dasked (l ++ [Density i])) ->
  0 < d_t s -> let p := dpres k (fun j => nth j (d_x s) 0) (d_t s) in
  1 / 1000000000000000 <= d0 <= exp 7 -> d_d s = - d0 -> 1 / 1000000000000000 <= DetailModel.d_p s ->
  1 / 1000000000000000 <= p d0 -> 1 / 1000000000000000 <= Derive p d0 ->
  Rabs (ln (p d0) - ln (DetailModel.d_p s)) * p d0 < 1 / 10000000 * (d0 * Derive p d0) ->
  exists s' w, Rabs w < 1 / 10000000 /\ dstep (Density i) s = Some (s', ODens ROk) /\ d_d s' = d0 * exp w /\ dframe [PD; PZ] s s'.
Proof.
  intros E HV Ht0 p Hd0 Hd Hp Hp1 Hq1 Hw.
  destruct (d_hinv k l [Density i] s r E HV) as (Hh & Hin & HL).
  specialize (Hin _ (or_introl eq_refl)).
  destruct (proj2 HV _ _ Hin) as [Ha Hta]. pose proof (HL _ _ Hin) as Hx. rewrite Hx in Ha.
  pose proof (apart0_t _ Hta Ht0) as Ht. clear Hta.
  destruct (guess_range d0 (proj1 Hd0) (proj2 Hd0)) as [Hv He].
  assert (Dq : Derive p d0 = dprop k PDpDd (fun j => nth j (d_x s) 0) (d_t s) d0).
  { apply is_derive_unique. apply (d_D1 k (d_x s) (d_t s) Ht). lra. }
  assert (G : dguess s = d0).
  { unfold dguess. rewrite Hd. no; [|rar; rewrite lit15; lra].
    rar. rewrite Rabs_Ropp, Rabs_right by lra. reflexivity. }
  cbn [dstep]. unfold density.
  no; [|rar; rewrite Rabs_right, lit15 by lra; exact Hp].
  cbv zeta. rewrite density_start_eq, G. rewrite density_loop_S.
  change (d_d (set_d_d (d0 : @F ArithR) s)) with (d0 : @F ArithR). rewrite Hv. cbn [negb]. cbv zeta.
  change (@fexp ArithR (@fneg ArithR (@fneg ArithR (@fln ArithR d0)))) with (exp (- - ln d0)). rewrite He.
  destruct (HistoryDetail.press_hist _ HV HL (set_d_d (d0 : @F ArithR) (set_d_d (d0 : @F ArithR) s))
     (HistoryDetail.hinv_poke _ PD (d0 : @F ArithR) _ (HistoryDetail.hinv_poke _ PD (d0 : @F ArithR) s Hh)) Hin)
     as (s2 & E2 & _ & Hf & _ & Ed).
  assert (Edd : d_d s2 = d0) by (apply (proj2 Hf PD); intros [|[]]; discriminate).
  rewrite E2. cbn [bind]. clear E2.
  change (d_x (set_d_d (d0 : @F ArithR) (set_d_d (d0 : @F ArithR) s))) with (d_x s) in *. change (d_t (set_d_d (d0 : @F ArithR) (set_d_d (d0 : @F ArithR) s))) with (d_t s) in *.
  change (d_d (set_d_d (d0 : @F ArithR) (set_d_d (d0 : @F ArithR) s))) with (d0 : @F ArithR) in *.
  rewrite (dpdd_some k (d_x s) (d_t s) Hx Ha Ht) in Ed.
  rewrite (dpres_some k (d_x s) (d_t s) Hx Ha Ht). fold p. rewrite Ed, Edd.
  rewrite Dq in Hq1, Hw. no; [|rewrite lit15; exact Hq1]. no; [|rewrite lit15; exact Hp1].
  cbn [orb]. change (DetailModel.d_p (set_d_d (d0 : @F ArithR) s)) with (DetailModel.d_p s).
  set (w := @fdiv ArithR _ _).
  assert (Cw : Rabs w < 1 / 10000000).
  { unfold w. apply step_lt; [lra|eapply Rlt_le_trans; [|exact Hq1]; lra|exact Hw|eapply Rlt_le_trans; [|exact Hp1]; lra]. }
  yes.
  2: { rar. unfold TOLR. rar. cbn [Rlit]. change (IZR (10 ^ 7)) with 10000000. exact Cw. }
  cbn [bind].
  assert (Ee : exp (- (- ln d0 - w)) = d0 * exp w) by (replace (- (- ln d0 - w)) with (- - ln d0 + w) by ring; now rewrite exp_plus, He).
  eexists. exists w. split; [exact Cw|]. split; [reflexivity|]. split; [exact Ee|].
  eapply dframe_trans; [apply (dframe_set_d (d0 : @F ArithR) s); now left|].
  eapply dframe_trans; [apply (dframe_set_d (d0 : @F ArithR)); now left|].
  eapply dframe_trans; [eapply dframe_incl; [|exact Hf]|apply dframe_set_d; now left].
  intros ? [<-|[]]. right. now left.
Qed.
Lemma g_one k l i s r d0 : gexec k l = Some (s, r) -> separated 1 (gasked (l ++ [Density i])) ->
  (i <= 0)%Z -> (exists j, (1 <= j < 22)%nat /\ 1 / 10000000 < nth j (g_x s) 0) ->
  0 < g_t s -> let p := gpres k (fun j => nth j (g_x s) 0) (g_t s) in
  1 / 1000000000000000 <= d0 <= exp 7 -> g_d s = - d0 -> 1 / 1000000000000000 <= GergModel.g_p s ->
  1 / 1000000000000000 <= p d0 -> 1 / 1000000000000000 <= Derive p d0 ->
  Rabs (ln (p d0) - ln (GergModel.g_p s)) * p d0 < 1 / 10000000 * (d0 * Derive p d0) ->
  exists s' w, Rabs w < 1 / 10000000 /\ gstep (Density i) s = Some (s', ODens ROk) /\ g_d s' = d0 * exp w /\ gframe [PD; PZ] s s'.
Proof.
  intros E HV Hi Hs Ht0 p Hd0 Hd Hp Hp1 Hq1 Hw.
  destruct (g_hinv k l [Density i] s r E HV) as (Hh & Hin & HL).
  specialize (Hin _ (or_introl eq_refl)).
  destruct (proj2 HV _ _ Hin) as [_ Hta]. pose proof (HL _ _ Hin) as Hx.
  pose proof (apart0_t _ Hta Ht0) as Ht. clear Hta.
  destruct (guess_range d0 (proj1 Hd0) (proj2 Hd0)) as [Hv He].
  assert (Dq : Derive p d0 = gprop k PDpDd (fun j => nth j (g_x s) 0) (g_t s) d0).
  { apply is_derive_unique. apply (g_D1 k (g_x s) (g_t s) Hs Ht). lra. }
  assert (G : gguess i s = d0).
  { unfold gguess. rewrite Hd. no; [|rar; rewrite glit15; lra].
    rar. rewrite Rabs_Ropp, Rabs_right by lra. reflexivity. }
  cbn [gstep]. unfold gerg_density. rewrite (pcp_ok s Hx). cbn [bind].
  cbv zeta. rewrite (gdensity_start_eq i s Hx), G.
  change (g_d (set_g_d (d0 : @F ArithR) s)) with (d0 : @F ArithR).
  rewrite (gdensity_loop_1 49 _ _ _ _ _ Hv).
  change (@fexp ArithR (@fneg ArithR (@fneg ArithR (@fln ArithR d0)))) with (exp (- - ln d0)). rewrite He.
  destruct (HistoryGerg.press_hist _ HV HL (set_g_d (d0 : @F ArithR) (set_g_d (d0 : @F ArithR) s))
     (hinv_set_gd _ (d0 : @F ArithR) _ (hinv_set_gd _ (d0 : @F ArithR) s Hh)) Hin)
     as (s2 & E2 & _ & Hf & _ & Ed).
  assert (Edd : g_d s2 = d0) by (apply (proj2 Hf PD); intros [|[]]; discriminate).
  rewrite E2. cbn [bind]. clear E2.
  change (g_x (set_g_d (d0 : @F ArithR) (set_g_d (d0 : @F ArithR) s))) with (g_x s) in *.
  change (g_t (set_g_d (d0 : @F ArithR) (set_g_d (d0 : @F ArithR) s))) with (g_t s) in *.
  change (g_d (set_g_d (d0 : @F ArithR) (set_g_d (d0 : @F ArithR) s))) with (d0 : @F ArithR) in *.
  rewrite (gpdd_some k (g_x s) (g_t s) Hx Hs Ht) in Ed.
  rewrite (gpres_some k (g_x s) (g_t s) Hx Hs Ht). fold p. rewrite Ed, Edd.
  rewrite Dq in Hq1, Hw. no; [|rewrite glit15; exact Hq1]. no; [|rewrite glit15; exact Hp1].
  cbn [orb]. change (GergModel.g_p (set_g_d (d0 : @F ArithR) s)) with (GergModel.g_p s).
  set (w := @fdiv ArithR _ _). cbv zeta.
  assert (Cw : Rabs w < 1 / 10000000).
  { unfold w. apply step_lt; [lra|eapply Rlt_le_trans; [|exact Hq1]; lra|exact Hw|eapply Rlt_le_trans; [|exact Hp1]; lra]. }
  yes.
  2: { rar. unfold TOLR. rar. cbn [Rlit]. change (IZR (10 ^ 7)) with 10000000. exact Cw. }
  no; [|unfold f0; rar; cbn [Rlit]; eapply Rle_trans; [|exact Hq1]; lra].
  destruct (Z.ltb_spec 0 i); [lia|]. cbn [bind].
  assert (Ee : exp (- (- ln d0 + - w)) = d0 * exp w) by (replace (- (- ln d0 + - w)) with (- - ln d0 + w) by ring; now rewrite exp_plus, He).
  eexists. exists w. split; [exact Cw|]. split; [reflexivity|]. split; [exact Ee|].
  eapply gframe_trans; [apply (gframe_set_d (d0 : @F ArithR) s); now left|].
  eapply gframe_trans; [apply (gframe_set_d (d0 : @F ArithR)); now left|].
  eapply gframe_trans; [eapply gframe_incl; [|exact Hf]|apply gframe_set_d; now left].
  intros ? [<-|[]]. right. now left.
Qed.


(* pressure after a separated history *)
Lemma d_after k l s r : dexec k l = Some (s, r) -> separated 0 (dasked (l ++ [Pressure])) -> 0 < d_t s ->
  exists s2, dstep Pressure s = Some (s2, OVal (A := ArithR) (dpres k (fun j => nth j (d_x s) 0) (d_t s) (d_d s))) /\ dframe [PZ] s s2.
Proof.
  intros E HV Ht0. destruct (d_hinv k l [Pressure] s r E HV) as (Hh & Hin & HL).
  specialize (Hin _ (or_introl eq_refl)).
  destruct (proj2 HV _ _ Hin) as [Ha Hta]. pose proof (HL _ _ Hin) as Hx. rewrite Hx in Ha.
  pose proof (apart0_t _ Hta Ht0) as Ht. clear Hta.
  destruct (HistoryDetail.press_hist _ HV HL s Hh Hin) as (s2 & E2 & _ & Hf & _).
  exists s2. split; [|exact Hf]. cbn [dstep]. rewrite E2. cbn [bind]. now rewrite (dpres_some k (d_x s) (d_t s) Hx Ha Ht).
Qed.
Lemma g_after k l s r : gexec k l = Some (s, r) -> separated 1 (gasked (l ++ [Pressure])) ->
  (exists j, (1 <= j < 22)%nat /\ 1 / 10000000 < nth j (g_x s) 0) -> 0 < g_t s ->
  exists s2, gstep Pressure s = Some (s2, OVal (A := ArithR) (gpres k (fun j => nth j (g_x s) 0) (g_t s) (g_d s))) /\ gframe [PZ] s s2.
Proof.
  intros E HV Hs Ht0. destruct (g_hinv k l [Pressure] s r E HV) as (Hh & Hin & HL).
  specialize (Hin _ (or_introl eq_refl)).
  destruct (proj2 HV _ _ Hin) as [_ Hta]. pose proof (HL _ _ Hin) as Hx.
  pose proof (apart0_t _ Hta Ht0) as Ht. clear Hta.
  destruct (HistoryGerg.press_hist _ HV HL s Hh Hin) as (s2 & E2 & _ & Hf & _).
  exists s2. split; [|exact Hf]. cbn [gstep]. rewrite E2. cbn [bind]. now rewrite (gpres_some k (g_x s) (g_t s) Hx Hs Ht).
Qed.
