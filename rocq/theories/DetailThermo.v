(* DETAIL over the reals: the API functions of SpecReal.v and their derivatives. *)
From Coq Require Import Reals ZArith List Bool Lra Lia.
From Coquelicot Require Import Coquelicot.
From Verif Require Import FArith Prelude Tab Composition DetailTables DetailModel DetailPure
  DetailRefine DetailEval GergModel Api ApiSafe BasicProofs ArithR RSum SpecReal Thermo DetailReal.
Import ListNotations.
Local Open Scope R_scope.
Local Existing Instance ArithR.

Lemma lit7 : @flit ArithR (L 1 (-7)) = 1 / 10000000.
Proof. reflexivity. Qed.
Lemma lit15 : @EPSILON ArithR = 1 / 1000000000000000.
Proof. reflexivity. Qed.

Section S.
Variables (k : start) (x : nat -> R).
Definition xl : list R := map x (seq 0 21).
Definition dcx : option (list R) := @new_cx ArithR xl (repeat f0 21) None.
Local Existing Instance dpar.
Definition dK : R := @cK3 ArithR (dpar k) dcx.
Definition dB : nat -> R := @cBs ArithR (dpar k) dcx.
Definition dC : nat -> R := @cCsn ArithR (dpar k) dcx.
Definition dk (t : R) : @cache ArithR := kc dK dB dC t.

Definition dbase : @Detail ArithR :=
  match k with New => detail_fresh | Default => detail_default end.
Definition dins (t d : R) : @Detail ArithR := set_d_d (d : F) (set_d_t (t : F) (set_d_x (xl : list F) dbase)).
Lemma dbase_ok : dstart k = Some dbase.
Proof. unfold dbase. destruct k; [exact detail_new_ok|reflexivity]. Qed.
Lemma dbase_wf : @wf _ (dpar k) None None dbase.
Proof. unfold dbase. destruct k; [exact wf_fresh|exact wf_default]. Qed.
Lemma dins_wf t d : @wf _ (dpar k) None None (dins t d).
Proof.
  unfold dins. apply (@wf_poke _ (dpar k) PD), (@wf_poke _ (dpar k) PT), wf_set_x.
  - unfold xl. now rewrite map_length, seq_length.
  - apply dbase_wf.
Qed.
Lemma dins_run t d o : dexec k (inputs x t d ++ [o])
  = ('(s, r) <- dstep o (dins t d) ;; Some (s, [OUnit; OUnit; OUnit; r])).
Proof.
  unfold dexec. rewrite dbase_ok. unfold inputs, dins, xl. cbn [app drun bind dstep dpoke].
  destruct (dstep o _) as [[s r]|]; reflexivity.
Qed.
Lemma dins_xold t d : d_xold (dins t d) = repeat f0 21.
Proof. unfold dins, dbase. destruct k; reflexivity. Qed.
Lemma dins_told t d : d_told (dins t d) = f0.
Proof. unfold dins, dbase. destruct k; reflexivity. Qed.
Lemma dins_t t d : d_t (dins t d) = t. Proof. reflexivity. Qed.
Lemma dins_d t d : d_d (dins t d) = d. Proof. reflexivity. Qed.
Lemma dins_x t d : d_x (dins t d) = xl. Proof. reflexivity. Qed.
Lemma dins_cache t d : 1 / 10000000 < t -> @ncache _ (dpar k) None None (dins t d) = dk t.
Proof.
  intros Ht. unfold ncache, ncx, nct. rewrite dins_xold, dins_told, dins_t, dins_x.
  unfold new_ct, differs. unfold f0. rar. cbn [Rlit]. change (IZR (10 ^ 7)) with 10000000.
  rewrite Rminus_0_r, Rabs_right by lra. apply Rltb_true in Ht. rewrite Ht. reflexivity.
Qed.
Lemma dpres_ok t d : 1 / 10000000 < t -> dpres k x t d = pp (dk t) t d.
Proof.
  intros Ht. unfold dpres. rewrite dins_run. cbn [dstep].
  rewrite (@pressure_ok _ (dpar k) _ _ _ (dins_wf t d)). cbn [bind]. rewrite dins_cache by assumption.
  reflexivity.
Qed.
Definition dX : nat -> R := @xf ArithR xl.
Definition dvals (f : pfield) (t d : R) : R :=
  match f with
  | PT => t | PD => d | PP => qp (dk t) t d | PZ => qz (dk t) t d | PMM => @pmm ArithR dX
  | PDpDd => qdpdd (dk t) t d | PD2pDd2 => qd2pdd2 (dk t) t d | PD2pDtd => 0
  | PDpDt => qdpdt (dk t) d | PU => @qu ArithR (dpar k) (dk t) dX t d
  | PH => @qh ArithR (dpar k) (dk t) dX t d | PS => @qs ArithR (dpar k) (dk t) dX t d
  | PCv => @qcv ArithR (dpar k) (dk t) dX t d | PCp => @qcp ArithR (dpar k) (dk t) dX t d
  | PW => @qw ArithR (dpar k) (dk t) dX t d | PG => @qg ArithR (dpar k) (dk t) dX t d
  | PJt => @qjt ArithR (dpar k) (dk t) dX t d | PKappa => @qkappa ArithR (dpar k) (dk t) dX t d
  end.
Lemma dprop_ok f t d : 1 / 10000000 < t -> dprop k f x t d = dvals f t d.
Proof.
  intros Ht. unfold dprop. rewrite dins_run. cbn [dstep].
  rewrite (@properties_ok _ (dpar k) _ _ _ (dins_wf t d)). cbn [bind].
  rewrite props_flat. cbv zeta. rewrite dins_cache by assumption.
  destruct f; reflexivity.
Qed.

Lemma dX_i i : (i < 21)%nat -> dX i = x i.
Proof.
  intros Hi. unfold dX, xf, xl. rewrite (nth_indep _ _ (x 0%nat)) by (rewrite map_length, seq_length; exact Hi).
  rewrite map_nth. now rewrite seq_nth.
Qed.
Lemma pos_total_rsum n : pos_total x n = rsum (fun i => Rmax 0 (x i)) (seq 0 n).
Proof.
  induction n as [|n IH]; [reflexivity|]. cbn [pos_total]. rewrite seq_S, rsum_app, IH.
  cbn [Nat.add]. rewrite rsum_cons. change (rsum _ []) with 0. ring.
Qed.
Lemma psum_ok : psum dX = pos_total x 21.
Proof.
  rewrite pos_total_rsum. unfold psum. apply rsum_ext. intros i Hi. apply in_seq in Hi.
  unfold px. rewrite dX_i by lia. unfold Rltb. destruct (Rlt_dec 0 (x i)).
  - rewrite Rmax_right; lra.
  - rewrite Rmax_left; lra.
Qed.

Local Notation RD := (@RDETAIL ArithR).
Lemma pp_eq t d : t <> 0 -> pp (dk t) t d = d * (RD * t + @ar01 ArithR (dk t) t d).
Proof.
  intros Ht. unfold pp, pz. rar. unfold f1; rar; cbn [Rlit]. pose proof RD_pos. rar. field. lra.
Qed.
Lemma qp_eq t d : t <> 0 -> qp (dk t) t d = d * (RD * t + @ar01 ArithR (dk t) t d).
Proof.
  intros Ht. unfold qp, qz, qrt. rar. unfold f1; rar; cbn [Rlit]. pose proof RD_pos. rar. field. lra.
Qed.
Local Notation E0 := (@e0 (dpar k) dX).
Local Notation E1 := (@e1 (dpar k) dX).
Local Notation E2 := (@e2 (dpar k) dX).
Local Notation AR00 := (fun t d => @ar00 ArithR (dk t) t d).
Local Notation AR01 := (fun t d => @ar01 ArithR (dk t) t d).
Local Notation AR02 := (fun t d => @ar02 ArithR (dk t) t d).
Local Notation AR03 := (fun t d => @ar03 ArithR (dk t) t d).
Local Notation AR10 := (fun t d => @ar10 ArithR (dk t) d).
Local Notation AR11 := (fun t d => @ar11 ArithR (dk t) d).
Local Notation AR20 := (fun t d => @ar20 ArithR (dk t) d).

(* the values of dvals in terms of the Helmholtz energy terms *)
Lemma v_dpdd t d : dvals PDpDd t d = RD * t + 2 * AR01 t d + AR02 t d.
Proof. reflexivity. Qed.
Lemma v_dpdt t d : dvals PDpDt t d = d * RD + d * AR11 t d.
Proof. reflexivity. Qed.
Lemma v_s t d : dvals PS t d = - E1 t d - AR10 t d.
Proof. reflexivity. Qed.
Lemma v_u t d : dvals PU t d = E0 t d + AR00 t d + t * (- E1 t d - AR10 t d).
Proof. reflexivity. Qed.
Lemma v_cv t d : dvals PCv t d = - (E2 t d + AR20 t d).
Proof. reflexivity. Qed.
Lemma dense_true d : 1 / 1000000000000000 < d -> @qdense ArithR d = true.
Proof. intros H. unfold qdense. rar. rewrite lit15. now apply Rltb_true. Qed.

Lemma sd_P t d : 0 < t -> sd (fun t d => d * (RD * t + AR01 t d)) t d
  (t * dvals PDpDt t d) (d * dvals PDpDd t d).
Proof.
  intros Ht. eapply sd_conv; [apply sd_mult; [apply sd_d|apply sd_plus;
    [apply (sd_scal RD), sd_t|exact (@sd_ar01 dK dB dC t d Ht)]]| |];
  rewrite ?v_dpdt, ?v_dpdd; fold (dk t); rar; ring.
Qed.
Lemma sd_dpdd t d : 0 < t -> exists c, sd (fun t d => RD * t + 2 * AR01 t d + AR02 t d) t d
  c (2 * AR01 t d + 4 * AR02 t d + AR03 t d).
Proof.
  intros Ht. destruct (@sd_ar02 dK dB dC t d Ht) as [c Hc].
  eexists. eapply sd_conv; [apply sd_plus; [apply sd_plus; [apply (sd_scal RD), sd_t
    |apply (sd_scal 2); exact (@sd_ar01 dK dB dC t d Ht)]|exact Hc]|reflexivity|].
  fold (dk t). rar; ring.
Qed.
Hypothesis Hx : pos_total x 21 = 1.
Lemma sd_A t d : 0 < t -> EPSILON < d -> sd (fun t d => E0 t d + AR00 t d) t d
  (- t * dvals PS t d) (RD * t + AR01 t d).
Proof.
  intros Ht Hd. eapply sd_conv; [apply sd_plus; [apply sd_e0; assumption
    |exact (@sd_ar00 dK dB dC t d Ht)]| |]; fold (dk t).
  - rewrite v_s. rar. ring.
  - rewrite psum_ok, Hx. rar. ring.
Qed.
Lemma sd_S t d : 0 < t -> EPSILON < d -> sd (fun t d => - E1 t d - AR10 t d) t d
  (dvals PCv t d) (- dvals PDpDt t d / d).
Proof.
  intros Ht Hd. pose proof EPS_pos. eapply sd_conv; [apply sd_minus; [apply sd_opp, sd_e1; assumption
    |exact (@sd_ar10 dK dB dC t d Ht)]| |]; fold (dk t).
  - rewrite v_cv. rar. ring.
  - rewrite psum_ok, Hx, v_dpdt. rar. field. lra.
Qed.

Local Notation V f := (dprop k f x).
Section At.
Variables (t d : R).
Hypotheses (Ht : 1 / 10000000 < t) (Hd : 1 / 1000000000000000 < d).
Let Ht0 : 0 < t. Proof. lra. Qed.
Let Hd0 : 0 < d. Proof. lra. Qed.
Let Hde : EPSILON < d. Proof. rewrite lit15. exact Hd. Qed.
Lemma d_p : diff (V PP) t d (V PDpDt t d) (V PDpDd t d).
Proof.
  apply (diff_ext_gt2 (1/10000000) (1/1000000000000000) (fun t d => d * (RD * t + AR01 t d))); [assumption..| |].
  - intros s e Hs He. rewrite dprop_ok by assumption. cbn [dvals]. rewrite qp_eq by lra. reflexivity.
  - rewrite !dprop_ok by assumption. eapply diff_conv; [apply sd_diff; [| |apply sd_P]| |]; try lra;
    field; lra.
Qed.
Lemma d_a : diff (fun t d => V PU t d - t * V PS t d) t d (- V PS t d) (V PP t d / (d * d)).
Proof.
  apply (diff_ext_gt2 (1/10000000) (1/1000000000000000) (fun t d => E0 t d + AR00 t d)); [assumption..| |].
  - intros s e Hs He. rewrite !dprop_ok by assumption. rewrite v_u, v_s. ring.
  - rewrite !dprop_ok by assumption. eapply diff_conv; [apply sd_diff; [| |apply sd_A]| |]; try assumption; try lra.
    + field; lra.
    + cbn [dvals]. rewrite qp_eq by lra. field. lra.
Qed.
Lemma d_s : diff (V PS) t d (V PCv t d / t) (- V PDpDt t d / (d * d)).
Proof.
  apply (diff_ext_gt2 (1/10000000) (1/1000000000000000) (fun t d => - E1 t d - AR10 t d)); [assumption..| |].
  - intros s e Hs He. rewrite !dprop_ok by assumption. rewrite v_s. ring.
  - rewrite !dprop_ok by assumption. eapply diff_conv; [apply sd_diff; [| |apply sd_S]| |]; try assumption; try lra;
    field; lra.
Qed.
Lemma d_d2p : is_derive (fun d => V PDpDd t d) d (V PD2pDd2 t d).
Proof.
  apply (is_derive_ext (fun d => RD * t + 2 * AR01 t d + AR02 t d)).
  { intros e. rewrite dprop_ok by assumption. reflexivity. }
  rewrite dprop_ok by assumption. cbn [dvals]. unfold qd2pdd2. rewrite dense_true by assumption.
  destruct (sd_dpdd t d Ht0) as [c Hc]. eapply (sd_dd (fun t d => RD * t + 2 * AR01 t d + AR02 t d)); [exact Hc| |lra].
  rar. unfold f2, f4. rar. cbn [Rlit]. field. lra.
Qed.
Lemma d_h s e : 1 / 10000000 < s -> 1 / 1000000000000000 < e -> V PH s e = V PU s e + V PP s e / e.
Proof.
  intros Hs He. rewrite !dprop_ok by assumption. cbn [dvals]. unfold qh. now rewrite dense_true by assumption.
Qed.
Lemma d_g : V PG t d = V PH t d - t * V PS t d.
Proof.
  rewrite d_h by assumption. rewrite !dprop_ok by assumption. rewrite v_u, v_s. cbn [dvals]. unfold qg.
  rewrite dense_true by assumption. unfold qa. rar. fold (E0 t d). ring.
Qed.
Lemma d_z : V PZ t d = V PP t d / (d * RD * t).
Proof.
  assert (forall z r : R, 0 < r -> z = d * (r * t) * z / (d * r * t)) as H by (intros; field; lra).
  rewrite !dprop_ok by assumption. apply H, RD_pos.
Qed.
Lemma d_cp : V PCp t d = V PCv t d + t * (V PDpDt t d / d * (V PDpDt t d / d)) / V PDpDd t d.
Proof.
  rewrite !dprop_ok by assumption. cbn [dvals]. unfold qcp. rewrite dense_true by assumption. rar.
  now rewrite powi2.
Qed.
Lemma d_jt : V PJt t d = (t / d * V PDpDt t d / V PDpDd t d - 1) / V PCp t d / d.
Proof.
  rewrite !dprop_ok by assumption. cbn [dvals]. unfold qjt. rewrite dense_true by assumption. reflexivity.
Qed.
Lemma d_w : V PW t d = sqrt (if Rltb (1000 * V PCp t d / V PCv t d * V PDpDd t d / V PMM t d) 0 then 0
  else 1000 * V PCp t d / V PCv t d * V PDpDd t d / V PMM t d).
Proof. rewrite !dprop_ok by assumption. reflexivity. Qed.
Lemma d_k : V PKappa t d = V PW t d * V PW t d * V PMM t d / (RD * t * 1000 * V PZ t d).
Proof. rewrite !dprop_ok by assumption. reflexivity. Qed.
Lemma d_r : RD <> 0. Proof. pose proof RD_pos. rar. lra. Qed.

Lemma detail_pressure_derivatives : pressure_derivatives (V PP) (V PDpDd) (V PD2pDd2) (V PDpDt) t d.
Proof. split; [exact d_p|exact d_d2p]. Qed.
Lemma detail_potentials : potentials RD (V PP) (V PDpDt) (V PZ) (V PU) (V PH) (V PS) (V PCv) (V PG) t d.
Proof. eapply (T_potentials) with (m := 1/10000000) (n := 1/1000000000000000); try exact Ht0; try exact Hd0; try exact Ht; try exact Hd; [exact d_a|exact d_s|exact d_h|exact d_g|exact d_z]. Qed.
Lemma detail_cp : isobaric_cp (V PP) (V PDpDd) (V PH) (V PCp) t d.
Proof. eapply (T_cp) with (m := 1/10000000) (n := 1/1000000000000000); try exact Ht0; try exact Hd0; try exact Ht; try exact Hd; [exact d_a|exact d_s|exact d_p|exact d_h|exact d_cp]. Qed.
Lemma detail_jt : isenthalpic_jt (V PP) (V PDpDd) (V PH) (V PCp) (V PJt) t d.
Proof. eapply (T_jt) with (m := 1/10000000) (n := 1/1000000000000000); try exact Ht0; try exact Hd0; try exact Ht; try exact Hd; [exact d_a|exact d_s|exact d_p|exact d_h|exact d_cp|exact d_jt]. Qed.
Lemma detail_w : isentropic_w (V PMM t d) (V PP) (V PDpDd) (V PS) (V PCv) (V PCp) (V PW) (V PKappa) t d.
Proof. eapply T_w; try exact Ht0; try exact Hd0; try exact d_r; [exact d_s|exact d_p|exact d_z|exact d_cp|exact d_w|exact d_k]. Qed.
End At.
End S.
Lemma detail_pressure_derive k x t d : 1 / 10000000 < t ->
  dpres k x t d = dprop k PP x t d /\
  is_derive (fun d => dpres k x t d) d (dprop k PDpDd x t d) /\
  is_derive (fun t => dpres k x t d) t (dprop k PDpDt x t d).
Proof.
  intros Ht. assert (0 < t) as Ht0 by lra. split; [|split].
  - rewrite dpres_ok, dprop_ok by assumption. cbn [dvals]. rewrite qp_eq, pp_eq by lra. reflexivity.
  - rewrite dprop_ok by assumption.
    apply (is_derive_ext (fun e => e * (@RDETAIL ArithR * t + @ar01 ArithR (dk k x t) t e))).
    { intros e. rewrite dpres_ok, pp_eq by lra. reflexivity. }
    rewrite v_dpdd.
    assert (sd (fun t d => @RDETAIL ArithR * t + @ar01 ArithR (dk k x t) t d) t d
      (@RDETAIL ArithR * t + t * @ar11 ArithR (dk k x t) d) (0 + (@ar01 ArithR (dk k x t) t d + @ar02 ArithR (dk k x t) t d))) as H.
    { eapply sd_conv; [apply sd_plus; [apply (sd_scal (@RDETAIL ArithR)), sd_t|exact (@sd_ar01 (dK k x) (dB k x) (dC k x) t d Ht0)]| |];
      fold (dk k x t); rar; ring. }
    pose proof (sd_dmul _ _ _ _ _ H) as K. match type of K with is_derive _ _ ?v => match goal with |- is_derive _ _ ?w => replace w with v; [exact K|] end end. rar. ring.
  - rewrite dprop_ok by assumption.
    pose proof (sd_P k x t d Ht0) as H.
    apply (is_derive_ext_loc (fun s => d * (@RDETAIL ArithR * s + @ar01 ArithR (dk k x s) s d))).
    { apply (filter_imp (fun s => 1 / 10000000 < s)).
      - intros s Hs. rewrite dpres_ok, pp_eq by lra. reflexivity.
      - apply (locally_gt (fun s => s) t 1); [apply is_derive_idR|exact Ht]. }
    apply (sd_dt _ _ _ _ _ _ H); [reflexivity|lra].
Qed.
Lemma detail_surface k x : pos_total x 21 = 1 ->
  forall t d, 1 / 10000000 < t -> 1 / 1000000000000000 < d ->
  let V f := dprop k f x in
  potentials (@RDETAIL ArithR) (V PP) (V PDpDt) (V PZ) (V PU) (V PH) (V PS) (V PCv) (V PG) t d /\
  isobaric_cp (V PP) (V PDpDd) (V PH) (V PCp) t d /\
  isenthalpic_jt (V PP) (V PDpDd) (V PH) (V PCp) (V PJt) t d /\
  isentropic_w (V PMM t d) (V PP) (V PDpDd) (V PS) (V PCv) (V PCp) (V PW) (V PKappa) t d.
Proof.
  intros Hx t d Ht Hd V. split; [exact (detail_potentials k x Hx t d Ht Hd)|].
  split; [exact (detail_cp k x Hx t d Ht Hd)|].
  split; [exact (detail_jt k x Hx t d Ht Hd)|exact (detail_w k x Hx t d Ht Hd)].
Qed.
