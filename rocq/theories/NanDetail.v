(* A NaN evaluation of a new DETAIL object: the caches keep their initial zeros, and every later
   pressure is that of the ideal gas. *)
From Coq Require Import ZArith Reals List Bool Lia Lra.
From Flocq Require Import Core BinarySingleNaN.
From Verif Require Import FArith Prelude Tab Composition DetailModel DetailPure DetailRefine DetailEval
  Api ApiSafe SpecGeneric ArithB64 B64Lemmas SpecB64 Drift Steps NanGerg.
Import ListNotations.
Local Open Scope R_scope.

Lemma mul_one x : bmul x b1 = x.
Proof.
  destruct x as [s|s| |s mx ex H]; try reflexivity; [destruct s; reflexivity..|].
  set (x := B754_finite s mx ex H). pose proof (Bmult_correct 53 1024 _ _ mode_NE x b1) as C.
  change (B2R b1) with (bR b1) in C. rewrite b1_R, Rmult_1_r in C.
  rewrite round_generic in C; [|apply valid_rnd_N|apply generic_format_B2R].
  rewrite Rlt_bool_true in C by apply abs_B2R_lt_emax. destruct C as (V & F & S).
  apply B2R_Bsign_inj; [exact F|reflexivity|exact V|].
  transitivity (xorb (Bsign x) (Bsign b1)); [apply S|cbn; now rewrite xorb_false_r].
  match type of F with is_finite ?y = _ => destruct y; try reflexivity; discriminate F end.
Qed.
Lemma ofnat_fin16 n : (n < 16)%nat -> fin (bofZ (Z.of_nat n)).
Proof. intros H. do 16 (destruct n as [|n]; [reflexivity|]). lia. Qed.
Lemma one_or_zr_fin x : x = b1 \/ zr x -> fin x.
Proof. intros [->|H]; [reflexivity|now apply zr_fin]. Qed.

Section M.
Variable m : Libm.
Hypothesis SP : special_ok m.
Local Instance AM : Arith := ArithB64 m.
Variable k : @cache AM.
Variables t d : b64.
Hypothesis K3 : ca_k3 k = f0.
Hypothesis BS : forall n, ca_bs k n = f0.
Hypothesis CS : forall n, ca_csn k n = f0.
Hypothesis TU : forall n, (n < 58)%nat -> fin (ca_tun k n).
Hypothesis FD : fin d.
Hypothesis FT : fin t.
Hypothesis NT : bR t <> 0.
Hypothesis RT : fin (bmul (@RDETAIL AM) t).
Let z : @F AM := dr k (d : @F AM).
Lemma z_zr : zr z.
Proof. unfold z, dr. rewrite K3. apply (zr_mul_l B0 d); [exists false; reflexivity|exact FD]. Qed.
Lemma fpw_z n : fpw z n = b1 \/ zr (fpw z n).
Proof.
  induction n as [|n IH]; [left; reflexivity|right]. cbn [fpw]. apply (zr_mul_l z (fpw z n)); [exact z_zr|].
  now apply one_or_zr_fin.
Qed.
Lemma fpw_zS n : (n <> 0)%nat -> zr (fpw z n).
Proof.
  destruct n as [|n]; [lia|]. intros _. cbn [fpw]. apply (zr_mul_l z (fpw z n)); [exact z_zr|].
  apply one_or_zr_fin, fpw_z.
Qed.
Lemma pexpn_z n : pexpn z n = b1.
Proof.
  destruct n as [|n]; [reflexivity|]. unfold pexpn. change (lm_exp m (Bopp (fpw z (S n))) = b1).
  destruct (zr_neg _ (fpw_zS (S n) ltac:(lia))) as (s & ->). exact (sp_exp_zero m SP s).
Qed.
Definition orders_small : bool := forallb (fun n => Nat.ltb (bn n) 16 && Nat.ltb (kn n) 16) (seq 0 58).
Lemma orders n : (n < 58)%nat -> (bn n < 16)%nat /\ (kn n < 16)%nat.
Proof.
  intros Hn. assert (H : orders_small = true) by (vm_compute; reflexivity). unfold orders_small in H. rewrite forallb_forall in H.
  specialize (H n). rewrite andb_true_iff, !Nat.ltb_lt in H. apply H, in_seq. lia.
Qed.
Lemma bkd_fin n : (n < 58)%nat -> fin (bkd z n).
Proof.
  intros Hn. destruct (orders n Hn) as (Hb & Hk). unfold bkd.
  apply (sub_zr (bofZ (Z.of_nat (bn n))) (bmul (bofZ (Z.of_nat (kn n))) (fpw z (kn n)))); [now apply ofnat_fin16|].
  destruct (Nat.eq_dec (kn n) 0) as [E|E].
  - rewrite E. exists false. reflexivity.
  - apply zr_mul_r; [now apply ofnat_fin16|now apply fpw_zS].
Qed.
Lemma zr0 : zr (@f0 AM). Proof. exists false. reflexivity. Qed.
Lemma tsum0_zr n : (n < 58)%nat -> zr (tsum0 k z n).
Proof.
  intros Hn. unfold tsum0. destruct (Nat.leb 12 n); [|exact zr0]. rewrite CS, pexpn_z.
  apply (zr_mul_l (bmul (bmul (@f0 AM) (fpw z (bn n))) (ca_tun k n)) b1); [|exact fin_b1].
  apply zr_mul_l; [|now apply TU]. apply zr_mul_l; [exact zr0|]. apply one_or_zr_fin, fpw_z.
Qed.
Lemma tsumb_zr n : (n < 58)%nat -> zr (tsumb k z (d : @F AM) n).
Proof.
  intros Hn. unfold tsumb. destruct (Nat.leb n 17); [|exact zr0]. rewrite BS, CS.
  assert (Z : zr (bmul (@f0 AM) d)) by (apply zr_mul_l; [exact zr0|exact FD]).
  destruct (Nat.leb 12 n).
  - apply (zr_mul_l (badd (bmul (@f0 AM) d) (bmul (Bopp (@f0 AM)) z)) (ca_tun k n)); [|now apply TU].
    apply zr_add; [exact Z|]. apply zr_mul_l; [apply zr_neg; exact zr0|apply zr_fin; exact z_zr].
  - apply (zr_mul_l (bmul (@f0 AM) d) (ca_tun k n)); [exact Z|now apply TU].
Qed.
Lemma ts1_zr n : (n < 58)%nat -> zr (ts1 k z (d : @F AM) n).
Proof.
  intros Hn. unfold ts1. apply (zr_add (bmul (tsum0 k z n) (cd1 z n)) (tsumb k z (d : @F AM) n)); [|now apply tsumb_zr].
  apply zr_mul_l; [now apply tsum0_zr|]. unfold cd1. destruct (Nat.leb 12 n); [now apply bkd_fin|reflexivity].
Qed.
Lemma facc_zr (g : nat -> @F AM) : (forall n, (n < 58)%nat -> zr (g n)) -> zr (facc g).
Proof.
  intros H. unfold facc.
  assert (G : forall l (a : b64), (forall n, In n l -> (n < 58)%nat) -> zr a -> zr (fold_left (fun (a : @F AM) n => fadd a (g n)) l a)).
  { induction l as [|n l IH]; intros a Hl Ha; [exact Ha|]. cbn [fold_left]. apply IH; [intros; apply Hl; now right|].
    apply (zr_add a (g n)); [exact Ha|]. apply H, Hl. now left. }
  apply G; [|exact zr0]. intros n Hn. apply in_seq in Hn. lia.
Qed.
Lemma R_ok : fin (@RDETAIL AM) /\ bR (@RDETAIL AM) <> 0.
Proof.
  assert (E : B2SF (@RDETAIL AM) = SpecFloat.S754_finite false 4680653017221033 (-49)) by (vm_compute; reflexivity). split.
  - unfold fin. rewrite <- is_finite_SF_B2SF, E. reflexivity.
  - unfold bR. rewrite <- SF2R_B2SF, E. cbn [SF2R]. apply F2R_neq_0. discriminate.
Qed.
Lemma ideal_p : pp k (t : @F AM) (d : @F AM) = bmul (bmul d (@RDETAIL AM)) t.
Proof.
  unfold pp, pz.
  assert (Z : zr (ar01 k (t : @F AM) (d : @F AM))).
  { unfold ar01. apply facc_zr. intros n Hn. apply (zr_mul_r (bmul (@RDETAIL AM) t) (ts1 k z (d : @F AM) n)); [exact RT|now apply ts1_zr]. }
  change (bmul (bmul (bmul d (@RDETAIL AM)) t) (badd b1 (bdiv (bdiv (ar01 k (t : @F AM) (d : @F AM)) (@RDETAIL AM)) t))
    = bmul (bmul d (@RDETAIL AM)) t).
  rewrite b1_add, mul_one; [reflexivity|]. destruct R_ok as (R1 & R2).
  apply zr_div; [apply zr_div; [exact Z|exact R1|exact R2]|exact FT|exact NT].
Qed.
End M.
