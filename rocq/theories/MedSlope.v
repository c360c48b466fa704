(* How the DETAIL compressibility of a natural gas changes with temperature, with its sign, up to 0.669 mol/l. *)
From Coq Require Import Reals ZArith List Bool Lra Lia Psatz.
From Coquelicot Require Import Coquelicot.
From Verif Require Import FArith ArithR SpecDetail SpecReal StdDetail SpecStd SpecGas SpecAcc SpecSlope SpecConv SlopeReal ConvDetail FixUp GasDetail GasVirial GasThird GasVir2 GasVirT GasTight SensDetail Api DetailReal DetailThermo StdDetailProof ConvFinLow.
From Verif Require MedSum Converge.
Import ListNotations.
Local Open Scope R_scope.
Local Notation RR := (831451 / 100000).

(* the terms of first order without their linear part and the others, weighted by twice the temperature exponent *)
Definition tailT (D : Z) : Z := (lsumU (fun n => let '(c, b, k) := nth (n - 12) CT (0%Z, 0%nat, 0%nat) in mulU (nU (Z.abs_nat (hu n))) (mulU (mulU c (nU ((1 + k) * (1 + k)))) (powU D (S k)))) (seq 12 6)
  + lsumU (fun n => let '(c, b, k) := nth (n - 12) CT (0%Z, 0%nat, 0%nat) in mulU (nU (Z.abs_nat (hu n))) (mulU (mulU c (wtZ D b k)) (powU D b))) (seq 18 40))%Z.
Lemma tailT_num : (tailT MedSum.D2 <=? 28500000)%Z = true. Proof. vm_compute. reflexivity. Qed.
Lemma CT_nth n : (12 <= n < 58)%nat -> nth (n - 12) CT (0%Z, 0%nat, 0%nat) = (mulU (aU n) (whenU (f_ n) (litU fq) (whenU (q_ n) (litU qq) (whenU (g_ n) (litU gq) (expU tzC tyC zrC yrC (hu n))))), b_ n, k_ n).
Proof.
  intros H. rewrite CT_num. set (f := fun n => _ : Z * nat * nat). rewrite (nth_indep _ _ (f 0%nat)) by (rewrite map_length, seq_length; lia). rewrite map_nth, seq_nth by lia. replace (12 + (n - 12))%nat with n by lia. reflexivity.
Qed.

Section W.
Variable x : nat -> R.
Hypothesis Hx : natural_gas x.
Variable T : R.
Hypothesis HT : 270 <= T <= 350.
Let kappa := Rpower (sizeK5 x) (1 / 5) ^ 3.
Let c n := C_n x n * Rpower T (- u_ n).
Variable d : R.
Variable D : Z.
Hypothesis Hd : 0 < d.
Hypothesis HD : up D (detail_D x d).
Hypothesis HD1 : detail_D x d <= 1.
Let E := detail_D x d.
Lemma E01 : 0 <= E <= 1. Proof. split; [apply HD|exact HD1]. Qed.
Lemma tailT_up : up (tailT D) (tot 6 (fun m => IZR (Z.abs (hu (12 + m))) * (cT x T (12 + m) * (INR ((1 + k_ (12 + m)) * (1 + k_ (12 + m))) * E ^ S (k_ (12 + m)))))
  + tot 40 (fun m => IZR (Z.abs (hu (18 + m))) * (cT x T (18 + m) * (wt (b_ (18 + m)) (k_ (18 + m)) E * E ^ b_ (18 + m))))).
Proof.
  unfold tailT. apply up_add.
  - rewrite <- (lsum_from (fun n => IZR (Z.abs (hu n)) * (cT x T n * (INR ((1 + k_ n) * (1 + k_ n)) * E ^ S (k_ n))))). apply up_lsum. intros n Hn. apply in_seq in Hn. rewrite CT_nth by lia.
    rewrite habs, <- Rmult_assoc, <- Rmult_assoc, Rmult_assoc, Rmult_assoc. apply up_mul; [apply up_INR|]. rewrite <- Rmult_assoc. apply up_mul; [apply up_mul; [apply C_up; trivial; lia|apply up_INR]|]. now apply up_pow.
  - rewrite <- (lsum_from (fun n => IZR (Z.abs (hu n)) * (cT x T n * (wt (b_ n) (k_ n) E * E ^ b_ n)))). apply up_lsum. intros n Hn. apply in_seq in Hn. rewrite CT_nth by lia.
    rewrite habs. apply up_mul; [apply up_INR|]. rewrite <- Rmult_assoc. apply up_mul; [apply up_mul; [apply C_up; trivial; lia|]|now apply up_pow].
    unfold wtZ, wt. apply up_add; [apply up_pow; apply up_add; [apply up_INR|apply up_mul; [apply up_INR|]]|apply up_mul; [apply up_pow; apply up_INR|]]; now apply up_pow.
Qed.
Lemma vco_eq n : virial_n x T n = vco x n * Rpower T (- u_ n). Proof. unfold virial_n, vco. ring. Qed.
Lemma zt_eq : 2 * zt x T d = - (slopeT x T * d + tot 6 (fun m => IZR (hu (12 + m)) * (c (12 + m) * (hb 1 (k_ (12 + m)) E - E))) + tot 40 (fun m => IZR (hu (18 + m)) * (c (18 + m) * hb (b_ (18 + m)) (k_ (18 + m)) E))).
Proof.
  unfold zt. rewrite <- tot_scal. rewrite (tot_ext 58 _ (fun n => -1 * (IZR (hu n) * (qco x n d * Rpower T (- u_ n))))) by (intros n Hn; rewrite (u_half n Hn) at 1; field).
  rewrite tot_scal. replace (- (slopeT x T * d + _ + _)) with (-1 * (slopeT x T * d + tot 6 (fun m => IZR (hu (12 + m)) * (c (12 + m) * (hb 1 (k_ (12 + m)) E - E))) + tot 40 (fun m => IZR (hu (18 + m)) * (c (18 + m) * hb (b_ (18 + m)) (k_ (18 + m)) E)))) by ring. f_equal.
  change 58%nat with (18 + 40)%nat. rewrite (tot_split 18 40). f_equal.
  - unfold slopeT. change 18%nat with (12 + 6)%nat. rewrite !(tot_split 12 6), Rmult_plus_distr_r, Rplus_assoc. f_equal.
    + rewrite Rmult_comm, <- tot_scal. apply tot_ext. intros n Hn. unfold qco. replace (n <? 18)%nat with true by (symmetry; apply Nat.ltb_lt; lia). replace (n <? 12)%nat with true by (symmetry; apply Nat.ltb_lt; lia). rewrite vco_eq. ring.
    + rewrite Rmult_comm, <- tot_scal, <- tot_plus. apply tot_ext. intros m Hm. unfold qco. replace (12 + m <? 18)%nat with true by (symmetry; apply Nat.ltb_lt; lia). replace (12 + m <? 12)%nat with false by (symmetry; apply Nat.ltb_ge; lia).
      destruct (first_ok m Hm) as [B1 _]. rewrite B1, vco_eq. unfold c. change E with (kappa * d). fold kappa. ring.
  - apply tot_ext. intros m Hm. unfold qco. replace (18 + m <? 18)%nat with false by (symmetry; apply Nat.ltb_ge; lia). replace (18 + m <? 12)%nat with false by (symmetry; apply Nat.ltb_ge; lia). unfold c. change E with (kappa * d). fold kappa. ring.
Qed.
Lemma zt_near : Rabs (2 * zt x T d + slopeT x T * d) <= fx (tailT D).
Proof.
  pose proof E01 as HE. apply Rle_trans with (2 := proj2 tailT_up). rewrite zt_eq.
  match goal with |- Rabs (- (?a + ?b + ?c) + ?a) <= _ => replace (- (a + b + c) + a) with (- (b + c)) by ring end. rewrite Rabs_Ropp.
  apply Rle_trans with (1 := Rabs_triang _ _). apply Rplus_le_compat; apply tot_abs; intros m Hm; rewrite !Rabs_mult, <- abs_IZR; (apply Rmult_le_compat_l; [apply IZR_le; lia|]); unfold c;
    rewrite (Rabs_mult (C_n _ _)), (Rabs_pos_eq (Rpower T _)) by (left; apply exp_pos); (apply Rmult_le_compat_l; [apply Rmult_le_pos; [apply Rabs_pos|left; apply exp_pos]|]).
  - apply hb_first; [apply first_ok; exact Hm|exact HE].
  - apply hb_le; [exact HE|]. exact (b_ge1 (6 + m) ltac:(lia)).
Qed.
End W.

Section U.
Variable x : nat -> R.
Hypothesis Hx : natural_gas x.
Variables (T d : R).
Hypothesis HT : 270 <= T <= 350.
Hypothesis Hd : 0 < d <= 669 / 1000.
Lemma zt_range : - (552 / 10000) <= zt x T d <= 2334 / 10000.
Proof.
  assert (D1 : detail_D x d <= 1) by (destruct (MedSum.D2_up x Hx d Hd) as [_ H]; apply Rle_trans with (1 := H); unfold fx; change SC with 268435456%Z; unfold MedSum.D2; lra).
  pose proof (zt_near x Hx T HT d MedSum.D2 (MedSum.D2_up x Hx d Hd) D1) as A. pose proof (slopeT_bounds x Hx T HT) as S.
  pose proof (leU _ _ tailT_num) as F. assert (F' : fx 28500000 <= 10618 / 100000) by (unfold fx; change SC with 268435456%Z; lra).
  set (b := slopeT x T) in *. assert (- (36040 / 100000) <= b * d <= 405 / 100000) by (clearbody b; nra). apply Converge.Rabs_le_inv in A. lra.
Qed.
(* dp_dt of the printed equation *)
Lemma dpdt_eq : dvals New x PDpDt T d = RR * d * (1 + z0 x T d + zt x T d).
Proof.
  assert (T7 : 1 / 10000000 < T) by lra. rewrite <- dprop_ok by exact T7. destruct (detail_pressure_derive New x T d T7) as (_ & _ & D1).
  pose proof (p_T x T d ltac:(lra)) as D2. apply is_derive_unique in D1. apply is_derive_unique in D2. rewrite <- D1, <- D2. apply Derive_ext_loc.
  exists (mkposreal 1 Rlt_0_1). intros t Ht. apply Rabs_lt_between' in Ht. cbn in Ht.
  assert (X : forall i, (i < 21)%nat -> 0 <= x i) by (intros; now apply (x_ge0 x Hx)).
  destruct (detail_std x t d) as [E _]; [|lra|].
  - exists 0%nat. split; [lia|]. destruct Hx as (H & _). cbn in H. lra.
  - rewrite E. apply p_ext. intros i Hi. unfold nn. now rewrite Rmax_right by (now apply X).
Qed.
End U.
