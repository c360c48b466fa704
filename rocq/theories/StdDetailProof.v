(* The model's DETAIL tables hold the printed values, so that the equation over the model's tables
   (SpecDetail) is the printed equation (SpecStd). *)
From Coq Require Import Reals ZArith List Bool Lra Lia.
From Verif Require Import FArith DetailTables ArithR SpecDetail StdDetail SpecStd DetailEos IdealGas Prelude Composition DetailModel Api SpecReal DetailThermo DetailEos MassReal.
Import ListNotations.
Local Open Scope R_scope.

Lemma tot_sum n f : tot n f = sum n f. Proof. reflexivity. Qed.

Lemma nth_col {T U} (p : T -> U) (l : list T) (d : T) m n : map p l = m -> p (nth n l d) = nth n m (p d).
Proof. intros <-. symmetry. apply map_nth. Qed.
Lemma a_eq n : a_ n = tb D_AN n.
Proof. unfold a_, tb, term. f_equal. apply (nth_col (fun r => fst (fst r)) TERMS (L 0 0, L 0 0, [])). reflexivity. Qed.
Lemma u_eq n : u_ n = tb D_UN n.
Proof. unfold u_, tb, term. f_equal. apply (nth_col (fun r => snd (fst r)) TERMS (L 0 0, L 0 0, [])). reflexivity. Qed.
Ltac col c := match goal with |- context [TERMS] => idtac | _ => unfold term end;
  apply (nth_col (fun r : lit * lit * list nat => nth c (snd r) 0%nat) TERMS (L 0 0, L 0 0, [])); reflexivity.
Lemma b_eq n : b_ n = nth n D_BN 0%nat. Proof. unfold b_. col 0%nat. Qed.
Lemma k_eq n : k_ n = nth n D_KN 0%nat. Proof. unfold k_. col 1%nat. Qed.
Lemma g_eq n : g_ n = nth n D_GN 0%nat. Proof. unfold g_. col 2%nat. Qed.
Lemma q_eq n : q_ n = nth n D_QN 0%nat. Proof. unfold q_. col 3%nat. Qed.
Lemma f_eq n : f_ n = nth n D_FN 0%nat. Proof. unfold f_. col 4%nat. Qed.
Lemma s_eq n : s_ n = nth n D_SN 0%nat. Proof. unfold s_. col 5%nat. Qed.
Lemma w_eq n : w_ n = nth n D_WN 0%nat. Proof. unfold w_. col 6%nat. Qed.
Ltac ccol c := unfold comp, tb; f_equal; apply (nth_col (fun r : list lit => nth c r (L 0 0)) COMPONENTS []); reflexivity.
Lemma E_eq i : E_ i = tb D_EI i. Proof. unfold E_. ccol 0%nat. Qed.
Lemma K_eq i : K_ i = tb D_KI i. Proof. unfold K_. ccol 1%nat. Qed.
Lemma G_eq i : G_ i = tb D_GI i. Proof. unfold G_. ccol 2%nat. Qed.
Lemma Q_eq i : Q_ i = tb D_QI i. Proof. unfold Q_. ccol 3%nat. Qed.
Lemma F_eq i : F_ i = tb D_FI i. Proof. unfold F_. ccol 4%nat. Qed.
Lemma S_eq i : S_ i = tb D_SI i. Proof. unfold S_. ccol 5%nat. Qed.
Lemma W_eq i : W_ i = tb D_WI i. Proof. unfold W_. ccol 6%nat. Qed.

(* pairs *)
Definition pairl (c i j : nat) : lit :=
  match find (fun r => Nat.eqb (fst (fst r)) i && Nat.eqb (snd (fst r)) j)%bool PAIRS with
  | Some r => nth c (snd r) (L 1 0) | None => L 1 0 end.
Definition liteqb (a b : lit) : bool := let '(L m e) := a in let '(L n f) := b in (Z.eqb m n && Z.eqb e f)%bool.
Lemma liteqb_ok a b : liteqb a b = true -> a = b.
Proof. destruct a, b. cbn. rewrite andb_true_iff, !Z.eqb_eq. intros [-> ->]. reflexivity. Qed.
Lemma pair_l c i j : pair c i j = Rlit (pairl c (Nat.min i j) (Nat.max i j)).
Proof. unfold pair, pairl. destruct (find _ _); reflexivity. Qed.
Definition pair_ok (c : nat) (l : list (list lit)) (i j : nat) : bool := liteqb (pairl c i j) (nth j (nth i l []) (L 0 0)).
Definition row_ok (c : nat) (l : list (list lit)) (i : nat) : bool := forallb (pair_ok c l i) (seq i (21 - i)).
Lemma E_checked : forallb (row_ok 0 D_EIJ) (seq 0 21) = true. Proof. vm_compute. reflexivity. Qed.
Lemma U_checked : forallb (row_ok 1 D_UIJ) (seq 0 21) = true. Proof. vm_compute. reflexivity. Qed.
Lemma K_checked : forallb (row_ok 2 D_KIJ) (seq 0 21) = true. Proof. vm_compute. reflexivity. Qed.
Lemma G_checked : forallb (row_ok 3 D_GIJ) (seq 0 21) = true. Proof. vm_compute. reflexivity. Qed.
Lemma pair_bip c l i j : forallb (row_ok c l) (seq 0 21) = true -> (i < 21)%nat -> (j < 21)%nat -> pair c i j = bip l i j.
Proof.
  intros H Hi Hj. rewrite pair_l. unfold bip. f_equal.
  assert (In (Nat.min i j) (seq 0 21)) as I1 by (apply in_seq; lia).
  assert (In (Nat.max i j) (seq (Nat.min i j) (21 - Nat.min i j))) as I2 by (apply in_seq; lia).
  pose proof (proj1 (forallb_forall (row_ok c l) (seq 0 21)) H _ I1) as H1.
  exact (liteqb_ok _ _ (proj1 (forallb_forall (pair_ok c l (Nat.min i j)) _) H1 _ I2)).
Qed.

Lemma when_opt g v l n : g = nth n l 0%nat -> when g v = opt v l n.
Proof. intros ->. reflexivity. Qed.
Section X.
Variable x : nat -> R.
Lemma K5_std : sizeK5 x = K5 x.
Proof.
  unfold sizeK5, K5. apply f_equal2; [apply (f_equal (fun v => v ^ 2)); apply sum_ext'; intros; now rewrite K_eq|].
  apply f_equal. unfold pairs. apply sum_ext'. intros j Hj. apply sum_ext'. intros i Hi.
  rewrite (pair_bip 2 D_KIJ _ _ K_checked) by lia. now rewrite !K_eq.
Qed.
Lemma U5_std : energyU5 x = U5 x.
Proof.
  unfold energyU5, U5. apply f_equal2; [apply (f_equal (fun v => v ^ 2)); apply sum_ext'; intros; now rewrite E_eq|].
  apply f_equal. unfold pairs. apply sum_ext'. intros j Hj. apply sum_ext'. intros i Hi.
  rewrite (pair_bip 1 D_UIJ _ _ U_checked) by lia. now rewrite !E_eq.
Qed.
Lemma G_std : orient x = orientG x.
Proof.
  unfold orient, orientG. apply f_equal2; [apply sum_ext'; intros; now rewrite G_eq|].
  unfold pairs. apply sum_ext'. intros j Hj. apply sum_ext'. intros i Hi.
  rewrite (pair_bip 3 D_GIJ _ _ G_checked) by lia. now rewrite !G_eq.
Qed.
Lemma Q_std : quad x = quadQ x. Proof. apply sum_ext'. intros. now rewrite Q_eq. Qed.
Lemma F_std : high x = highF x. Proof. apply sum_ext'. intros. now rewrite F_eq. Qed.
Lemma B_std n i j : (i < 21)%nat -> (j < 21)%nat -> B_n n i j = Bstar n i j.
Proof.
  intros Hi Hj. unfold B_n, Bstar.
  rewrite (when_opt _ _ D_GN n (g_eq n)), (when_opt _ _ D_QN n (q_eq n)), (when_opt _ _ D_FN n (f_eq n)),
    (when_opt _ _ D_SN n (s_eq n)), (when_opt _ _ D_WN n (w_eq n)).
  rewrite (pair_bip 3 D_GIJ _ _ G_checked) by lia. now rewrite !G_eq, !Q_eq, !F_eq, !S_eq, !W_eq.
Qed.
Lemma virial_std T : second_virial x T = virialB x T.
Proof.
  apply sum_ext'. intros n _. rewrite a_eq, u_eq. apply f_equal. apply sum_ext'. intros i Hi. apply sum_ext'. intros j Hj.
  rewrite B_std by assumption. unfold Eij. rewrite (pair_bip 0 D_EIJ _ _ E_checked) by lia. now rewrite !E_eq, !K_eq.
Qed.
Lemma C_std n : C_n x n = Cstar x n.
Proof.
  unfold C_n, Cstar, energyU.
  rewrite (when_opt _ _ D_GN n (g_eq n)), (when_opt _ _ D_QN n (q_eq n)), (when_opt _ _ D_FN n (f_eq n)).
  now rewrite a_eq, u_eq, G_std, Q_std, F_std, U5_std.
Qed.
Lemma Z_std T d : detail_Z x T d = Zfactor x T d.
Proof.
  unfold detail_Z, Zfactor. cbv zeta. unfold sizeK. rewrite virial_std, K5_std. apply f_equal2.
  - apply f_equal. apply f_equal. apply sum_ext'. intros m _. now rewrite C_std, u_eq.
  - apply sum_ext'. intros m _. unfold expc. rewrite C_std, u_eq, b_eq, k_eq. reflexivity.
Qed.
Lemma p_std T d : detail_p x T d = eos x T d.
Proof. unfold detail_p, eos. now rewrite Z_std. Qed.
End X.

Lemma mass_std x t d : 1 / 10000000 < t -> dprop New PMM x t d = detail_mass x.
Proof.
  intros Ht. rewrite d_mass by exact Ht. unfold detail_mass. apply sum_ext'. intros i Hi.
  unfold tb. replace MASSES with D_MMI by reflexivity. reflexivity.
Qed.
Lemma detail_std x t d : (exists i, (i < 21)%nat /\ 1 / 10000000 < x i) -> 1 / 10000000 < t ->
  dpres New x t d = detail_p (nn x) t d /\ dprop New PZ x t d = detail_Z (nn x) t d.
Proof.
  intros H Ht. split; [transitivity (eos (nn x) t d); [now apply dpres_eos|symmetry; apply p_std]|].
  transitivity (Zfactor (nn x) t d); [now apply dprop_z_eos|symmetry; apply Z_std].
Qed.
