(* Error analysis of the DETAIL mixture parameters. *)
From Coq Require Import Reals ZArith List Bool Lra Lia Psatz.
From Flocq Require Import Core BinarySingleNaN.
From Verif Require Import FArith Prelude ArithB64 B64Lemmas ArithR RSum SpecDetail SpecAcc DetailTables DetailPure DetailEos B64Err AccFold AccMix.
Import ListNotations.
Local Open Scope R_scope.

Lemma sum_le n f g : (forall i, (i < n)%nat -> f i <= g i) -> sum n f <= sum n g.
Proof.
  induction n as [|n IH]; intros H; [apply Rle_refl|]. cbn [sum].
  pose proof (IH ltac:(intros; apply H; lia)). pose proof (H n ltac:(lia)). lra.
Qed.
Lemma pairs_le n f g : (forall i j, (i < j < n)%nat -> f i j <= g i j) -> pairs n f <= pairs n g.
Proof. intros H. apply sum_le. intros j Hj. apply sum_le. intros i Hi. apply H. lia. Qed.
Lemma sum_ext_lt n f g : (forall i, (i < n)%nat -> f i = g i) -> sum n f = sum n g.
Proof. intros H. apply sum_ext. exact H. Qed.
(* a literal between n1/1000 and n2/1000 *)
Definition lbox (n1 n2 : Z) (l : lit) : bool := let '(L a e) := l in
  (lnneg l && (n1 * 10 ^ Z.max 0 (- e) <=? a * 10 ^ Z.max 0 e * 1000) && (a * 10 ^ Z.max 0 e * 1000 <=? n2 * 10 ^ Z.max 0 (- e)))%Z%bool.
Lemma lbox_ok n1 n2 l : lbox n1 n2 l = true -> IZR n1 / 1000 <= Rlit l <= IZR n2 / 1000.
Proof.
  destruct l as [a e]. intros H. apply andb_true_iff in H. destruct H as [H H3]. apply andb_true_iff in H. destruct H as [H1 H2].
  pose proof (lnneg_ok _ H1) as P. apply Z.leb_le in H2, H3. apply Z.leb_le in H1. pose proof (lit_ratio a e) as Q. rewrite Rabs_pos_eq in Q by exact P. rewrite Q.
  rewrite Z.abs_eq by exact H1. apply IZR_le in H2, H3. rewrite !mult_IZR in H2. rewrite !mult_IZR in H3. rewrite mult_IZR.
  assert (0 < IZR (10 ^ Z.max 0 (- e))) by (apply (IZR_lt 0), Z.pow_pos_nonneg; lia).
  set (d := IZR (10 ^ Z.max 0 (- e))) in *. set (n := IZR a * IZR (10 ^ Z.max 0 e)) in *.
  split; apply (Rmult_le_reg_r (d * 1000)); try lra; unfold Rdiv.
  - replace (n * / d * (d * 1000)) with (n * 1000) by (field; lra). lra.
  - replace (n * / d * (d * 1000)) with (n * 1000) by (field; lra). lra.
Qed.
Definition brow n1 n2 (l : list (list lit)) (i : nat) : bool := forallb (fun j => lbox n1 n2 (nth j (nth i l []) (L 0 0))) (seq i (21 - i)).
Lemma bip_box n1 n2 l i j : forallb (brow n1 n2 l) (seq 0 21) = true -> (i <= j < 21)%nat -> IZR n1 / 1000 <= bip l i j <= IZR n2 / 1000.
Proof.
  intros H Hij. pose proof (proj1 (forallb_forall _ _) H i ltac:(apply in_seq; lia)) as Hr.
  unfold bip. rewrite Nat.max_r, Nat.min_l by lia. apply lbox_ok. apply (proj1 (forallb_forall _ _) Hr). apply in_seq. lia.
Qed.
Lemma KIJ_box i j : (i <= j < 21)%nat -> 854 / 1000 <= bip D_KIJ i j <= 1033 / 1000.
Proof. apply (bip_box 854 1033). vm_compute. reflexivity. Qed.
Lemma UIJ_box i j : (i <= j < 21)%nat -> 408 / 1000 <= bip D_UIJ i j <= 1617 / 1000.
Proof. apply (bip_box 408 1617). vm_compute. reflexivity. Qed.
Lemma GIJ_box i j : (i <= j < 21)%nat -> 370 / 1000 <= bip D_GIJ i j <= 1958 / 1000.
Proof. apply (bip_box 370 1958). vm_compute. reflexivity. Qed.

(* quadratic forms with a conditioned matrix *)
Section Form.
Variable a : nat -> R.
Variable b : nat -> nat -> R.
Variables lo hi : R.
Hypothesis Ha : forall i, (i < 21)%nat -> 0 <= a i.
Hypothesis Hb : forall i j, (i < j < 21)%nat -> lo <= b i j <= hi.
Hypothesis Hl : 0 < lo <= 1.
Hypothesis Hh : 1 <= hi.
Definition form := (sum 21 a) ^ 2 + 2 * pairs 21 (fun i j => a i * a j * (b i j - 1)).
Definition formM := (sum 21 a) ^ 2 + 2 * pairs 21 (fun i j => a i * a j * (b i j + 1)).
Lemma form_eq : form = sum 21 (fun i => a i ^ 2) + 2 * pairs 21 (fun i j => a i * a j * b i j).
Proof.
  unfold form. rewrite sum_sq, Rplus_assoc, <- Rmult_plus_distr_l, <- pairs_plus. do 2 f_equal. apply pairs_ext. intros. ring.
Qed.
Lemma formM_eq : formM = sum 21 (fun i => a i ^ 2) + 2 * pairs 21 (fun i j => a i * a j * (b i j + 2)).
Proof.
  unfold formM. rewrite sum_sq, Rplus_assoc, <- Rmult_plus_distr_l, <- pairs_plus. do 2 f_equal. apply pairs_ext. intros. ring.
Qed.
Lemma aa i j : (i < j < 21)%nat -> 0 <= a i * a j.
Proof. intros H. apply Rmult_le_pos; apply Ha; lia. Qed.
Lemma form_bounds : lo * (sum 21 a) ^ 2 <= form <= hi * (sum 21 a) ^ 2.
Proof.
  rewrite form_eq, sum_sq.
  assert (0 <= sum 21 (fun i => a i ^ 2)) by (apply sum_ge0; intros; apply pow2_ge_0).
  split.
  - assert (lo * pairs 21 (fun i j => a i * a j) <= pairs 21 (fun i j => a i * a j * b i j)); [|nra].
    rewrite <- pairs_scal. apply pairs_le. intros i j H'. pose proof (aa i j H'). pose proof (Hb i j H'). nra.
  - assert (pairs 21 (fun i j => a i * a j * b i j) <= hi * pairs 21 (fun i j => a i * a j)); [|nra].
    rewrite <- pairs_scal. apply pairs_le. intros i j H'. pose proof (aa i j H'). pose proof (Hb i j H'). nra.
Qed.
Lemma form_cond c : 2 <= (c - 1) * lo -> formM <= c * form.
Proof.
  intros Hc. rewrite form_eq, formM_eq.
  assert (0 <= sum 21 (fun i => a i ^ 2)) by (apply sum_ge0; intros; apply pow2_ge_0).
  assert (1 <= c) by nra.
  assert (pairs 21 (fun i j => a i * a j * (b i j + 2)) <= c * pairs 21 (fun i j => a i * a j * b i j)); [|nra].
  rewrite <- pairs_scal. apply pairs_le. intros i j H'. pose proof (aa i j H'). pose proof (Hb i j H'). 
  assert (b i j + 2 <= c * b i j) by nra. nra.
Qed.
End Form.

Section X.
Variable m : Libm.
Hypothesis A : accurate m.
Local Notation B := (ArithB64 m).
Variable X : nat -> b64.
Hypothesis HX : forall i, (i < 21)%nat -> fin (X i) /\ rng (-50) 1 (bR (X i)).
Definition xr i := bR (X i).
Local Notation x := xr.
Lemma x_ge0 i : (i < 21)%nat -> 0 <= x i.
Proof. intros H. destruct (HX i H) as [_ R]. exact (rng_ge0 _ _ _ R). Qed.
Lemma ax i : (i < 21)%nat -> ap 0 (-50) 1 (X i) (x i) (x i).
Proof.
  intros H. destruct (HX i H) as [F R]. eapply ap_eq; [apply ap_exact; [exact F|]|reflexivity|]; unfold x; rewrite Rabs_pos_eq by exact (x_ge0 i H); trivial.
Qed.
Lemma f0B : @f0 B = B0.
Proof. reflexivity. Qed.
Lemma pos_b i : (i < 21)%nat -> @pos B (X i) = true -> 0 < x i.
Proof.
  intros H. unfold pos. rewrite f0B. cbn [flt ArithB64]. rewrite lt_fin; [|reflexivity|apply HX, H]. 
  intros E. destruct (Rlt_bool_spec (bR B0) (bR (X i))) as [L|]; [exact L|discriminate].
Qed.
Lemma npos_b i : (i < 21)%nat -> @pos B (X i) = false -> x i = 0.
Proof.
  intros H. unfold pos. rewrite f0B. cbn [flt ArithB64]. rewrite lt_fin; [|reflexivity|apply HX, H]. 
  intros E. destruct (Rlt_bool_spec (bR B0) (bR (X i))) as [L|L]; [discriminate|]. pose proof (x_ge0 i H). unfold x in *.
  apply Rle_antisym; [exact L|exact H0].
Qed.

Lemma aaccp (gv : nat -> b64) (gx gM : nat -> R) k a b : (0 <= k)%Z -> (k + 42 <= KM)%Z -> inr a (b + 5) ->
  (forall i, (i < 21)%nat -> 0 < x i -> ap k a b (gv i) (gx i) (gM i)) ->
  (forall i, (i < 21)%nat -> x i = 0 -> gx i = 0 /\ gM i = 0) ->
  ap (k + 42) a (b + 5) (@accp B X gv (@f0 B)) (sum 21 gx) (sum 21 gM).
Proof.
  intros Hk HK Hi H1 H0. rewrite f0B, !sum_rsum. unfold accp. cbn [fadd ArithB64].
  change 42%Z with (2 * Z.of_nat (length (seq 0 21)))%Z.
  eapply ap_eq; [eapply (ap_fold (fun i => pos (A := B) (X i)) gv gx gM k a b 5 (seq 0 21) B0 0 0 k 0)|apply Rplus_0_l|apply Rplus_0_l];
    try assumption; try (rewrite ?seq_length; unfold KM in *; cbn; lia).
  - intros i Hin C. apply in_seq in Hin. apply H1; [lia|]. apply pos_b; [lia|exact C].
  - intros i Hin C. apply in_seq in Hin. apply H0; [lia|]. apply npos_b; [lia|exact C].
  - apply (ap_weak 0 a (b + 5)); [apply ap_0|lia|lia|lia].
  - rewrite Rmult_0_l. apply Rle_refl.
Qed.
Lemma aaccpp (gv : nat -> nat -> b64) (gx gM : nat -> nat -> R) k a b v x0 M0 k0 a0 b0 : (0 <= k)%Z -> (k + 10 <= k0)%Z -> (k0 + 420 <= KM)%Z ->
  (a0 <= a - 99)%Z -> (b + 3 <= b0)%Z -> inr a0 (b0 + 8) ->
  (forall i j, (i < j < 21)%nat -> 0 < x i -> 0 < x j -> ap k a b (gv i j) (gx i j) (gM i j)) ->
  ap k0 a0 b0 v x0 M0 ->
  ap (k0 + 420) a0 (b0 + 8) (@accpp B X gv v) (x0 + 2 * pairs 21 (fun i j => x i * x j * gx i j)) (M0 + 2 * pairs 21 (fun i j => x i * x j * gM i j)).
Proof.
  intros Hk Hk0 HK Ha Hb Hi H1 P. rewrite (@accpp_flat B). cbn [fadd fmul ArithB64].
  rewrite <- !pairs_scal, <- !rsum_prs. replace 420%Z with (2 * Z.of_nat (length prs))%Z by (rewrite prs_length; reflexivity).
  apply (ap_fold (fun p => (pos (A := B) (X (fst p)) && pos (A := B) (X (snd p)))%bool) _
     (fun p => 2 * (x (fst p) * x (snd p) * gx (fst p) (snd p))) (fun p => 2 * (x (fst p) * x (snd p) * gM (fst p) (snd p)))
     (k + 10) a0 b0 8 prs v x0 M0 k0 1); try assumption; try (rewrite prs_length; zc); try zc; try (rewrite prs_length; cbn; lia).
  - intros [i j] Hin C. cbn [fst snd] in *. apply in_prs in Hin. apply andb_true_iff in C. destruct C as [C1 C2].
    apply pos_b in C1; [|lia]. apply pos_b in C2; [|lia]. unfold inr in Hi.
    eapply ap_eq; [eapply ap_weak; [eapply ap_mul; [eapply ap_mul; [eapply ap_mul; [apply a2|apply ax; lia|zc|zc|zc|zc]|apply ax; lia|zc|zc|zc|zc]|
      apply H1; trivial|zc|zc|zc|zc]|zc|zc|zc]|ring|ring].
  - intros [i j] Hin C. cbn [fst snd] in *. apply in_prs in Hin. apply andb_false_iff in C. destruct C as [C|C]; apply npos_b in C; try lia; rewrite C; split; ring.
  - apply (ap_weak k0 a0 b0); [exact P|lia|lia|lia].
  - rewrite Rmult_1_l. apply (rng_le a0 b0). apply P.
Qed.

Hypothesis Hs : 99 / 100 <= sum 21 x <= 101 / 100.
Lemma Hsx : exists i, (i < 21)%nat /\ 0 < x i.
Proof.
  assert (forall n, (n <= 21)%nat -> 0 < sum n x -> exists i, (i < n)%nat /\ 0 < x i) as G.
  { induction n as [|n IH]; intros Hn H; cbn [sum] in H; [lra|].
    destruct (Rle_lt_dec (x n) 0) as [L|L]; [|exists n; split; [lia|exact L]].
    destruct IH as (i & Hi & Hp); [lia|lra|]. exists i. split; [lia|exact Hp]. }
  apply G; [lia|lra].
Qed.

(* S = sum x_i c_i squared plus interaction terms *)
Lemma aform (c : nat -> R) (cv : nat -> b64) (b : nat -> nat -> R) (gv : nat -> nat -> b64) lo hi k a e kg ag eg q l h :
  (forall i, (i < 21)%nat -> ap k a e (cv i) (c i) (c i)) -> (0 <= k)%Z -> (2 * (k + 46) + 10 <= 1000)%Z ->
  (forall i j, (i < j < 21)%nat -> ap kg ag eg (gv i j) ((b i j - 1) * c i * c j) ((b i j + 1) * c i * c j)) ->
  (0 <= kg)%Z -> (kg + 10 <= 2 * (k + 46) + 10)%Z ->
  (-100 <= a)%Z -> (e <= 40)%Z -> (-300 <= ag)%Z -> (eg <= 100)%Z ->
  (forall i, (i < 21)%nat -> p2 a <= c i <= p2 e) ->
  (forall i j, (i < j < 21)%nat -> lo <= b i j <= hi) -> 0 < lo <= 1 -> 1 <= hi ->
  (0 < q)%Z -> 2 <= (IZR q - 1) * lo -> p2 l <= lo * (99 / 100 * p2 a) ^ 2 -> hi * (101 / 100 * p2 e) ^ 2 <= p2 h ->
  ap ((2 * (k + 46) + 430) * q) l h
    (@accpp B X gv (lm_powi m (@accp B X (fun i => bmul (X i) (cv i)) (@f0 B)) 2))
    (form (fun i => x i * c i) b) (form (fun i => x i * c i) b).
Proof.
  intros Hc Hk Hk2 Hg Hkg Hkk Ha He Hag Heg Hcr Hb Hl Hh Hq Hcond HL HH.
  assert (Ha0 : forall i, (i < 21)%nat -> 0 <= x i * c i).
  { intros i Hi. apply Rmult_le_pos; [now apply x_ge0|]. eapply Rle_trans; [apply Rlt_le, (bpow_gt_0 radix2 a)|apply Hcr, Hi]. }
  pose proof (form_bounds (fun i => x i * c i) b lo hi Ha0 Hb Hl Hh) as FB.
  pose proof (form_cond (fun i => x i * c i) b lo hi Ha0 Hb Hl (IZR q) Hcond) as FC.
  assert (HS : 99 / 100 * p2 a <= sum 21 (fun i => x i * c i) <= 101 / 100 * p2 e).
  { split.
    - apply Rle_trans with (p2 a * sum 21 x); [pose proof (bpow_gt_0 radix2 a); nra|]. rewrite <- sum_scal. apply sum_le.
      intros i Hi. pose proof (x_ge0 i Hi). pose proof (Hcr i Hi). nra.
    - apply Rle_trans with (p2 e * sum 21 x); [|pose proof (bpow_gt_0 radix2 e); nra]. rewrite <- sum_scal. apply sum_le.
      intros i Hi. pose proof (x_ge0 i Hi). pose proof (Hcr i Hi). nra. }
  set (S := sum 21 (fun i => x i * c i)) in *.
  pose proof (bpow_gt_0 radix2 a) as PA. pose proof (bpow_gt_0 radix2 e) as PE.
  assert (ap (k + 45) (a - 50) (e + 6) (@accp B X (fun i => bmul (X i) (cv i)) (@f0 B)) S S) as P1.
  { replace (e + 6)%Z with (e + 1 + 5)%Z by lia. replace (k + 45)%Z with (k + 3 + 42)%Z by lia.
    apply aaccp; try zc.
    - intros i Hi _. eapply ap_weak; [eapply ap_mul; [apply ax; exact Hi|apply Hc; exact Hi|zc|zc|zc|zc]|zc|zc|zc].
    - intros i Hi ->. rewrite Rmult_0_l. now split. }
  assert (rng (2 * (a - 50)) (2 * (e + 6)) (S ^ 2)) as R2.
  { apply (rng_pow _ _ S 2); [apply P1|lia]. }
  assert (ap (2 * (k + 46) + 10) (2 * (a - 50)) (2 * (e + 6)) (lm_powi m (@accp B X (fun i => bmul (X i) (cv i)) (@f0 B)) 2) (S ^ 2) (S ^ 2)) as P2.
  { change 2%Z with (Z.of_nat 2) at 4. eapply (ap_powi m A); try exact P1; try exact R2; try zc. nra. }
  assert (ap (2 * (k + 46) + 430) (-700) 700
    (@accpp B X gv (lm_powi m (@accp B X (fun i => bmul (X i) (cv i)) (@f0 B)) 2))
    (form (fun i => x i * c i) b) (formM (fun i => x i * c i) b)) as P3.
  { apply (ap_weak _ _ _ (2 * (k + 46) + 10) (-700) 500) in P2; [|zc|zc|zc].
    pose proof (aaccpp gv (fun i j => (b i j - 1) * c i * c j) (fun i j => (b i j + 1) * c i * c j) kg ag eg _ _ _ (2 * (k + 46) + 10) (-700) 500
      Hkg ltac:(zc) ltac:(zc) ltac:(zc) ltac:(zc) ltac:(zc) (fun i j H _ _ => Hg i j H) P2) as P3.
    eapply ap_eq; [eapply ap_weak; [exact P3|zc|zc|zc]| |].
    - unfold form. fold S. do 2 f_equal. apply pairs_ext. intros; ring.
    - unfold formM. fold S. do 2 f_equal. apply pairs_ext. intros; ring. }
  assert (0 < form (fun i => x i * c i) b) as F0.
  { eapply Rlt_le_trans; [|apply FB]. apply Rmult_lt_0_compat; [lra|]. apply pow_lt. lra. }
  eapply ap_scale; [exact P3|exact FC|rewrite Rabs_pos_eq; lra|zc|]. right. split.
  - eapply Rle_trans; [exact HL|]. eapply Rle_trans; [|apply FB]. apply Rmult_le_compat_l; [lra|]. apply pow_incr. lra.
  - eapply Rle_trans; [apply FB|]. eapply Rle_trans; [|exact HH]. apply Rmult_le_compat_l; [lra|]. apply pow_incr. lra.
Qed.
End X.
