(* The sums of SpecAll for a natural gas up to 1.0 MPa. *)
From Coq Require Import Reals ZArith List Bool Lra Lia Psatz.
From Verif Require Import FArith ArithR StdDetail StdGerg SpecStd SpecGas SpecConv SpecAll SlopeReal ConvDetail FixUp GasDetail GasVirial GasThird GasRed GasRed2 GasGerg.
Import ListNotations.
Local Open Scope R_scope.

Definition delV : Z := litU (L 6472 (-5)).
Definition pfU (d c : nat) (t : Z) (e : nat) : Z :=
  let E := mulU (nU c) (powU delV c) in let g := (nU d + E)%Z in
  match e with 1%nat => g | 2%nat => (mulU g (g + SC) + mulU (nU c) E)%Z | 5%nat => mulU t g | _ => mulU t (t + SC) end.
Definition dfU2 (d : nat) (t C E : Z) (e : nat) : Z :=
  let G := (nU d + mulU (nU 2) C + E)%Z in let G2 := (mulU G G + nU d + mulU (nU 2) C)%Z in
  match e with 1%nat => G | 2%nat => G2 | 5%nat => mulU t G | _ => mulU t (t + SC) end.
Definition pwU (e : nat) (r : lit * nat * lit * nat) : Z := let '(n, d, t, c) := r in
  mulU (mulU (mulU (litU n) (powU delV d)) (tU t)) (pfU d c (litU t) e).
Definition dwU (e : nat) (r : lit * nat * lit * list lit) : Z := let '(n, d, t, w) := r in
  let p c := litU (nth c w (L 0 0)) in
  mulU (mulU (mulU (mulU (litU n) (powU delV d)) (tU t)) (expyU (mulU (p 2%nat) (p 3%nat))))
    (dfU2 d (litU t) (mulU (p 0%nat) (powU delV 2)) (mulU (mulU (mulU (nU 2) (p 0%nat)) (p 1%nat) + p 2%nat) delV) e).
Definition gsumU (e : nat) : Z := (linU (fun m => lsumU (pwU e) (nth (S m) PURE []))
  + lsumU (fun r => let '(i, j, f, m) := r in mulU (mulU (mulU (limU (Nat.pred i)) (limU (Nat.pred j))) (litU f)) (lsumU (dwU e) (dep_rows m))) DEPARTS)%Z.
Lemma gn1 : (gsumU 1 <=? 103800000)%Z = true. Proof. vm_compute. reflexivity. Qed.
Lemma gn2 : (gsumU 2 <=? 220800000)%Z = true. Proof. vm_compute. reflexivity. Qed.
Lemma gn5 : (gsumU 5 <=? 167600000)%Z = true. Proof. vm_compute. reflexivity. Qed.
Lemma gn7 : (gsumU 7 <=? 517200000)%Z = true. Proof. vm_compute. reflexivity. Qed.
Section S.
Variable delta tau : R.
Hypothesis Hd : 0 <= delta <= 6472 / 100000.
Hypothesis Ht : 38 / 350 <= tau <= 93964 / 100000.
Lemma delv_up : up delV delta. Proof. apply lit_le; [lra|cbn; lra]. Qed.
Lemma exp_neg y : 0 <= y -> exp (- y) <= 1.
Proof. intros H. rewrite <- exp_0. destruct H as [H|H]; [left; apply exp_increasing; lra|rewrite <- H, Ropp_0; lra]. Qed.
Definition esel (e : nat) : bool := match e with 1%nat | 2%nat | 5%nat | 7%nat => true | _ => false end.
Lemma pf_up d c v t e : esel e = true -> up v t -> up (pfU d c v e) (pure_factor d c t delta e).
Proof.
  intros He Hv. assert (E : up (mulU (nU c) (powU delV c)) (INR c * delta ^ c)) by (apply up_mul; [apply up_INR|apply up_pow; exact delv_up]).
  unfold pfU, pure_factor. cbv zeta. assert (G : up (nU d + mulU (nU c) (powU delV c))%Z (INR d + INR c * delta ^ c)) by (apply up_add; [apply up_INR|exact E]).
  destruct e as [|[|[|[|[|[|[|[|e]]]]]]]]; try discriminate He.
  - exact G.
  - apply up_add; [apply up_mul; [exact G|apply up_add; [exact G|exact up_1]]|apply up_mul; [apply up_INR|exact E]].
  - apply up_mul; assumption.
  - apply up_mul; [assumption|apply up_add; [assumption|exact up_1]].
Qed.
Lemma df_up d v t C c E ee e : esel e = true -> up v t -> up c C -> up ee E -> up (dfU2 d v c ee e) (dep_factor d t C E e).
Proof.
  intros He Hv HC HE. pose proof (up_INR 2) as I2. change (INR 2) with 2 in I2. unfold dfU2, dep_factor. cbv zeta.
  assert (D : up (nU d + mulU (nU 2) c)%Z (INR d + 2 * C)) by (apply up_add; [apply up_INR|apply up_mul; assumption]).
  assert (G : up (nU d + mulU (nU 2) c + ee)%Z (INR d + 2 * C + E)) by (apply up_add; assumption).
  destruct e as [|[|[|[|[|[|[|[|e]]]]]]]]; try discriminate He.
  - exact G.
  - rewrite <- Z.add_assoc. rewrite Rplus_assoc. apply up_add; [apply up_mul; exact G|exact D].
  - apply up_mul; assumption.
  - apply up_mul; [assumption|apply up_add; [assumption|exact up_1]].
Qed.
Lemma pw_up e r : esel e = true -> (let '(n, d, t, c) := r in tok t) = true -> up (pwU e r) (SpecAll.pure_w e delta tau r).
Proof.
  destruct r as [[[n d] t] c]. intros He H. unfold pwU, SpecAll.pure_w. apply up_mul; [|apply pf_up; [exact He|apply up_lit]].
  assert (Q : up (mulU (mulU (litU n) (powU delV d)) (tU t)) (Rabs (Rlit n) * delta ^ d * Rpower tau (Rlit t))).
  { apply up_mul; [apply up_mul; [apply up_lit|apply up_pow; exact delv_up]|now apply tau_up]. }
  apply (up_le _ _ _ _ Q); [|apply Z.le_refl]. destruct Q as [Q0 _].
  assert (K : 0 <= match c with O => 1 | _ => exp (- delta ^ c) end <= 1).
  { destruct c; [lra|]. split; [left; apply exp_pos|apply exp_neg]. apply pow_le; lra. }
  set (k := match c with O => 1 | _ => _ end) in *. set (q := _ * _ * _) in *. clearbody k q. split; [apply Rmult_le_pos; lra|]. rewrite <- (Rmult_1_r q) at 2. apply Rmult_le_compat_l; lra.
Qed.
Lemma lits_up w : forallb nn_lit w = true -> forall c, up (litU (nth c w (L 0 0))) (Rlit (nth c w (L 0 0))).
Proof. intros H c. apply pos_up. destruct (nth_in_or_default c w (L 0 0)) as [K|K]; [apply nn_ok; exact (proj1 (forallb_forall _ _) H _ K)|rewrite K; cbn; lra]. Qed.
Lemma dw_up e r : esel e = true -> (let '(n, d, t, w) := r in tok t && forallb nn_lit w) = true -> up (dwU e r) (SpecAll.dep_w e delta tau r).
Proof.
  destruct r as [[[n d] t] w]. intros He H. apply andb_true_iff in H as [H1 H2]. unfold dwU, SpecAll.dep_w. cbv zeta. pose proof (lits_up w H2) as P.
  pose proof (up_INR 2) as I2. change (INR 2) with 2 in I2. pose proof delv_up as DV.
  apply up_mul; [|apply df_up; [exact He|apply up_lit|apply up_mul; [apply P|apply up_pow; exact DV]|apply up_mul; [apply up_add; [apply up_mul; [apply up_mul; [exact I2|apply P]|apply P]|apply P]|exact DV]]].
  apply up_mul; [apply up_mul; [apply up_mul; [apply up_lit|apply up_pow; exact DV]|now apply tau_up]|].
  assert (Q : up (expyU (mulU (litU (nth 2 w (L 0 0))) (litU (nth 3 w (L 0 0))))) (exp (Rlit (nth 2 w (L 0 0)) * Rlit (nth 3 w (L 0 0))))) by (apply up_expy; apply up_mul; apply P).
  apply (up_le _ _ _ _ Q); [|apply Z.le_refl]. split; [left; apply exp_pos|].
  pose proof (proj1 (P 0%nat)) as P0. pose proof (proj1 (P 1%nat)) as P1. pose proof (proj1 (P 2%nat)) as P2. pose proof (proj1 (P 3%nat)) as P3.
  set (p0 := Rlit (nth 0 w _)) in *. set (p1 := Rlit (nth 1 w _)) in *. set (p2 := Rlit (nth 2 w _)) in *. set (p3 := Rlit (nth 3 w _)) in *.
  assert (Y : - p0 * (delta - p1) ^ 2 - p2 * (delta - p3) <= p2 * p3).
  { assert (0 <= p0 * (delta - p1) ^ 2) by (apply Rmult_le_pos; [exact P0|apply pow2_ge_0]). assert (0 <= p2 * delta) by (apply Rmult_le_pos; lra). lra. }
  destruct Y as [Y|Y]; [left; now apply exp_increasing|rewrite Y; lra].
Qed.
Variable x : nat -> R.
Hypothesis Hx : natural_gas (fun i => x (S i)).
Lemma gsum_up e : esel e = true -> up (gsumU e) (gerg_sum e x delta tau).
Proof.
  intros He. refine (up_add _ _ _ _ (up_lin (fun i => x (S i)) Hx (fun m => lsumU (pwU e) (nth (S m) PURE [])) (fun m => lsum (SpecAll.pure_w e delta tau) (nth (S m) PURE [])) _) _).
  - intros i _. apply up_lsum. intros r Hr. apply (pw_up e); [exact He|]. destruct (nth_in_or_default (S i) PURE []) as [K|K]; [|rewrite K in Hr; destruct Hr].
    pose proof (proj1 (forallb_forall _ _) pure_ok _ K) as F. exact (proj1 (forallb_forall _ _) F r Hr).
  - apply up_lsum. intros [[[i j] f] m] Hr. pose proof (proj1 (forallb_forall _ _) departs_ok _ Hr) as K. cbv beta iota in K. rewrite !andb_true_iff, !Nat.ltb_lt in K. destruct K as (((I1 & J1) & I2) & J2).
    apply up_mul; [apply up_mul; [|apply up_lit]|].
    + apply up_mul; [replace (x i) with (x (S (Nat.pred i))) by (f_equal; lia); apply (x_lim _ Hx (Nat.pred i)); lia|replace (x j) with (x (S (Nat.pred j))) by (f_equal; lia); apply (x_lim _ Hx (Nat.pred j)); lia].
    + apply up_lsum. intros r Hr'. apply (dw_up e); [exact He|]. unfold dep_rows in Hr'. destruct (find _ DEPARTURE) as [q|] eqn:F; [|destruct Hr']. apply find_some in F. destruct F as [F _].
      pose proof (proj1 (forallb_forall _ _) dep_ok _ F) as G. exact (proj1 (forallb_forall _ _) G r Hr').
Qed.
Lemma sum_bound e b : esel e = true -> (gsumU e <=? b)%Z = true -> 0 <= gerg_sum e x delta tau <= IZR b / 268435456.
Proof. intros He H. destruct (gsum_up e He) as [A B]. split; [exact A|]. apply Rle_trans with (1 := B). exact (leU _ _ H). Qed.
Lemma G1_le : 0 <= gerg_sum 1 x delta tau <= 387 / 1000. Proof. pose proof (sum_bound 1 _ eq_refl gn1). lra. Qed.
Lemma G2_le : 0 <= gerg_sum 2 x delta tau <= 823 / 1000. Proof. pose proof (sum_bound 2 _ eq_refl gn2). lra. Qed.
Lemma G5_le : 0 <= gerg_sum 5 x delta tau <= 625 / 1000. Proof. pose proof (sum_bound 5 _ eq_refl gn5). lra. Qed.
Lemma G7_le : 0 <= gerg_sum 7 x delta tau <= 1927 / 1000. Proof. pose proof (sum_bound 7 _ eq_refl gn7). lra. Qed.
End S.
