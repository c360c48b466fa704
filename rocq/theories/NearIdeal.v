(* The density of a natural gas at low pressure: nearly that of the ideal gas, and nearly the same for both equations. *)
From Coq Require Import Reals ZArith List Bool Lra Lia Psatz.
From Coquelicot Require Import Coquelicot.
From Flocq Require Import Core BinarySingleNaN.
From Verif Require Import FArith Prelude Composition ArithB64 B64Lemmas ArithR StdDetail StdGerg SpecB64 SpecStd SpecGas SpecAcc SpecConv SpecGerg SpecReal SpecHistory SpecSession SpecSens SpecNear SpecAll DetailModel GergModel Api AccLibm GergEos ConvDetail ConvGerg GDensProof GConvLow SlopeReal GasThird GasRed2 GasGerg GasSumG GasPropsG GasCase Sens.
Import ListNotations.
Local Open Scope R_scope.
Local Notation RR := (831451 / 100000).

(* a size that grows at least in proportion *)
Definition star (z : R -> R) : Prop := forall a b, 0 <= a <= b -> b * z a <= a * z b.
Lemma star_ext f g : (forall v, f v = g v) -> star f -> star g.
Proof. intros E H a b Hab. rewrite <- !E. now apply H. Qed.
Lemma star_plus f g : star f -> star g -> star (fun v => f v + g v).
Proof. intros F G a b H. specialize (F a b H). specialize (G a b H). lra. Qed.
Lemma star_0 : star (fun _ => 0).
Proof. intros a b H. lra. Qed.
Lemma star_scal c f : 0 <= c -> star f -> star (fun v => c * f v).
Proof.
  intros Hc F a b H. specialize (F a b H). replace (b * (c * f a)) with (c * (b * f a)) by ring. replace (a * (c * f b)) with (c * (a * f b)) by ring.
  now apply Rmult_le_compat_l.
Qed.
Lemma star_id : star (fun v => v).
Proof. intros a b H. lra. Qed.
Lemma star_pow w d : (1 <= d)%nat -> (forall a b, 0 <= a <= b -> 0 <= w a <= w b) -> star (fun v => w v * v ^ d).
Proof.
  intros Hd W a b H. destruct d as [|d]; [lia|]. destruct (W a b H) as [W1 W2]. cbn [pow].
  assert (0 <= a ^ d) by (apply pow_le; lra). pose proof (pow_incr a b d H) as Q.
  replace (b * (w a * (a * a ^ d))) with (a * b * (w a * a ^ d)) by ring. replace (a * (w b * (b * b ^ d))) with (a * b * (w b * b ^ d)) by ring.
  apply Rmult_le_compat_l; [apply Rmult_le_pos; lra|]. apply Rmult_le_compat; trivial.
Qed.
Lemma star_tot (f : nat -> R -> R) n : (forall i, (i < n)%nat -> star (f i)) -> star (fun v => tot n (fun i => f i v)).
Proof. induction n as [|n IH]; intros H; cbn [tot]; [exact star_0|]. apply star_plus; [apply IH; intros; apply H; lia|apply H; lia]. Qed.
Lemma star_lsum {U} (f : U -> R -> R) l : (forall r, In r l -> star (f r)) -> star (fun v => lsum (fun r => f r v) l).
Proof.
  induction l as [|r l IH]; intros H; unfold lsum in *; cbn [fold_right]; [exact star_0|]. apply (star_plus (f r)); [apply H; now left|]. apply IH. intros q Hq. apply H. now right.
Qed.

Lemma spread_star x T : star (fun d => spread x T d).
Proof.
  set (k := Rpower (sizeK5 x) (1/5) ^ 3). assert (Kp : 0 < k) by (apply pow_lt; unfold Rpower; apply exp_pos).
  refine (star_ext _ _ (fun d => eq_sym (spread_eq x T d)) _). fold k. apply star_plus; [apply star_plus|].
  - apply (star_ext (fun d => Rabs (second_virial x T) * d)); [intros; ring|]. apply star_scal; [apply Rabs_pos|exact star_id].
  - match goal with |- star (fun d => k * d * ?c) => apply (star_ext (fun d => k * c * d)); [intros; ring|] end. apply star_scal; [|exact star_id]. apply Rmult_le_pos; [lra|apply Rabs_pos].
  - apply (star_tot (fun m d => _ * _)). intros m Hm. apply star_scal; [apply Rabs_pos|].
    apply (star_ext (fun d => (wt (b_ (12 + m)) (k_ (12 + m)) (k * d) * k ^ b_ (12 + m)) * d ^ b_ (12 + m))); [intros v; rewrite (Rpow_mult_distr k v); ring|].
    apply star_pow; [now apply b_ge1|]. intros a b H. assert (Q : 0 <= k * a <= k * b) by (split; [apply Rmult_le_pos; lra|apply Rmult_le_compat_l; lra]).
    destruct (wt_mono (b_ (12 + m)) (k_ (12 + m)) _ _ Q) as [W1 W2]. assert (0 <= k ^ b_ (12 + m)) by (apply pow_le; lra). split; [now apply Rmult_le_pos|now apply Rmult_le_compat_r].
Qed.
Lemma pure_star tau r : ConvGerg.pure_ok r = true -> star (fun v => pure_size v tau r).
Proof.
  destruct r as [[[n d] t] c]. cbn [ConvGerg.pure_ok]. intros H. apply Nat.leb_le in H. assert (P : 0 < Rpower tau (Rlit t)) by apply exp_pos. unfold pure_size.
  apply (star_ext (fun v => (Rabs (Rlit n) * Rpower tau (Rlit t)) * (wt d c v * v ^ d))); [intros v; unfold wt; ring|].
  apply star_scal; [apply Rmult_le_pos; [apply Rabs_pos|lra]|]. apply star_pow; [exact H|]. intros a b Hab. now apply wt_mono.
Qed.
Lemma dep_star tau r : ConvGerg.dep_ok r = true -> star (fun v => dep_size v tau r).
Proof.
  destruct r as [[[n d] t] w]. cbn [ConvGerg.dep_ok]. intros H. apply andb_true_iff in H as [H H3]. apply andb_true_iff in H as [H H2]. apply andb_true_iff in H as [H H1].
  apply Nat.leb_le in H. apply nonneg_ok in H1, H2, H3. assert (P : 0 < Rpower tau (Rlit t)) by apply exp_pos. unfold dep_size. cbv zeta.
  set (p0 := Rlit (nth 0 w (L 0 0))) in *. set (p1 := Rlit (nth 1 w (L 0 0))) in *. set (p2 := Rlit (nth 2 w (L 0 0))) in *. set (q := exp _). assert (Q : 0 < q) by apply exp_pos. clearbody p0 p1 p2 q.
  apply (star_ext (fun v => (Rabs (Rlit n) * Rpower tau (Rlit t) * q) * (((INR d + (2 * p0 * v * (v + p1) + p2 * v)) ^ 2 + (2 * p0 * v * (v + p1) + p2 * v) + 2 * p0 * v ^ 2) * v ^ d))); [intros v; ring|].
  apply star_scal; [apply Rmult_le_pos; [apply Rmult_le_pos; [apply Rabs_pos|lra]|lra]|]. apply star_pow; [exact H|]. intros a b Hab. pose proof (pos_INR d) as Pd.
  assert (E : 0 <= 2 * p0 * a * (a + p1) + p2 * a <= 2 * p0 * b * (b + p1) + p2 * b).
  { split; [apply Rplus_le_le_0_compat; [apply Rmult_le_pos; [apply Rmult_le_pos; lra|lra]|apply Rmult_le_pos; lra]|].
    apply Rplus_le_compat; [apply Rmult_le_compat; [apply Rmult_le_pos; lra|lra|apply Rmult_le_compat_l; lra|lra]|apply Rmult_le_compat_l; lra]. }
  assert (S : 0 <= 2 * p0 * a ^ 2 <= 2 * p0 * b ^ 2). { split; [apply Rmult_le_pos; [lra|apply pow2_ge_0]|apply Rmult_le_compat_l; [lra|now apply pow_incr]]. }
  set (e1 := 2 * p0 * a * (a + p1) + p2 * a) in *. set (e2 := 2 * p0 * b * (b + p1) + p2 * b) in *. clearbody e1 e2.
  assert (0 <= (INR d + e1) ^ 2 <= (INR d + e2) ^ 2) by (split; [apply pow2_ge_0|apply pow_incr; lra]). lra.
Qed.
Lemma gspread_star x tau : (forall i, 0 <= x i) -> star (fun v => gerg_spread x v tau).
Proof.
  intros Hx. unfold gerg_spread. apply star_plus.
  - apply (star_tot (fun m v => x (S m) * lsum (pure_size v tau) (nth (S m) PURE []))). intros m _. apply star_scal; [apply Hx|].
    apply (star_lsum (fun r v => pure_size v tau r)). intros r Hr. apply pure_star. exact (pure_rows_ok _ _ Hr).
  - apply (star_lsum (fun r v => let '(i, j, f, m) := r in x i * x j * Rabs (Rlit f) * lsum (dep_size v tau) (dep_rows m))). intros [[[i j] f] m] _.
    apply star_scal; [apply Rmult_le_pos; [apply Rmult_le_pos; apply Hx|apply Rabs_pos]|]. apply (star_lsum (fun r v => dep_size v tau r)). intros r Hr. apply dep_star. exact (dep_rows_ok _ _ Hr).
Qed.

(* p = d r T (1 + z) with z of the size of the density *)
Lemma z_detail r T d : natural_gas r -> 270 <= T <= 350 -> 0 < d <= 573 / 10000 -> exists z, detail_p r T d = d * RR * T * (1 + z) /\ Rabs z <= 729 / 1000 * d.
Proof.
  intros Hg HT Hd. assert (Q : 0 < 196 / 1000 <= 196 / 1000) by lra. exists (detail_Z r T d - 1). split; [unfold detail_p; ring|].
  pose proof (D_le r Hg (196 / 1000) Q) as DQ. pose proof (spread_le r Hg T HT (196 / 1000) Q) as S.
  pose proof (spread_star r T d (196 / 1000) ltac:(lra)) as St. assert (H1 : 0 <= d) by lra.
  assert (H2 : Rpower (sizeK5 r) (1 / 5) ^ 3 * d <= 1).
  { set (k := Rpower (sizeK5 r) (1/5) ^ 3) in *. assert (Kp : 0 < k) by (apply pow_lt; unfold Rpower; apply exp_pos). unfold detail_D in DQ. fold k in DQ. clearbody k. nra. }
  pose proof (spread_Z r T d H1 H2) as SZ. set (s := spread r T d) in *. set (s2 := spread r T (196 / 1000)) in *. clearbody s s2.
  assert (d * s2 <= d * (1 / 7)) by (apply Rmult_le_compat_l; lra). lra.
Qed.
Section G.
Variable x : nat -> b64.
Local Notation r := (fun j => bR (x j)).
Hypothesis Hx : forall j, (1 <= j < 22)%nat -> fin (x j) /\ (bR (x j) = 0 \/ bpow radix2 (-49) <= bR (x j)).
Hypothesis Hg : natural_gas (fun j => bR (x (S j))).
Lemma z_gerg T d : 270 <= T <= 350 -> 0 < d <= 573 / 10000 -> exists z, gpres New r T d = d * Rg * T * (1 + z) /\ Rabs z <= 729 / 1000 * d.
Proof.
  intros HT Hd. pose proof (vr x Hg) as Vr. pose proof (tr x Hg) as Tr. assert (Hs : 99 / 100 <= tot 21 (fun j => bR (x (S j))) <= 101 / 100) by apply Hg.
  pose proof (GDensProof.v_pos x Hx Hs) as Vp. destruct (gpres_res x Hx Hs T ltac:(lra) d) as (a & Da & E).
  pose proof (gspread_star (ac r) (tred r / T) (GergEos.ac_ge0 r)) as St.
  destruct (small_residual (ac r) (tred r / T) (GergEos.ac_ge0 r)) as (M & f1 & f2 & H).
  set (v := vred r) in *. set (tr0 := tred r) in *.
  assert (PT : 0 < / T) by (apply Rinv_0_lt_compat; lra).
  assert (TA : 38 / 350 <= tr0 / T <= 93964 / 100000).
  { split.
    + apply Rle_trans with (38 * / T); [|unfold Rdiv; apply Rmult_le_compat_r; [lra|exact (proj1 Tr)]]. unfold Rdiv. apply Rmult_le_compat_l; [lra|]. apply Rinv_le_contravar; lra.
    + apply (Rmult_le_reg_r T); [lra|]. unfold Rdiv at 1. rewrite Rmult_assoc, Rinv_l by lra. rewrite Rmult_1_r. apply Rle_trans with (1 := proj2 Tr). lra. }
  assert (dv : 0 < d * v) by (apply Rmult_lt_0_compat; lra). assert (dl : d * v <= 1162 / 10000 * d) by (replace (1162 / 10000 * d) with (d * (1162 / 10000)) by ring; apply Rmult_le_compat_l; lra).
  assert (DQ : 0 <= 22776 / 1000000 <= 22776 / 1000000) by lra.
  pose proof (gspread_le _ _ DQ TA r Hg) as S. rewrite <- (spread_ac x Hx) in S. specialize (St (d * v) (22776 / 1000000) ltac:(lra)). cbv beta in St.
  destruct (H _ dv) as (D & _ & C). destruct (C ltac:(lra)) as [C1 _].
  assert (Ea : a = f1 (d * v) / (d * v)) by (rewrite <- (is_derive_unique _ _ _ Da); exact (is_derive_unique _ _ _ D)).
  exists (f1 (d * v)). split; [rewrite E, Ea; f_equal; f_equal; field; lra|].
  set (s := gerg_spread _ (d * v) _) in *. set (s2 := gerg_spread _ (22776 / 1000000) _) in *. set (z := Rabs _) in *. clearbody s s2 z.
  assert (d * v * s2 <= d * v * (1 / 7)) by (apply Rmult_le_compat_l; lra). lra.
Qed.
End G.

Lemma nearly_of R0 T P d e z : 8314471 / 1000000 <= R0 -> 270 <= T -> 1 / 10 <= P -> 0 < e <= 573 / 10000 -> e * R0 * T * (1 + z) = P -> Rabs z <= 729 / 1000 * e ->
  Rabs (d - e) <= 1 / 10000000 * e -> nearly R0 T P d.
Proof.
  intros HR HT HP He E Hz Hd. unfold nearly.
  assert (Z : Rabs z <= 418 / 10000) by lra. apply Raux.Rabs_le_inv in Z.
  assert (X : 2244907 / 1000 <= R0 * T) by (apply Rle_trans with (8314471 / 1000000 * 270); [lra|apply Rmult_le_compat; lra]).
  assert (PX : 0 < R0 * T) by lra. replace (e * R0 * T) with (e * (R0 * T)) in E by ring.
  assert (IZ : 0 < / (1 + z)) by (apply Rinv_0_lt_compat; lra). assert (IP : 0 < / P) by (apply Rinv_0_lt_compat; lra).
  (* q = e r T / P *)
  assert (Q : e * R0 * T / P = / (1 + z)). { rewrite <- E. field. repeat split; lra. }
  assert (E1 : e <= 46490 / 100000000 * P).
  { assert (e * (R0 * T) * (9582 / 10000) <= P) by (rewrite <- E; apply Rmult_le_compat_l; [apply Rmult_le_pos; lra|lra]).
    assert (e * (2244907 / 1000) <= e * (R0 * T)) by (apply Rmult_le_compat_l; [lra|exact X]). lra. }
  assert (I1 : / (1 + z) <= 10437 / 10000).
  { apply (Rmult_le_reg_r (1 + z)); [lra|]. rewrite Rinv_l by lra. lra. }
  assert (A1 : Rabs (/ (1 + z) - 1) <= 355 / 1000000 * P).
  { replace (/ (1 + z) - 1) with (- (z * / (1 + z))) by (field; lra). rewrite Rabs_Ropp, Rabs_mult, (Rabs_pos_eq (/ (1 + z))) by lra.
    apply Rle_trans with (729 / 1000 * e * (10437 / 10000)); [apply Rmult_le_compat; [apply Rabs_pos|lra|exact Hz|exact I1]|]. lra. }
  replace (d * R0 * T / P - 1) with (((d - e) / e) * / (1 + z) + (/ (1 + z) - 1)); [|rewrite <- Q; field; lra].
  eapply Rle_trans; [apply Rabs_triang|]. rewrite Rabs_mult, (Rabs_pos_eq (/ (1 + z))) by lra.
  assert (A2 : Rabs ((d - e) / e) <= 1 / 10000000).
  { unfold Rdiv. rewrite Rabs_mult, (Rabs_pos_eq (/ e)) by (left; apply Rinv_0_lt_compat; lra). apply (Rmult_le_reg_r e); [lra|]. rewrite Rmult_assoc, Rinv_l by lra. lra. }
  assert (Rabs ((d - e) / e) * / (1 + z) <= 1 / 10000000 * (10437 / 10000)) by (apply Rmult_le_compat; [apply Rabs_pos|lra|exact A2|exact I1]). lra.
Qed.
Lemma agree_of T P d1 d2 : 270 <= T -> 1 / 10 <= P <= 110 -> nearly RR T P d1 -> nearly Rg T P d2 -> agree P d1 d2.
Proof.
  intros HT HP N1 N2. assert (PRg : Rg = 8314472 / 1000000) by reflexivity. unfold agree, nearly in *. rewrite PRg in N2.
  set (a := 36 / 100000 * P + 2 / 10000000) in *. assert (A : 0 < a <= 398 / 10000) by (unfold a; lra).
  assert (D1 : d1 = d1 * RR * T / P * (P / (RR * T))) by (field; lra). set (q1 := d1 * RR * T / P) in *.
  assert (D2 : d2 = d2 * (8314472 / 1000000) * T / P * (RR / (8314472 / 1000000)) * (P / (RR * T))) by (field; lra). set (q2 := d2 * (8314472 / 1000000) * T / P) in *. clearbody q1 q2. 
  assert (U : 0 < P / (RR * T)) by (apply Rdiv_lt_0_compat; lra). set (u := P / (RR * T)) in *. clearbody u. rewrite D1, D2. clear D1 D2.
  replace (RR / (8314472 / 1000000)) with (8314510 / 8314472) by lra. replace (q1 * u - q2 * (8314510 / 8314472) * u) with ((q1 - q2 * (8314510 / 8314472)) * u) by ring.
  rewrite Rabs_mult, (Rabs_pos_eq u) by lra. rewrite <- Rmult_assoc. apply Rmult_le_compat_r; [lra|].
  apply Raux.Rabs_le_inv in N1, N2. replace (76 / 100000 * P + 1 / 100000) with (76 / 36 * a + (1 / 100000 - 76 / 36 * (2 / 10000000))) by (unfold a; lra). clearbody a.
  assert (W : (1 - 398 / 10000) * (76 / 36 * a + (1 / 100000 - 76 / 36 * (2 / 10000000))) <= (76 / 36 * a + (1 / 100000 - 76 / 36 * (2 / 10000000))) * (q2 * (8314510 / 8314472))).
  { rewrite Rmult_comm. apply Rmult_le_compat_l; [lra|]. lra. }
  apply Rabs_le. split; [lra|]. lra.
Qed.

Section M.
Variable m : Libm.
Variable A : accurate m.
Local Notation B := (ArithB64 m).
Variable c : @Composition B.
Hypothesis Hc : gas_comp m c.
Lemma detail_nearly i t P : gas_range t P -> exists s, @dexec B Api.New (measure (A := B) i c t P) = Some (s, measured (A := B)) /\ fin (dread (A := B) PD s) /\ nearly RR (bR t) (bR P) (bR (dread (A := B) PD s)).
Proof.
  intros G. destruct (dmeasure m A c Hc i t P G) as (s & e & E & F & Re & Q & N). exists s. split; [exact E|]. split; [exact F|]. destruct G as [[_ HT] [_ HP]].
  destruct (z_detail _ (bR t) e (proj1 (proj2 Hc)) HT Re) as (z & Z1 & Z2). rewrite Q in Z1. apply (nearly_of RR (bR t) (bR P) _ e z); trivial; try lra. 
Qed.
Lemma gerg_nearly i t P : (i <= 0)%Z -> gas_range t P -> exists s, @gexec B Api.New (measure (A := B) i c t P) = Some (s, measured (A := B)) /\ fin (gread (A := B) PD s) /\ nearly Rg (bR t) (bR P) (bR (gread (A := B) PD s)).
Proof.
  intros Hi G. destruct (gmeasure m A c Hc i t P Hi G) as (s & e & E & F & Re & Q & N). exists s. split; [exact E|]. split; [exact F|]. destruct G as [[_ HT] [_ HP]].
  destruct Hc as (Hx & Hg & _). assert (PRg : Rg = 8314472 / 1000000) by reflexivity.
  set (xg := fun j => match j with O => B0 | S k => nth k (bfractions m c) B0 end).
  assert (Hx' : forall j, (1 <= j < 22)%nat -> fin (xg j) /\ (bR (xg j) = 0 \/ bpow radix2 (-49) <= bR (xg j))) by (intros [|k] Hk; [lia|]; apply (Hx k); lia).
  destruct (z_gerg xg Hx' Hg (bR t) e HT Re) as (z & Z1 & Z2). apply (nearly_of Rg (bR t) (bR P) _ e z); trivial; try lra. rewrite <- Z1. exact Q.
Qed.
Lemma models_agree i j t P : (j <= 0)%Z -> gas_range t P -> exists s1 s2, @dexec B Api.New (measure (A := B) i c t P) = Some (s1, measured (A := B)) /\
  @gexec B Api.New (measure (A := B) j c t P) = Some (s2, measured (A := B)) /\ agree (bR P) (bR (dread (A := B) PD s1)) (bR (gread (A := B) PD s2)).
Proof.
  intros Hj G. destruct (detail_nearly i t P G) as (s1 & E1 & _ & N1). destruct (gerg_nearly j t P Hj G) as (s2 & E2 & _ & N2). exists s1, s2. split; [exact E1|]. split; [exact E2|].
  destruct G as [[_ HT] [_ HP]]. apply (agree_of (bR t)); trivial; lra.
Qed.
End M.
