(* The slope of the DETAIL equation is bounded by the sum of the sizes of its terms, which varies slowly. *)
From Coq Require Import Reals ZArith List Bool Lra Lia Psatz.
From Coquelicot Require Import Coquelicot.
From Interval Require Import Tactic.
From Verif Require Import FArith SpecStd SpecAcc SpecSlope StdDetailProof ConvDetail.
Local Open Scope R_scope.

Lemma tot_le n f g : (forall i, (i < n)%nat -> f i <= g i) -> tot n f <= tot n g.
Proof. intros E. induction n as [|n IH]; cbn [tot]; [lra|]. apply Rplus_le_compat; [apply IH; intros; apply E; lia|apply E; lia]. Qed.
Lemma tot_ge0 n f : (forall i, (i < n)%nat -> 0 <= f i) -> 0 <= tot n f.
Proof. intros E. induction n as [|n IH]; cbn [tot]; [lra|]. apply Rplus_le_le_0_compat; [apply IH; intros; apply E; lia|apply E; lia]. Qed.
Lemma tot_plus n f g : tot n (fun i => f i + g i) = tot n f + tot n g.
Proof. induction n as [|n IH]; cbn [tot]; [ring|]. rewrite IH. ring. Qed.
Lemma Rpower_ge0 a b : 0 <= Rpower a b. Proof. apply Rlt_le, exp_pos. Qed.

Lemma exp_le a b : a <= b -> exp a <= exp b.
Proof. intros [H| ->]; [apply Rlt_le, exp_increasing, H|lra]. Qed.
(* the size of one term *)
Definition hs (b k : nat) (D : R) : R := let g := INR b + INR k * D ^ k in (g * (g + 3) + INR k * INR k * D ^ k) * D ^ b * ek k D.
Lemma ek_pos k D : 0 < ek k D. Proof. unfold ek. destruct k; [lra|apply exp_pos]. Qed.
Lemma hs_ge0 b k D : 0 <= D -> 0 <= hs b k D.
Proof.
  intros H. unfold hs. cbv zeta. pose proof (pos_INR b). pose proof (pos_INR k). pose proof (pow_le D k H). pose proof (pow_le D b H). pose proof (ek_pos k D).
  assert (0 <= INR k * D ^ k) by (apply Rmult_le_pos; lra). assert (0 <= INR k * INR k * D ^ k) by (apply Rmult_le_pos; [apply Rmult_le_pos|]; lra).
  apply Rmult_le_pos; [|lra]. apply Rmult_le_pos; [|lra]. nra.
Qed.
Lemma hs_size b k D : 0 <= D -> (INR b + INR k * D ^ k) * D ^ b * ek k D <= hs b k D.
Proof.
  intros H. unfold hs. cbv zeta. pose proof (pos_INR b). pose proof (pos_INR k). pose proof (pow_le D k H). pose proof (pow_le D b H). pose proof (ek_pos k D).
  assert (0 <= INR k * D ^ k) by (apply Rmult_le_pos; lra). assert (0 <= INR k * INR k * D ^ k) by (apply Rmult_le_pos; [apply Rmult_le_pos|]; lra).
  apply Rmult_le_compat_r; [lra|]. apply Rmult_le_compat_r; [lra|]. set (g := INR b + INR k * D ^ k) in *. assert (0 <= g) by (unfold g; lra). nra.
Qed.
Lemma hs_hb b k D : 0 <= D -> Rabs (hb b k D + hb1 b k D) <= hs b k D.
Proof.
  intros H. unfold hb, hb1, hs. cbv zeta. pose proof (pos_INR b). pose proof (pos_INR k). pose proof (pow_le D k H). pose proof (pow_le D b H). pose proof (ek_pos k D).
  assert (0 <= INR k * D ^ k) by (apply Rmult_le_pos; lra). assert (0 <= INR k * INR k * D ^ k) by (apply Rmult_le_pos; [apply Rmult_le_pos|]; lra).
  set (y := D ^ k) in *. set (z := D ^ b) in *. set (e := ek k D) in *.
  replace ((INR b - INR k * y) * z * e + ((INR b - INR k * y) ^ 2 - INR k ^ 2 * y) * z * e)
    with (((INR b - INR k * y) + ((INR b - INR k * y) ^ 2 - INR k ^ 2 * y)) * (z * e)) by ring.
  replace ((_ + _) * z * e) with (((INR b + INR k * y) * (INR b + INR k * y + 3) + INR k * INR k * y) * (z * e)) by ring.
  rewrite Rabs_mult, (Rabs_pos_eq (z * e)) by (apply Rmult_le_pos; lra). apply Rmult_le_compat_r; [apply Rmult_le_pos; lra|].
  set (B := INR b) in *. set (a := INR k * y) in *. replace (INR k ^ 2 * y) with (INR k * INR k * y) by ring. set (q := INR k * INR k * y) in *.
  apply Rabs_le. split; nra.
Qed.

Section S.
Variables (x : nat -> R) (T : R).
Let kap := Rpower (sizeK5 x) (1/5) ^ 3.
Let ca n := Rabs (C_n x n) * Rpower T (- u_ n).
Lemma kap_pos : 0 < kap. Proof. apply kappa_pos. Qed.
Lemma slope_hs d : slope_size x T d = 1 + 2 * (d * tot 18 (fun n => Rabs (virial_n x T n))) + 2 * (kap * d * tot 6 (fun m => ca (12 + m)))
  + tot 46 (fun m => ca (12 + m) * hs (b_ (12 + m)) (k_ (12 + m)) (kap * d)).
Proof.
  unfold slope_size, detail_D. cbv zeta. fold kap. f_equal. apply tot_ext. intros m _. unfold hs, ek, ca. cbv zeta. destruct (k_ (12 + m)); ring.
Qed.
Lemma ca_ge0 n : 0 <= ca n. Proof. apply Rmult_le_pos; [apply Rabs_pos|apply Rpower_ge0]. Qed.
Lemma W1 : 0 <= tot 18 (fun n => Rabs (virial_n x T n)). Proof. apply tot_ge0. intros. apply Rabs_pos. Qed.
Lemma W2 : 0 <= tot 6 (fun m => ca (12 + m)). Proof. apply tot_ge0. intros. apply ca_ge0. Qed.
Lemma W3 d : 0 <= d -> 0 <= tot 46 (fun m => ca (12 + m) * hs (b_ (12 + m)) (k_ (12 + m)) (kap * d)).
Proof. intros H. apply tot_ge0. intros. apply Rmult_le_pos; [apply ca_ge0|apply hs_ge0]. pose proof kap_pos. nra. Qed.
Lemma slope_ge1 d : 0 <= d -> 1 <= slope_size x T d.
Proof.
  intros H. rewrite slope_hs. pose proof W1 as H1. pose proof W2 as H2. pose proof (W3 d H) as H3. pose proof kap_pos.
  assert (0 <= kap * d) by (apply Rmult_le_pos; lra).
  pose proof (Rmult_le_pos _ _ H H1). pose proof (Rmult_le_pos _ _ H4 H2). lra.
Qed.
Lemma size_le_slope d : 0 <= d -> detail_size x T d <= slope_size x T d.
Proof.
  intros H. rewrite slope_hs. unfold detail_size, detail_D. cbv zeta. fold kap. pose proof W1 as H1. pose proof W2 as H2. pose proof (W3 d H) as H3. pose proof kap_pos.
  assert (0 <= kap * d) by (apply Rmult_le_pos; lra).
  pose proof (Rmult_le_pos _ _ H H1). pose proof (Rmult_le_pos _ _ H4 H2). fold (ca). unfold ca in *.
  match goal with |- _ + _ + _ + ?a <= _ + _ + _ + ?b => assert (a <= b) end; [|lra].
  apply tot_le. intros m _. pose proof (hs_size (b_ (12 + m)) (k_ (12 + m)) (kap * d) H4) as Q. pose proof (ca_ge0 (12 + m)) as G. unfold ca in G.
  eapply Rle_trans; [|apply Rmult_le_compat_l; [exact G|exact Q]]. right. unfold ek. destruct (k_ (12 + m)); ring.
Qed.
Lemma second_v : second_virial x T = tot 18 (virial_n x T).
Proof. reflexivity. Qed.
Lemma slope_abs d : 0 < d -> Rabs (Derive (detail_p x T) d) <= 831451 / 100000 * Rabs T * slope_size x T d.
Proof.
  intros H. rewrite (is_derive_unique _ _ _ (p_derive x T d H)). rewrite !Rabs_mult, (Rabs_pos_eq (831451 / 100000)) by lra.
  apply Rmult_le_compat_l. { apply Rmult_le_pos; [lra|apply Rabs_pos]. }
  rewrite Z_eq, slope_hs. unfold Z1, lin. fold kap. rewrite second_v. pose proof kap_pos as KP.
  match goal with |- Rabs (1 + _ * d + ?s + d * (_ + ?s')) <= _ => set (S1 := s); set (S2 := s') end.
  match goal with |- _ <= _ + _ + _ + ?s => assert (E : Rabs (S1 + d * S2) <= s) end.
  { unfold S1, S2. rewrite <- (tot_scal 46 d), <- tot_plus. apply tot_abs. intros m _.
    match goal with |- Rabs ?e <= _ => replace e with (C_n x (12 + m) * Rpower T (- u_ (12 + m)) * (hb (b_ (12 + m)) (k_ (12 + m)) (kap * d) + hb1 (b_ (12 + m)) (k_ (12 + m)) (kap * d))) by (field; lra) end.
    rewrite Rabs_mult, Rabs_mult, (Rabs_pos_eq (Rpower _ _)) by apply Rpower_ge0.
    apply Rmult_le_compat_l; [apply ca_ge0|]. apply hs_hb. apply Rmult_le_pos; lra. }
  assert (E1 : Rabs (tot 18 (virial_n x T)) <= tot 18 (fun n => Rabs (virial_n x T n))) by (apply tot_abs; intros; lra).
  assert (E2 : Rabs (tot 6 (fun m => C_n x (12 + m) * Rpower T (- u_ (12 + m)))) <= tot 6 (fun m => ca (12 + m))).
  { apply tot_abs. intros m _. unfold ca. rewrite Rabs_mult, (Rabs_pos_eq (Rpower _ _)) by apply Rpower_ge0. lra. }
  set (v := tot 18 (virial_n x T)) in *. set (c := tot 6 _) in E2 |- *. set (sv := tot 18 _) in E1 |- *. set (sc := tot 6 _) in E2 |- *. set (s3 := tot 46 _) in E |- *.
  replace (1 + (v - kap * c) * d + S1 + d * (v - kap * c + S2)) with (1 + 2 * (d * v) + - (2 * (kap * d * c)) + (S1 + d * S2)) by ring.
  assert (0 < kap * d) by (apply Rmult_lt_0_compat; lra).
  clearbody S1 S2 v c sv sc s3.
  eapply Rle_trans; [apply Rabs_triang|]. apply Rplus_le_compat; [|exact E].
  eapply Rle_trans; [apply Rabs_triang|]. apply Rplus_le_compat; [eapply Rle_trans; [apply Rabs_triang|]; apply Rplus_le_compat|].
  - rewrite Rabs_R1. lra.
  - rewrite !Rabs_mult, (Rabs_pos_eq 2), (Rabs_pos_eq d) by lra. apply Rmult_le_compat_l; [lra|]. apply Rmult_le_compat_l; lra.
  - rewrite Rabs_Ropp, Rabs_mult, Rabs_mult, (Rabs_pos_eq 2), (Rabs_pos_eq (kap * d)) by lra. apply Rmult_le_compat_l; [lra|]. apply Rmult_le_compat_l; lra.
Qed.
(* slow variation *)
Lemma pow_ratio n r a b : 0 <= a -> a <= r * b -> a ^ n <= r ^ n * b ^ n.
Proof. intros Ha H. rewrite <- Rpow_mult_distr. now apply pow_incr. Qed.
Lemma hs_ratio b k r D D' : (b <= 9)%nat -> (k <= 4)%nat -> 1 <= r <= 1 + 1 / 8000000 -> 0 <= D -> 0 <= D' -> D <= r * D' -> D' <= r * D -> D <= 301 / 100 ->
  hs b k D <= (1 + 1 / 10000) * hs b k D'.
Proof.
  intros Hb Hk Hr H0 H0' H1 H2 H3. unfold hs. cbv zeta.
  assert (G : forall n, 1 <= r ^ n) by (intros; apply pow_R1_Rle; lra).
  assert (Rk : r ^ k <= r ^ 4) by (apply Rle_pow; [lra|exact Hk]). assert (Rb : r ^ b <= r ^ 9) by (apply Rle_pow; [lra|exact Hb]).
  pose proof (pos_INR b) as Pb. pose proof (pos_INR k) as Pk. pose proof (pow_le D k H0) as P1. pose proof (pow_le D b H0) as P2. pose proof (pow_le D' k H0') as P3. pose proof (pow_le D' b H0') as P4.
  pose proof (G 4%nat) as G4. pose proof (G 9%nat) as G9.
  assert (Q1 : D ^ k <= r ^ 4 * D' ^ k). { eapply Rle_trans; [apply (pow_ratio k r D D'); assumption|]. apply Rmult_le_compat_r; lra. }
  assert (Q2 : D ^ b <= r ^ 9 * D' ^ b). { eapply Rle_trans; [apply (pow_ratio b r D D'); assumption|]. apply Rmult_le_compat_r; lra. }
  assert (Q3 : D' ^ k <= r ^ 4 * D ^ k). { eapply Rle_trans; [apply (pow_ratio k r D' D); assumption|]. apply Rmult_le_compat_r; lra. }
  assert (Q4 : D ^ k <= 83).
  { apply Rle_trans with ((301 / 100) ^ k); [apply pow_incr; lra|]. apply Rle_trans with ((301 / 100) ^ 4); [apply Rle_pow; [lra|exact Hk]|lra]. }
  assert (Q5 : ek k D <= exp (83 * (r ^ 4 - 1)) * ek k D').
  { destruct k as [|k']. { unfold ek. rewrite Rmult_1_r. rewrite <- exp_0 at 1. apply exp_le. apply Rmult_le_pos; lra. }
    set (k := S k') in *. change (ek k D) with (exp (- D ^ k)). change (ek k D') with (exp (- D' ^ k)).
    rewrite <- exp_plus. apply exp_le. nra. }
  set (y := D ^ k) in *. set (y' := D' ^ k) in *. set (z := D ^ b) in *. set (z' := D' ^ b) in *. set (e := ek k D) in *. set (e' := ek k D') in *.
  assert (0 < e) by apply ek_pos. assert (0 < e') by apply ek_pos.
  set (B := INR b) in *. set (K := INR k) in *. set (s := r ^ 4) in *. 
  assert (S1 : s <= 1 + 6 / 10000000) by (unfold s; interval). assert (S2 : r ^ 9 <= 1 + 13 / 10000000) by interval.
  assert (S3 : exp (83 * (s - 1)) <= 1 + 6 / 100000).
  { apply Rle_trans with (exp (83 * (6 / 10000000))); [apply exp_le; lra|interval]. }
  set (E := exp (83 * (s - 1))) in *. set (r9 := r ^ 9) in *.
  assert (A0 : 0 <= K * y) by (apply Rmult_le_pos; lra). assert (A0' : 0 <= K * y') by (apply Rmult_le_pos; lra).
  assert (A1 : B + K * y <= s * (B + K * y')) by nra.
  assert (A2 : B + K * y + 3 <= s * (B + K * y' + 3)) by nra.
  assert (0 <= K * K) as K2 by nra.
  assert (A3 : K * K * y <= s * (K * K * y')) by nra.
  assert (A3' : 0 <= K * K * y') by (apply Rmult_le_pos; lra).
  set (g := B + K * y) in *. set (g' := B + K * y') in *. assert (0 <= g) by (unfold g; lra). assert (0 <= g') by (unfold g'; lra).
  assert (A4 : g * (g + 3) <= s * s * (g' * (g' + 3))).
  { replace (s * s * (g' * (g' + 3))) with (s * g' * (s * (g' + 3))) by ring. apply Rmult_le_compat; lra. }
  assert (0 <= g * (g + 3)) by nra. assert (0 <= g' * (g' + 3)) by nra.
  assert (A5 : g * (g + 3) + K * K * y <= s * s * (g' * (g' + 3) + K * K * y')).
  { assert (s * (K * K * y') <= s * s * (K * K * y')) by (apply Rmult_le_compat_r; nra). nra. }
  set (f := g * (g + 3) + K * K * y) in *. set (f' := g' * (g' + 3) + K * K * y') in *.
  assert (0 <= K * K * y) by (apply Rmult_le_pos; lra). assert (0 <= f) by (unfold f; lra). assert (0 <= f') by (unfold f'; lra).
  assert (0 < E) by apply exp_pos.
  apply Rle_trans with ((s * s * f') * (r9 * z') * (E * e')).
  { apply Rmult_le_compat; [apply Rmult_le_pos; lra|lra| |lra]. apply Rmult_le_compat; lra. }
  replace (s * s * f' * (r9 * z') * (E * e')) with ((s * s * r9 * E) * (f' * z' * e')) by ring.
  apply Rmult_le_compat_r. { apply Rmult_le_pos; [apply Rmult_le_pos; lra|lra]. }
  apply Rle_trans with ((1 + 6 / 10000000) * (1 + 6 / 10000000) * (1 + 13 / 10000000) * (1 + 6 / 100000)); [|lra].
  apply Rmult_le_compat; [apply Rmult_le_pos; [apply Rmult_le_pos|]; lra|lra| |lra].
  apply Rmult_le_compat; [apply Rmult_le_pos; lra|lra| |lra]. apply Rmult_le_compat; lra.
Qed.
Lemma bk_small n : (n < 58)%nat -> (b_ n <= 9)%nat /\ (k_ n <= 4)%nat.
Proof. intros H. do 58 (destruct n as [|n]; [cbn; lia|]). lia. Qed.
Lemma slope_ratio r d d' : 1 <= r <= 1 + 1 / 8000000 -> 0 <= d -> 0 <= d' -> d <= r * d' -> d' <= r * d -> detail_D x d <= 301 / 100 ->
  slope_size x T d <= (1 + 1 / 10000) * slope_size x T d'.
Proof.
  intros Hr H0 H0' H1 H2 HD. rewrite !slope_hs. unfold detail_D in HD. fold kap in HD. pose proof kap_pos as KP. pose proof W1 as H3. pose proof W2 as H4.
  assert (Q : tot 46 (fun m => ca (12 + m) * hs (b_ (12 + m)) (k_ (12 + m)) (kap * d)) <= (1 + 1 / 10000) * tot 46 (fun m => ca (12 + m) * hs (b_ (12 + m)) (k_ (12 + m)) (kap * d'))).
  { rewrite <- tot_scal. apply tot_le. intros m Hm. destruct (bk_small (12 + m) ltac:(lia)) as [Hb Hk].
    replace ((1 + 1 / 10000) * (ca (12 + m) * hs (b_ (12 + m)) (k_ (12 + m)) (kap * d'))) with (ca (12 + m) * ((1 + 1 / 10000) * hs (b_ (12 + m)) (k_ (12 + m)) (kap * d'))) by ring.
    apply Rmult_le_compat_l; [apply ca_ge0|]. apply (hs_ratio _ _ r); trivial; try (apply Rmult_le_pos; lra); nra. }
  set (s3 := tot 46 _) in *. set (s3' := tot 46 _) in Q |- *. set (v := tot 18 _) in *. set (c := tot 6 _) in *.
  assert (d <= (1 + 1 / 10000) * d') by nra.
  assert (d * v <= (1 + 1 / 10000) * (d' * v)). { replace ((1 + 1 / 10000) * (d' * v)) with ((1 + 1 / 10000) * d' * v) by ring. apply Rmult_le_compat_r; lra. }
  assert (kap * d * c <= (1 + 1 / 10000) * (kap * d' * c)).
  { replace ((1 + 1 / 10000) * (kap * d' * c)) with ((1 + 1 / 10000) * d' * (kap * c)) by ring. replace (kap * d * c) with (d * (kap * c)) by ring.
    apply Rmult_le_compat_r; [apply Rmult_le_pos; lra|lra]. }
  lra.
Qed.
(* pressures at two close densities *)
Lemma p_close r d d' : 0 <= T -> 1 <= r <= 1 + 1 / 8000000 -> 0 < d -> 0 < d' -> d <= r * d' -> d' <= r * d -> detail_D x d <= 3 ->
  Rabs (detail_p x T d' - detail_p x T d) <= (r - 1) * (1 + 1 / 1000) * (d * (831451 / 100000) * T * slope_size x T d).
Proof.
  intros HT Hr H0 H0' H1 H2 HD.
  destruct (MVT_gen (detail_p x T) d d' (Derive (detail_p x T))) as (c & Hc & E).
  - intros z Hz. assert (0 < z) by (unfold Rmin in Hz; destruct (Rle_dec d d'); lra). apply Derive_correct. eexists. apply p_derive. exact H.
  - intros z Hz. assert (0 < z) by (unfold Rmin in Hz; destruct (Rle_dec d d'); lra). apply continuity_pt_filterlim, (@ex_derive_continuous R_AbsRing R_NormedModule). eexists. apply p_derive. exact H.
  - rewrite E, Rabs_mult. pose proof (slope_abs c) as SA. assert (C : d <= r * c /\ c <= r * d /\ 0 < c).
    { unfold Rmin, Rmax in Hc. destruct (Rle_dec d d'); repeat split; nra. }
    destruct C as (C1 & C2 & C3). specialize (SA C3). rewrite (Rabs_pos_eq T) in SA by exact HT.
    assert (DC : detail_D x c <= 301 / 100).
    { unfold detail_D in HD |- *. fold kap in HD |- *. pose proof kap_pos. assert (kap * c <= r * (kap * d)) by nra. assert (0 < kap * d) by (apply Rmult_lt_0_compat; lra). nra. }
    pose proof (slope_ratio r c d Hr ltac:(lra) ltac:(lra) C2 C1 DC) as SR. pose proof (slope_ge1 d ltac:(lra)) as S1.
    assert (DD : Rabs (d' - d) <= (r - 1) * (1 + 1 / 8000000) * d) by (apply Rabs_le; split; nra).
    set (S := slope_size x T d) in *. set (Sc := slope_size x T c) in *.
    apply Rle_trans with (831451 / 100000 * T * ((1 + 1 / 10000) * S) * ((r - 1) * (1 + 1 / 8000000) * d)).
    + apply Rmult_le_compat; try apply Rabs_pos; [|exact DD]. eapply Rle_trans; [exact SA|]. apply Rmult_le_compat_l; [apply Rmult_le_pos; lra|exact SR].
    + replace (831451 / 100000 * T * ((1 + 1 / 10000) * S) * ((r - 1) * (1 + 1 / 8000000) * d)) with ((r - 1) * ((1 + 1 / 10000) * (1 + 1 / 8000000)) * (d * (831451 / 100000) * T * S)) by ring.
      apply Rmult_le_compat_r. { repeat apply Rmult_le_pos; lra. } apply Rmult_le_compat_l; lra.
Qed.
End S.
