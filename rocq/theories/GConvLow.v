(* density() of a new GERG object in double precision at low pressure. *)
From Coq Require Import Reals ZArith List Bool Lra Lia Psatz.
From Coquelicot Require Import Coquelicot.
From Flocq Require Import Core BinarySingleNaN.
From Interval Require Import Tactic.
From Verif Require Import FArith Prelude Tab ArithB64 B64Lemmas ArithR RSum SpecDetail SpecGerg SpecIdeal SpecTables StdGerg SpecStd SpecAcc SpecAccG SpecAll SpecAllF SpecSlopeG SpecConv SpecHistory SpecGeneric DetailModel DetailPure GergTables GergModel GergPure GergRefine GergEval Api ApiSafe BasicProofs DensityProofs HistoryGerg SpecReal Thermo DetailReal DetailThermo GergReal GergIdeal GergThermo
  DetailEos GergEos GenericLemmas Drift StdDetailProof StdGergProof Newton NewtonReal ConvDetail ConvGerg SlopeReal GSlope B64Err AccFold AccMix AccEos AccProof GAccRed GAccTerms GAccEos GAccSize GAccProof AccSlope GAllCoef GAllTerms GAllSize GAllIdeal GAllIdeal2 GAllProps GAllFin GAllMain AccDens AccDensProof GDens Converge ConvergeEps ConvReal ConvDouble ConvFin ConvFinLow ConvLowG GDensProof GConvDouble GConvFin.
Import ListNotations.
Local Open Scope R_scope.
Local Existing Instance gp_new.

(* the size of the slope is bounded by the spread *)
Definition below1 (f g z : R -> R) : Prop := forall v, 0 <= v <= 1 -> 2 * f v + g v <= 4 * z v.
Lemma b1_plus f g z f' g' z' : below1 f g z -> below1 f' g' z' -> below1 (fun v => f v + f' v) (fun v => g v + g' v) (fun v => z v + z' v).
Proof. intros H K v Hv. specialize (H v Hv). specialize (K v Hv). lra. Qed.
Lemma b1_0 : below1 (fun _ => 0) (fun _ => 0) (fun _ => 0). Proof. intros v _. lra. Qed.
Lemma b1_scal c f g z : 0 <= c -> below1 f g z -> below1 (fun v => c * f v) (fun v => c * g v) (fun v => c * z v).
Proof. intros Hc H v Hv. specialize (H v Hv). nra. Qed.
Lemma b1_lsum {T} (f g z : R -> T -> R) l : (forall r, In r l -> below1 (fun v => f v r) (fun v => g v r) (fun v => z v r)) ->
  below1 (fun v => lsum (f v) l) (fun v => lsum (g v) l) (fun v => lsum (z v) l).
Proof.
  induction l as [|r l IH]; intros H; [exact b1_0|]. unfold lsum in *. cbn [fold_right]. apply b1_plus; [apply H; now left|].
  apply IH. intros q Hq. apply H. now right.
Qed.
Lemma b1_tot (f g z : R -> nat -> R) n : (forall r, below1 (fun v => f v r) (fun v => g v r) (fun v => z v r)) ->
  below1 (fun v => tot n (f v)) (fun v => tot n (g v)) (fun v => tot n (z v)).
Proof. intros H. induction n as [|n IH]; [exact b1_0|]. cbn [tot]. apply b1_plus; [exact IH|apply H]. Qed.
Lemma b1_pure tau r : pure_ok r = true -> below1 (fun v => SpecAll.pure_w 1 v tau r) (fun v => SpecAll.pure_w 2 v tau r) (fun v => pure_size v tau r).
Proof.
  destruct r as [[[n d] t] c]. cbn [pure_ok]. intros H v Hv. apply Nat.leb_le in H. unfold SpecAll.pure_w, pure_size, pure_factor. cbv zeta.
  assert (1 <= INR d) as Hd by (apply (le_INR 1); exact H). pose proof (pos_INR c) as Hc.
  assert (X : 0 < Rpower tau (Rlit t)) by apply exp_pos. pose proof (Rabs_pos (Rlit n)) as N0.
  assert (Y : 0 <= v ^ c <= 1). { split; [apply pow_le; lra|]. rewrite <- (pow1 c). apply pow_incr. lra. }
  assert (Z : 0 <= v ^ d) by (apply pow_le; lra).
  assert (Q : 0 <= match c with O => 1 | _ => exp (- v ^ c) end <= 1).
  { destruct c as [|c']; [lra|]. split; [apply Rlt_le, exp_pos|]. rewrite <- exp_0. apply exp_le. lra. }
  set (e := match c with O => 1 | _ => exp (- v ^ c) end) in *. set (y := v ^ c) in *. set (z := v ^ d) in *. set (K := INR c) in *. set (D := INR d) in *. set (X' := Rpower tau (Rlit t)) in *. set (nn := Rabs (Rlit n)) in *.
  clearbody e y z K D X' nn.
  assert (M : 0 <= nn * z * X') by (repeat apply Rmult_le_pos; lra). set (M' := nn * z * X') in *.
  replace (nn * X' * ((D + K * y) ^ 2 + K ^ 2 * y) * z) with (M' * ((D + K * y) ^ 2 + K * (K * y))) by (unfold M'; ring). clearbody M'.
  assert (KY : 0 <= K * y <= K) by nra. assert (KK : 0 <= K * (K * y) <= K * K) by nra. set (E := K * y) in *. clearbody E.
  assert (G : 2 * (D + E) + ((D + E) * (D + E + 1) + K * E) <= 4 * ((D + E) ^ 2 + K * E)) by nra.
  assert (G0 : 0 <= 2 * (D + E) + ((D + E) * (D + E + 1) + K * E)) by nra.
  replace (2 * (M' * e * (D + E)) + M' * e * ((D + E) * (D + E + 1) + K * E)) with (M' * (e * (2 * (D + E) + ((D + E) * (D + E + 1) + K * E)))) by ring.
  replace (4 * (M' * ((D + E) ^ 2 + K * E))) with (M' * (4 * ((D + E) ^ 2 + K * E))) by ring. apply Rmult_le_compat_l; [exact M|]. nra.
Qed.
Lemma b1_dep tau r : dep_ok r = true -> below1 (fun v => SpecAll.dep_w 1 v tau r) (fun v => SpecAll.dep_w 2 v tau r) (fun v => dep_size v tau r).
Proof.
  destruct r as [[[n d] t] w]. cbn [dep_ok]. intros H v Hv. apply andb_true_iff in H as [H H3]. apply andb_true_iff in H as [H H2]. apply andb_true_iff in H as [H H1].
  apply Nat.leb_le in H. apply nonneg_ok in H1, H2, H3. unfold SpecAll.dep_w, dep_size, dep_factor. cbv zeta.
  set (a := Rlit (nth 0 w (L 0 0))) in *. set (b := Rlit (nth 1 w (L 0 0))) in *. set (c := Rlit (nth 2 w (L 0 0))) in *. set (f := Rlit (nth 3 w (L 0 0))) in *.
  assert (1 <= INR d) as Hd by (apply (le_INR 1); exact H).
  assert (X : 0 < Rpower tau (Rlit t)) by apply exp_pos. pose proof (Rabs_pos (Rlit n)) as N0. assert (Z : 0 <= v ^ d) by (apply pow_le; lra).
  assert (Q : 0 < exp (- a * (v - b) ^ 2 - c * (v - f)) <= exp (c * f)).
  { split; [apply exp_pos|]. apply exp_le. assert (0 <= a * (v - b) ^ 2) by (apply Rmult_le_pos; [exact H1|apply pow2_ge_0]). nra. }
  set (e := exp (- a * (v - b) ^ 2 - c * (v - f))) in *. set (e' := exp (c * f)) in *. set (z := v ^ d) in *. set (D := INR d) in *. set (X' := Rpower tau (Rlit t)) in *. set (nn := Rabs (Rlit n)) in *.
  clearbody e e' z D X' nn a b c f.
  assert (M : 0 <= nn * z * X') by (repeat apply Rmult_le_pos; lra). set (M' := nn * z * X') in *.
  assert (ab : 0 <= a * b) by (apply Rmult_le_pos; lra).
  assert (C : 0 <= a * v ^ 2) by (assert (0 <= v ^ 2) by nra; nra). assert (E : 0 <= (2 * a * b + c) * v) by nra.
  replace (2 * a * v * (v + b) + c * v) with (2 * (a * v ^ 2) + (2 * a * b + c) * v) by ring. replace (2 * a * v ^ 2) with (2 * (a * v ^ 2)) by ring.
  set (C' := a * v ^ 2) in *. set (E' := (2 * a * b + c) * v) in *. clearbody C' E'.
  set (k := 2 * C' + E') in *. assert (K : 0 <= k) by (unfold k; lra).
  replace (nn * X' * ((D + k) ^ 2 + k + 2 * C') * e' * z) with (M' * (e' * ((D + k) ^ 2 + k + 2 * C'))) by (unfold M'; ring). clearbody M'.
  replace (D + 2 * C' + E') with (D + k) by (unfold k; ring). clearbody k. set (G := D + k) in *. assert (HG : 1 <= G /\ D <= G) by (unfold G; lra). clearbody G.
  assert (GG : 2 * G + (G * G + D + 2 * C') <= 4 * (G ^ 2 + k + 2 * C')) by nra. assert (G0 : 0 <= 2 * G + (G * G + D + 2 * C')) by nra.
  replace (2 * (M' * e * G) + M' * e * (G * G + D + 2 * C')) with (M' * (e * (2 * G + (G * G + D + 2 * C')))) by ring.
  replace (4 * (M' * (e' * (G ^ 2 + k + 2 * C')))) with (M' * (e' * (4 * (G ^ 2 + k + 2 * C')))) by ring.
  apply Rmult_le_compat_l; [exact M|]. apply Rmult_le_compat; lra.
Qed.
Lemma slope_spread x tau v : (forall i, 0 <= x i) -> 0 <= v <= 1 -> gerg_slope x v tau <= 1 + 4 * gerg_spread x v tau.
Proof.
  intros Hx Hv. unfold gerg_slope.
  assert (Q : below1 (fun v => gerg_sum 1 x v tau) (fun v => gerg_sum 2 x v tau) (fun v => gerg_spread x v tau)).
  { unfold gerg_sum, gerg_spread. apply b1_plus.
    - apply (b1_tot (fun v m => x (S m) * lsum (SpecAll.pure_w 1 v tau) (nth (S m) PURE [])) (fun v m => x (S m) * lsum (SpecAll.pure_w 2 v tau) (nth (S m) PURE [])) (fun v m => x (S m) * lsum (pure_size v tau) (nth (S m) PURE []))).
      intros k. apply b1_scal; [apply Hx|]. apply (b1_lsum (fun v => SpecAll.pure_w 1 v tau) (fun v => SpecAll.pure_w 2 v tau) (fun v => pure_size v tau)). intros r Hr. apply b1_pure. exact (pure_rows_ok _ _ Hr).
    - apply (b1_lsum (fun v r => let '(i, j, f, m) := r in x i * x j * Rabs (Rlit f) * lsum (SpecAll.dep_w 1 v tau) (dep_rows m))
        (fun v r => let '(i, j, f, m) := r in x i * x j * Rabs (Rlit f) * lsum (SpecAll.dep_w 2 v tau) (dep_rows m))
        (fun v r => let '(i, j, f, m) := r in x i * x j * Rabs (Rlit f) * lsum (dep_size v tau) (dep_rows m))).
      intros [[[i j] f] k] _. apply b1_scal; [apply Rmult_le_pos; [apply Rmult_le_pos; apply Hx|apply Rabs_pos]|].
      apply (b1_lsum (fun v => SpecAll.dep_w 1 v tau) (fun v => SpecAll.dep_w 2 v tau) (fun v => dep_size v tau)). intros r Hr. apply b1_dep. exact (dep_rows_ok _ _ Hr). }
  specialize (Q v Hv). cbv beta in Q. lra.
Qed.

Section L.
Variable m : Libm.
Hypothesis A : accurate m.
Local Notation B := (ArithB64 m).
Variables (x : nat -> b64) (t P : b64) (i : Z).
Local Notation r := (fun j => bR (x j)).
Hypothesis Hi : (i <= 0)%Z.
Hypothesis Hx : forall j, (1 <= j < 22)%nat -> fin (x j) /\ (bR (x j) = 0 \/ p2 (-49) <= bR (x j)).
Hypothesis Hs : 99 / 100 <= tot 21 (fun j => bR (x (S j))) <= 101 / 100.
Hypothesis HT : fin t /\ 32 <= bR t <= 2048.
Hypothesis FP : fin P.
Let T := bR t.
Let d0 := bR P / Rg / T.
Hypothesis Hd0 : p2 (-17) <= d0 <= 290.
Hypothesis HD : 4 * d0 * vred r <= 1.
Hypothesis HSp : gerg_spread r (4 * d0 * vred r) (tred r / T) <= 1 / 7.
Let l : list (@op B) := [SetX (A := B) x; Poke (A := B) PT t; Poke (A := B) PP P].
Let s1 : @Gerg B := set_g_p (P : @F B) (set_g_t (t : @F B) (@set_g_x B (map x (seq 0 22)) gerg_fresh)).
Lemma gbrun1 : @gexec B New l = Some (s1, [OUnit; OUnit; OUnit]).
Proof. apply (@gexec_new B). reflexivity. Qed.
Lemma gbsep1 : separated (A := B) 1 (gasked (A := B) (l ++ [Density (A := B) i])).
Proof.
  cbn [l app gasked asked]. split.
  - intros a b c e [[= <- <-]|[]] [[= <- <-]|[]]. split; now left.
  - intros a b [[= <- <-]|[]]. split.
    + destruct (big_xg x Hs) as (j & Hj & H). exists j. split; [cbn [length map seq]; lia|]. rewrite nth_repeat.
      change (@differs B (@xf B (map x (seq 0 22)) j) (@f0 B) = true). rewrite (Xg m x) by lia. apply differs_0; [apply Hx, Hj|].
      pose proof (rg_le x Hx Hs j Hj). cbv beta in *. lra.
    + change (@differs B t (@f0 B) = true). apply differs_0; [apply HT|]. lra.
Qed.
Lemma gdp0 : 0 < d0. Proof. pose proof (p2_pos (-17)). lra. Qed.
Lemma gEP : bR P = d0 * Rg * T. Proof. unfold d0, T, Rg. field. lra. Qed.
Let g : b64 := bdiv (bdiv P (@RGERG B)) t.
Lemma guess_g : @gguess B i s1 = g.
Proof.
  unfold gguess. change (g_d s1) with (@f0 B). change (@flt B (@fneg B (@GEPSILON B)) (@f0 B)) with (Bltb (Bopp (blit (L 1 (-15)))) B0).
  rewrite lt_fin; [|unfold fin; rewrite is_finite_Bopp; reflexivity|reflexivity]. unfold bR at 1. rewrite B2R_Bopp. fold (bR (blit (L 1 (-15)))). change (bR B0) with 0.
  pose proof eps_pos. rewrite Rlt_bool_true by lra. destruct (Z.eqb_spec i 2); [lia|]. reflexivity.
Qed.
Lemma guess_near_g : fin g /\ Rabs (bR g - d0) <= 1 / 10000000000000 * d0.
Proof.
  pose proof gdp0 as D0. pose proof gEP as E. pose proof (p2_pos (-17)). assert (PRg : Rg = 8314472 / 1000000) by reflexivity. assert (T0 : 32 <= T <= 2048) by apply HT.
  assert (RP : p2 (-17) <= bR P <= p2 24).
  { rewrite E. change (p2 (-17)) with (/ 131072) in *. change (p2 24) with 16777216. split.
    - apply Rle_trans with (d0 * 8 * 32); [lra|]. apply Rmult_le_compat; [lra|lra| |lra]. apply Rmult_le_compat_l; lra.
    - apply Rle_trans with (290 * 9 * 2048); [|lra]. apply Rmult_le_compat; [apply Rmult_le_pos; lra|lra| |lra]. apply Rmult_le_compat; lra. }
  assert (Q : ap 0 (-17) 24 P (bR P) (bR P)).
  { eapply ap_eq; [apply ap_exact; [exact FP|]|reflexivity|]; rewrite Rabs_pos_eq by lra; [right; exact RP|reflexivity]. }
  assert (QT : ap 0 5 11 t (bR t) (bR t)).
  { eapply ap_eq; [apply ap_exact; [apply HT|]|reflexivity|]; rewrite Rabs_pos_eq by lra; [right; change (p2 5) with 32; change (p2 11) with 2048; lra|reflexivity]. }
  pose proof (ap_div _ _ _ _ _ _ _ _ _ _ _ Q (aRG m) ltac:(lra) ltac:(zc) ltac:(zc) ltac:(zc) ltac:(zc)) as Q1.
  pose proof (ap_div _ _ _ _ _ _ _ _ _ _ _ Q1 QT ltac:(lra) ltac:(zc) ltac:(zc) ltac:(zc) ltac:(zc)) as Q2.
  destruct Q2 as (F & E2 & _). split; [exact F|]. eapply Rle_trans; [exact E2|]. change (bR P / Rg / bR t) with d0. apply Rmult_le_compat_r; [lra|].
  rewrite u64_val. match goal with |- IZR ?k * _ <= _ => let v := eval vm_compute in k in change k with v end. lra.
Qed.
Lemma spread_ac D T' : gerg_spread (ac r) D T' = gerg_spread r D T'.
Proof.
  unfold gerg_spread. apply f_equal2.
  - change (tot 21) with (sum 21). apply sum_ext. intros j Hj. now rewrite (ac_r x Hx) by lia.
  - rewrite departs_rows, !lsum_map. apply lsum_ext. intros p Hp. apply filter_In in Hp. destruct Hp as [Hp _]. unfold allp in Hp.
    apply in_flat_map in Hp. destruct Hp as (j & Hj & Hp). apply in_seq in Hj. apply in_map_iff in Hp. destruct Hp as (k & <- & Hk). apply in_seq in Hk.
    unfold dlit. cbn [fst snd]. now rewrite !(ac_r x Hx) by lia.
Qed.
Variable p : R -> R.
Hypothesis Hpe : p = gpres New r T.
Lemma glowD : forall d, exists a' : R, is_derive (fun delta => residual (ac r) delta (tred r / T)) (d * vred r) a' /\ p d = d * Rg * T * (1 + d * vred r * a').
Proof. intros d. rewrite Hpe. apply (gpres_res x Hx Hs). unfold T. lra. Qed.
Lemma glowZ d : 0 < d <= 4 * d0 -> 6 / 7 * (d * Rg * T) <= p d <= 8 / 7 * (d * Rg * T).
Proof.
  intros Hd. pose proof gdp0 as D0. pose proof (v_pos x Hx Hs) as VP. pose proof HSp as HSq. rewrite <- spread_ac in HSq.
  destruct (small_residual (ac r) (tred r / T) (ac_ge0 r)) as (M & f1 & f2 & H).
  destruct (glowD d) as (a & Da & E). set (v := vred r) in *. assert (dv : 0 < d * v) by (apply Rmult_lt_0_compat; lra).
  assert (dle : d * v <= 4 * d0 * v) by (apply Rmult_le_compat_r; lra). destruct (H _ dv) as (D & _ & C). destruct (C ltac:(lra)) as [C1 _].
  destruct (M (d * v) (4 * d0 * v) ltac:(lra)) as [_ M1].
  assert (Ea : a = f1 (d * v) / (d * v)) by (rewrite <- (is_derive_unique _ _ _ Da); exact (is_derive_unique _ _ _ D)).
  assert (E2 : p d = d * Rg * T * (1 + f1 (d * v))) by (rewrite E, Ea; field; lra). rewrite E2.
  assert (F1 : Rabs (f1 (d * v)) <= 1 / 7) by lra. apply Rabs_le_inv in F1. set (y := f1 (d * v)) in *. clearbody y.
  assert (0 < d * Rg * T) by (apply Rmult_lt_0_compat; [apply Rmult_lt_0_compat; [lra|unfold Rg; lra]|unfold T; lra]). nra.
Qed.
Lemma glowNI e0 : (1 - 1 / 10000000000000) * d0 <= e0 <= (1 + 1 / 10000000000000) * d0 -> nearly_ideal p e0 (bR P).
Proof.
  intros He. pose proof gdp0 as D0. pose proof gEP as E. pose proof (v_pos x Hx Hs) as VP. assert (T0 : 32 <= T) by (unfold T; lra). assert (PRg : Rg = 8314472 / 1000000) by reflexivity.
  assert (le : 3 * e0 * vred r <= 4 * d0 * vred r) by (apply Rmult_le_compat_r; lra). assert (e3 : 0 < 3 * e0 * vred r) by (repeat apply Rmult_lt_0_compat; lra).
  split.
  - pose proof (glowZ e0 ltac:(lra)) as Z. rewrite E. assert (0 < Rg * T) by (apply Rmult_lt_0_compat; lra).
    replace (e0 * Rg * T) with (e0 * (Rg * T)) in Z by ring. replace (d0 * Rg * T) with (d0 * (Rg * T)) by ring. set (k := Rg * T) in *. clearbody k. nra.
  - destruct (small_residual (ac r) (tred r / T) (ac_ge0 r)) as (M & _). destruct (M (3 * e0 * vred r) (4 * d0 * vred r) ltac:(lra)) as [_ M1].
    pose proof HSp as HSq. rewrite <- spread_ac in HSq.
    exact (proj2 (gerg_ideal (ac r) (tred r / T) (vred r) T p e0 (ac_ge0 r) ltac:(lra) VP ltac:(lra) ltac:(lra) ltac:(lra) glowD)).
Qed.
Lemma glow_bstep : exists s e, gstep (A := B) (Density i) s1 = Some (s, ODens (A := B) ROk) /\ gframe (A := B) [PD; PZ] s1 s /\
  let d := gread (A := B) PD s in
  fin d /\ Rabs (p (bR d) - bR P) <= 1 / 10000000 * bR P /\ Rabs (bR d - e) <= 1 / 10000000 * e /\
  7 / 8 * d0 <= e <= 7 / 6 * d0 /\ p e = bR P /\ forall e', 0 < e' <= 2 * d0 -> p e' = bR P -> e' = e.
Proof.
  pose proof gdp0 as D0. pose proof gEP as E. destruct guess_near_g as [Fg Ng]. assert (T0 : 32 <= T) by (unfold T; lra). assert (PRg : Rg = 8314472 / 1000000) by reflexivity.
  assert (Ng' : (1 - 1 / 10000000000000) * d0 <= bR g <= (1 + 1 / 10000000000000) * d0) by (apply Rabs_le_inv in Ng; lra).
  pose proof (v_pos x Hx Hs) as VP. assert (RT : 0 < Rg * T) by (apply Rmult_lt_0_compat; lra).
  pose proof (gdensity_conv m A l i s1 _ gbrun1 gbsep1 Hi x eq_refl) as C. cbv zeta in C. rewrite guess_g in C.
  change (gread (A := B) PT s1) with t in C. change (gread (A := B) PP s1) with P in C. fold T in C. specialize (C p Hpe Hx Hs HT FP).
  destruct C as (s & e & E1 & Fr & F1 & A1 & A2 & A3 & A4 & A5).
  - rewrite E, Rmult_assoc. apply Rmult_lt_0_compat; lra.
  - split; [exact Fg|]. replace (-17)%Z with (-18 + 1)%Z in Hd0 by lia. rewrite bpow_plus in Hd0. change (bpow radix2 1) with 2 in Hd0. pose proof (p2_pos (-18)). lra.
  - assert (3 * bR g * vred r <= 4 * d0 * vred r) by (apply Rmult_le_compat_r; lra). lra.
  - exact (glowNI (bR g) Ng').
  - intros d Hd. pose proof (glowZ d ltac:(lra)) as Z.
    assert (dv : 0 < d * vred r) by (apply Rmult_lt_0_compat; lra). assert (dle : d * vred r <= 4 * d0 * vred r) by (apply Rmult_le_compat_r; lra).
    pose proof (slope_spread (ac r) (tred r / T) (d * vred r) (ac_ge0 r) ltac:(lra)) as S.
    destruct (small_residual (ac r) (tred r / T) (ac_ge0 r)) as (M & _). destruct (M (d * vred r) (4 * d0 * vred r) ltac:(lra)) as [_ M1].
    pose proof HSp as HSq. rewrite <- spread_ac in HSq. rewrite <- (slope_ac x Hx). set (sl := gerg_slope (ac r) (d * vred r) (tred r / T)) in *.
    assert (0 < d * Rg * T) by (rewrite Rmult_assoc; apply Rmult_lt_0_compat; lra).
    assert (d * Rg * T * sl <= d * Rg * T * 8) by (apply Rmult_le_compat_l; lra). lra.
  - assert (Loc : forall e', 0 < e' <= 4 * d0 -> p e' = bR P -> 7 / 8 * d0 <= e' <= 7 / 6 * d0).
    { intros e' He' Q. pose proof (glowZ e' He') as Z. rewrite Q, E in Z.
      replace (e' * Rg * T) with (e' * (Rg * T)) in Z by ring. replace (d0 * Rg * T) with (d0 * (Rg * T)) in Z by ring. set (k := Rg * T) in *. clearbody k. split; nra. }
    exists s, e. split; [exact E1|]. split; [exact Fr|].
    cbv zeta. split; [exact F1|]. split; [exact A1|]. split; [exact A2|]. split; [apply Loc; [lra|exact A4]|]. split; [exact A4|].
    intros e' He' Q. pose proof (Loc e' ltac:(lra) Q). apply A5; [lra|]. exact Q.
Qed.
Lemma glow_double : exists s e, @gexec B New [SetX (A := B) x; Poke (A := B) PT t; Poke (A := B) PP P; Density (A := B) i] = Some (s, [OUnit; OUnit; OUnit; ODens (A := B) ROk]) /\
  let d := gread (A := B) PD s in
  fin d /\ Rabs (p (bR d) - bR P) <= 1 / 10000000 * bR P /\ Rabs (bR d - e) <= 1 / 10000000 * e /\
  7 / 8 * d0 <= e <= 7 / 6 * d0 /\ p e = bR P /\ forall e', 0 < e' <= 2 * d0 -> p e' = bR P -> e' = e.
Proof.
  destruct glow_bstep as (s & e & E1 & _ & Q). exists s, e. split; [|exact Q].
  change (@gexec B New (l ++ [Density (A := B) i]) = Some (s, [OUnit; OUnit; OUnit] ++ [ODens (A := B) ROk])). eapply (@gexec_app B); [exact gbrun1|].
  cbn [grun]. match goal with |- context [@gstep ?a ?b ?c] => assert (EL : @gstep a b c = Some (s, ODens (A := B) ROk)) by exact E1; rewrite EL end. reflexivity.
Qed.
End L.
Lemma gdensity_low : exists gv gt bt : nat -> nat -> R,
  (forall i j, (1 <= i <= j)%nat -> (j < 22)%nat ->
    near (gv i j) (v_red i j) /\ near (gt i j) (t_red i j) /\ near (bt i j) (b_red i j)) /\
  forall m, accurate m -> forall (x : nat -> b64) (t P : b64) i, (i <= 0)%Z -> let r j := bR (x j) in
  (forall j, (1 <= j < 22)%nat -> fin (x j) /\ (r j = 0 \/ bpow radix2 (-49) <= r j)) ->
  99 / 100 <= tot 21 (fun j => r (S j)) <= 101 / 100 -> fin t /\ 32 <= bR t <= 2048 -> fin P ->
  let T := bR t in let d0 := bR P / Rg / T in let v := red_volume r gv in
  bpow radix2 (-17) <= d0 <= 290 -> 4 * d0 * v <= 1 -> gerg_spread r (4 * d0 * v) (red_temp r gt bt / T) <= 1 / 7 ->
  exists s e, @gexec (ArithB64 m) New [SetX (A := ArithB64 m) x; Poke (A := ArithB64 m) PT t; Poke (A := ArithB64 m) PP P; Density (A := ArithB64 m) i]
      = Some (s, [OUnit; OUnit; OUnit; ODens (A := ArithB64 m) ROk]) /\
    let d := gread (A := ArithB64 m) PD s in
    fin d /\ Rabs (gpres New r T (bR d) - bR P) <= 1 / 10000000 * bR P /\ Rabs (bR d - e) <= 1 / 10000000 * e /\
    7 / 8 * d0 <= e <= 7 / 6 * d0 /\ gpres New r T e = bR P /\ forall e', 0 < e' <= 2 * d0 -> gpres New r T e' = bR P -> e' = e.
Proof.
  exists (tb2 G_GVIJ), (tb2 G_GTIJ), (tb2 G_BTIJ). split.
  { intros i j Hi Hj. split; [now apply v_std|]. split; [now apply t_std|now apply b_std]. }
  intros m A x t P i Hi r Hx Hs HT FP T d0 v H1 H2 H3. unfold v in H2, H3. rewrite vred_std in H2, H3. rewrite tred_std in H3.
  exact (glow_double m A x t P i Hi Hx Hs HT FP H1 H2 H3 (gpres New r T) eq_refl).
Qed.
