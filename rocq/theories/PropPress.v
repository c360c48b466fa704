(* pressure() at line pressure: its size and its rise, compared to the ideal gas. *)
From Coq Require Import Reals ZArith List Bool Lra Lia Psatz.
From Coquelicot Require Import Coquelicot.
From Flocq Require Import Core BinarySingleNaN.
From Verif Require Import FArith Prelude Composition ArithB64 B64Lemmas ArithR SpecB64 SpecDetail SpecGerg StdDetail StdGerg SpecStd SpecGas SpecAcc SpecReal SpecGeneric SpecHistory SpecSession SpecSens SpecRound SpecProp GergModel DetailModel Api AccLibm
  ConvDetail SlopeReal MedCase MedCaseG Session SensDetail RoundMed MedSlope.
From Verif Require Converge MedProps MedSlopeG.
Import ListNotations.
Local Open Scope R_scope.
Local Notation RR := (831451 / 100000).

Lemma rises (p : R -> R -> R) lo hi g T1 T2 d1 d2 v1 v2 : 0 < g -> 270 <= T1 -> 0 < d1 ->
  (T1 <= T2 -> d1 < d2 -> lo * (g * T2) * (d2 - d1) <= p T2 d2 - p T2 d1 <= hi * (g * T2) * (d2 - d1)) -> (T1 < T2 -> d1 <= d2 -> lo * (g * d1) * (T2 - T1) <= p T2 d1 - p T1 d1 <= hi * (g * d1) * (T2 - T1)) ->
  Rabs (v1 - p T1 d1) <= 3 / 10000000000 * (d1 * (g * T1)) -> Rabs (v2 - p T2 d2) <= 3 / 10000000000 * (d2 * (g * T2)) -> rises_like_ideal lo hi g T1 d1 T2 d2 v1 v2.
Proof.
  intros G H1 D SD ST V1 V2 LT LD. apply Converge.Rabs_le_inv in V1, V2. cbv zeta.
  assert (SD' : lo * (g * T2) * (d2 - d1) <= p T2 d2 - p T2 d1 <= hi * (g * T2) * (d2 - d1)) by (destruct LD as [LD|LD]; [now apply SD|subst d2; lra]).
  assert (ST' : lo * (g * d1) * (T2 - T1) <= p T2 d1 - p T1 d1 <= hi * (g * d1) * (T2 - T1)) by (destruct LT as [LT|LT]; [now apply ST|subst T2; lra]).
  set (p22 := p T2 d2) in *. set (p21 := p T2 d1) in *. set (p11 := p T1 d1) in *. clearbody p22 p21 p11. clear SD ST p.
  assert (E : d1 * (g * T1) <= d2 * (g * T2)) by (apply Rmult_le_compat; [lra|apply Rmult_le_pos; lra|exact LD|apply Rmult_le_compat_l; lra]).
  assert (EL : lo * (g * T2 * d2 - g * T1 * d1) = lo * (g * T2) * (d2 - d1) + lo * (g * d1) * (T2 - T1)) by ring.
  assert (EH : hi * (g * T2 * d2 - g * T1 * d1) = hi * (g * T2) * (d2 - d1) + hi * (g * d1) * (T2 - T1)) by ring.
  rewrite EL, EH. replace (g * T2 * d2) with (d2 * (g * T2)) by ring. lra.
Qed.
Lemma band k lo hi x b : 0 <= k -> 0 <= b -> lo <= x <= hi -> lo * k * b <= k * x * b <= hi * k * b.
Proof. intros K Bp [L H]. split; apply Rmult_le_compat_r; trivial; rewrite (Rmult_comm k x); now apply Rmult_le_compat_r. Qed.
Lemma size g k lo hi x v p : 0 < g -> lo + 1 / 1000 <= x <= hi - 1 / 1000 -> k = g -> p = g * x -> Rabs (v - p) <= 3 / 10000000000 * g -> lo * k <= v <= hi * k.
Proof. intros G X -> -> V. apply Converge.Rabs_le_inv in V. assert ((lo + 1 / 1000) * g <= g * x) by (rewrite (Rmult_comm g x); apply Rmult_le_compat_r; lra). assert (g * x <= (hi - 1 / 1000) * g) by (rewrite (Rmult_comm g x); apply Rmult_le_compat_r; lra). lra. Qed.

Section X.
Variable m : Libm.
Variable A : accurate m.
Local Notation B := (ArithB64 m).
Variable c : @Composition B.
Hypothesis Hc : gas_comp m c.
Local Notation xd := (fun j => nth j (bfractions m c) B0).
Local Notation xg := (fun j => match j with O => B0 | S k => nth k (bfractions m c) B0 end).
Lemma T_band_d T1 T2 d : 270 <= T1 <= 350 -> 270 <= T2 <= 350 -> 0 < d <= 669 / 1000 -> T1 < T2 ->
  80 / 100 * (RR * d) * (T2 - T1) <= detail_p (fun j => bR (xd j)) T2 d - detail_p (fun j => bR (xd j)) T1 d <= 126 / 100 * (RR * d) * (T2 - T1).
Proof.
  intros H1 H2 Hd L. assert (Hg : natural_gas (fun j => bR (xd j))) by apply Hc. set (r := fun j => bR (xd j)) in *. clearbody r.
  destruct (mid_value (fun T => detail_p r T d) (fun T => RR * d * (1 + z0 r T d + zt r T d)) T1 T2 L) as (u & Hu & E).
  - intros T HT. apply p_T. lra.
  - cbv beta in E. rewrite E. assert (RU : 270 <= u <= 350) by lra. pose proof (zt_range r Hg u d RU Hd) as V. destruct (MedProps.zq_range r Hg u d RU Hd) as [Z _]. rewrite Z_sum in Z. change (tot 58 _) with (z0 r u d) in Z.
    apply band; lra.
Qed.
Lemma d_band_d T d1 d2 : 270 <= T <= 350 -> 0 < d1 -> d1 < d2 -> d2 <= 669 / 1000 ->
  80 / 100 * (RR * T) * (d2 - d1) <= detail_p (fun j => bR (xd j)) T d2 - detail_p (fun j => bR (xd j)) T d1 <= 126 / 100 * (RR * T) * (d2 - d1).
Proof.
  intros HT H1 L H2. assert (Hg : natural_gas (fun j => bR (xd j))) by apply Hc. set (r := fun j => bR (xd j)) in *. clearbody r.
  destruct (mid_value (detail_p r T) (Derive (detail_p r T)) d1 d2 L) as (u & Hu & E).
  - intros d Hd. apply Derive_correct. eexists. apply p_derive. lra.
  - rewrite E. destruct (MedProps.zq_range r Hg T u HT ltac:(lra)) as [_ Q]. set (q := Derive (detail_p r T) u) in *. clearbody q. split; apply Rmult_le_compat_r; lra.
Qed.
Lemma bands_g T d : 270 <= T <= 350 -> 0 < d <= 5569 / 10000 -> exists a b, is_derive (gpres Api.New (fun j => bR (xg j)) T) d (Rg * T * a) /\ is_derive (fun T => gpres Api.New (fun j => bR (xg j)) T d) T (Rg * d * b) /\
  73 / 100 <= a <= 137 / 100 /\ 73 / 100 <= b <= 137 / 100.
Proof.
  intros HT Hd. destruct (MedSlopeG.gp_slopes xg (xg_ok m c Hc) (proj1 (proj2 Hc)) T d HT Hd) as (z & w & u & _ & D1 & D2 & Z & W & U).
  exists (1 + z + w), (1 + z - u). split; [exact D1|]. split; [rewrite (Rmult_comm Rg d); exact D2|lra].
Qed.
Lemma T_band_g T1 T2 d : 270 <= T1 <= 350 -> 270 <= T2 <= 350 -> 0 < d <= 5569 / 10000 -> T1 < T2 ->
  73 / 100 * (Rg * d) * (T2 - T1) <= gpres Api.New (fun j => bR (xg j)) T2 d - gpres Api.New (fun j => bR (xg j)) T1 d <= 137 / 100 * (Rg * d) * (T2 - T1).
Proof.
  intros H1 H2 Hd L. assert (PRg : Rg = 8314472 / 1000000) by reflexivity. pose proof (fun T H => bands_g T d H Hd) as Q. set (r := fun j => bR (xg j)) in *. clearbody r.
  destruct (mid_value (fun T => gpres Api.New r T d) (Derive (fun T => gpres Api.New r T d)) T1 T2 L) as (u & Hu & E).
  - intros T HT. destruct (Q T ltac:(lra)) as (a & b & _ & D & _). apply Derive_correct. eexists. exact D.
  - cbv beta in E. rewrite E. destruct (Q u ltac:(lra)) as (a & b & _ & D & _ & V). assert (DE : Derive (fun T => gpres Api.New r T d) u = Rg * d * b) by (apply is_derive_unique; exact D). rewrite DE. apply band; rewrite ?PRg; lra.
Qed.
Lemma d_band_g T d1 d2 : 270 <= T <= 350 -> 0 < d1 -> d1 < d2 -> d2 <= 5569 / 10000 ->
  73 / 100 * (Rg * T) * (d2 - d1) <= gpres Api.New (fun j => bR (xg j)) T d2 - gpres Api.New (fun j => bR (xg j)) T d1 <= 137 / 100 * (Rg * T) * (d2 - d1).
Proof.
  intros HT H1 L H2. assert (PRg : Rg = 8314472 / 1000000) by reflexivity. pose proof (fun d => bands_g T d HT) as Q. set (r := fun j => bR (xg j)) in *. clearbody r.
  destruct (mid_value (gpres Api.New r T) (Derive (gpres Api.New r T)) d1 d2 L) as (u & Hu & E).
  - intros d Hd. destruct (Q d ltac:(lra)) as (a & b & D & _). apply Derive_correct. eexists. exact D.
  - rewrite E. destruct (Q u ltac:(lra)) as (a & b & D & _ & V & _). assert (DE : Derive (gpres Api.New r T) u = Rg * T * a) by (apply is_derive_unique; exact D). rewrite DE. apply band; rewrite ?PRg; lra.
Qed.
Variables t1 d1 t2 d2 : b64.
Hypothesis H1 : fin t1 /\ 270 <= bR t1 <= 350.
Lemma ideal_detail : fin d1 /\ 1 / 10000 <= bR d1 <= 55 / 100 -> exists s v, @dexec B Api.New (gauge (A := B) c t1 d1) = Some (s, gauged (A := B) v) /\ fin v /\ near_ideal (90 / 100) (103 / 100) RR (bR t1) (bR d1) (bR v).
Proof.
  intros D1. destruct (gauge_detail m A c Hc t1 d1 H1 D1) as (s & v & E & F & _ & V). exists s, v. split; [exact E|]. split; [exact F|]. destruct H1 as [_ T1], D1 as [_ D1].
  destruct (MedProps.zq_range _ (proj1 (proj2 Hc)) (bR t1) (bR d1) T1 ltac:(lra)) as [Z _].
  refine (size (bR d1 * (RR * bR t1)) _ _ _ _ (bR v) _ _ _ _ _ V); [apply Rmult_lt_0_compat; lra| |ring|unfold detail_p; ring_simplify; reflexivity]. lra.
Qed.
Lemma ideal_gerg : fin d1 /\ 1 / 10000 <= bR d1 <= 40 / 100 -> exists s v, @gexec B Api.New (gauge (A := B) c t1 d1) = Some (s, gauged (A := B) v) /\ fin v /\ near_ideal (86 / 100) (103 / 100) Rg (bR t1) (bR d1) (bR v).
Proof.
  intros D1. destruct (gauge_gerg m A c Hc t1 d1 H1 D1) as (s & v & E & F & _ & V). exists s, v. split; [exact E|]. split; [exact F|]. destruct H1 as [_ T1], D1 as [_ D1]. assert (PRg : Rg = 8314472 / 1000000) by reflexivity.
  destruct (MedSlopeG.gp_slopes _ (xg_ok m c Hc) (proj1 (proj2 Hc)) (bR t1) (bR d1) T1 ltac:(lra)) as (z & _ & _ & P & _ & _ & Z & _).
  refine (size (bR d1 * (Rg * bR t1)) _ _ _ (1 + z) (bR v) _ _ _ _ _ V); [apply Rmult_lt_0_compat; [lra|rewrite PRg; lra]|lra|ring|rewrite P; ring].
Qed.
Hypothesis H2 : fin t2 /\ 270 <= bR t2 <= 350.
Lemma rises_detail : fin d1 /\ 1 / 10000 <= bR d1 <= 55 / 100 -> fin d2 /\ 1 / 10000 <= bR d2 <= 55 / 100 -> exists s1 v1 s2 v2,
  @dexec B Api.New (gauge (A := B) c t1 d1) = Some (s1, gauged (A := B) v1) /\ @dexec B Api.New (gauge (A := B) c t2 d2) = Some (s2, gauged (A := B) v2) /\ fin v1 /\ fin v2 /\
  rises_like_ideal (80 / 100) (126 / 100) RR (bR t1) (bR d1) (bR t2) (bR d2) (bR v1) (bR v2).
Proof.
  intros D1 D2. destruct (gauge_detail m A c Hc t1 d1 H1 D1) as (s1 & v1 & E1 & F1 & _ & V1). destruct (gauge_detail m A c Hc t2 d2 H2 D2) as (s2 & v2 & E2 & F2 & _ & V2).
  exists s1, v1, s2, v2. repeat (split; [assumption|]). destruct H1 as [_ T1], H2 as [_ T2], D1 as [_ D1], D2 as [_ D2].
  apply (rises (detail_p (fun j => bR (xd j)))); trivial; try lra.
  - intros _ L. apply d_band_d; trivial; lra.
  - intros L _. apply T_band_d; trivial; lra.
Qed.
Lemma rises_gerg : fin d1 /\ 1 / 10000 <= bR d1 <= 40 / 100 -> fin d2 /\ 1 / 10000 <= bR d2 <= 40 / 100 -> exists s1 v1 s2 v2,
  @gexec B Api.New (gauge (A := B) c t1 d1) = Some (s1, gauged (A := B) v1) /\ @gexec B Api.New (gauge (A := B) c t2 d2) = Some (s2, gauged (A := B) v2) /\ fin v1 /\ fin v2 /\
  rises_like_ideal (73 / 100) (137 / 100) Rg (bR t1) (bR d1) (bR t2) (bR d2) (bR v1) (bR v2).
Proof.
  intros D1 D2. destruct (gauge_gerg m A c Hc t1 d1 H1 D1) as (s1 & v1 & E1 & F1 & _ & V1). destruct (gauge_gerg m A c Hc t2 d2 H2 D2) as (s2 & v2 & E2 & F2 & _ & V2).
  exists s1, v1, s2, v2. repeat (split; [assumption|]). destruct H1 as [_ T1], H2 as [_ T2], D1 as [_ D1], D2 as [_ D2]. assert (PRg : Rg = 8314472 / 1000000) by reflexivity.
  apply (rises (gpres Api.New (fun j => bR (xg j)))); trivial; try lra.
  - intros _ L. apply d_band_g; trivial; lra.
  - intros L _. apply T_band_g; trivial; lra.
Qed.
End X.
