(* pressure() at line pressure: two platforms, and the order of two states. *)
From Coq Require Import Reals ZArith List Bool Lra Lia Psatz.
From Coquelicot Require Import Coquelicot.
From Flocq Require Import Core BinarySingleNaN.
From Verif Require Import FArith Prelude Composition ArithB64 B64Lemmas ArithR SpecB64 SpecDetail SpecGerg StdDetail StdGerg SpecStd SpecGas SpecAcc SpecReal SpecGeneric SpecHistory SpecSession SpecSens SpecRound SpecRise GergModel DetailModel Api AccLibm
  ConvDetail SlopeReal MedCase MedCaseG Session SensDetail RoundMed MedSlope.
From Verif Require Converge MedProps MedSlopeG Platform.
Import ListNotations.
Local Open Scope R_scope.
Local Notation RR := (831451 / 100000).

Lemma rise (p : R -> R -> R) g T1 T2 d1 d2 v1 v2 : 0 < g -> 270 <= T1 <= 350 -> 270 <= T2 <= 350 -> 0 < d1 ->
  (d1 < d2 -> 1 / 2 * (g * T2) * (d2 - d1) <= p T2 d2 - p T2 d1) -> (T1 < T2 -> 1 / 2 * (g * d1) * (T2 - T1) <= p T2 d1 - p T1 d1) ->
  Rabs (v1 - p T1 d1) <= 3 / 10000000000 * (d1 * (g * T1)) -> Rabs (v2 - p T2 d2) <= 3 / 10000000000 * (d2 * (g * T2)) -> state_above T1 d1 T2 d2 -> v1 < v2.
Proof.
  intros G H1 H2 D SD ST V1 V2 (LT & LD & C). apply Converge.Rabs_le_inv in V1, V2.
  assert (SD' : 1 / 2 * (g * T2) * (d2 - d1) <= p T2 d2 - p T2 d1) by (destruct LD as [LD|LD]; [now apply SD|subst d2; lra]).
  assert (ST' : 1 / 2 * (g * d1) * (T2 - T1) <= p T2 d1 - p T1 d1) by (destruct LT as [LT|LT]; [now apply ST|subst T2; lra]).
  set (p22 := p T2 d2) in *. set (p21 := p T2 d1) in *. set (p11 := p T1 d1) in *. clearbody p22 p21 p11. clear SD ST p.
  assert (GD : 0 < g * d1) by (apply Rmult_lt_0_compat; lra). assert (G2 : 0 < g * T2) by (apply Rmult_lt_0_compat; lra).
  assert (E1 : d1 * (g * T1) <= d1 * (g * T2)) by (apply Rmult_le_compat_l; [lra|apply Rmult_le_compat_l; lra]).
  assert (N : 0 <= 1 / 2 * (g * d1) * (T2 - T1)) by (apply Rmult_le_pos; lra). assert (E3 : d1 * (g * T2) <= g * d1 * 350) by nra.
  destruct (Rle_dec (d1 * (1 + 1 / 100000000)) d2) as [B|B].
  - set (h := g * T2) in *. assert (d1 * h <= d2 * h) by (apply Rmult_le_compat_r; lra). assert (0 < d2 * h) by (apply Rmult_lt_0_compat; lra).
    assert (9 / 1000000000 * (d2 * h) <= h * (d2 - d1)) by nra. lra.
  - destruct C as [C|C]; [lra|]. set (k := g * d1) in *. assert (E2 : d2 * (g * T2) <= 2 * (d1 * (g * T2))) by (set (h := g * T2) in *; clearbody h; nra).
    assert (N2 : 0 <= 1 / 2 * (g * T2) * (d2 - d1)) by (apply Rmult_le_pos; lra).
    assert (1 / 2 * k * (1 / 1000000) <= 1 / 2 * k * (T2 - T1)) by (apply Rmult_le_compat_l; lra). lra.
Qed.
Lemma agree g v w p z : 0 < g -> 86 / 100 <= z -> p = g * z -> Rabs (v - p) <= 3 / 10000000000 * g -> Rabs (w - p) <= 3 / 10000000000 * g -> same_pressure v w.
Proof. intros G Z E V W. apply Converge.Rabs_le_inv in V, W. unfold same_pressure. assert (86 / 100 * g <= p) by (rewrite E; nra). clear E. apply Rabs_le. apply Rmin_case; lra. Qed.

Section X.
Variable m : Libm.
Variable A : accurate m.
Local Notation B := (ArithB64 m).
Variable c : @Composition B.
Hypothesis Hc : gas_comp m c.
Local Notation xd := (fun j => nth j (bfractions m c) B0).
Local Notation xg := (fun j => match j with O => B0 | S k => nth k (bfractions m c) B0 end).
Lemma T_box_d T1 T2 d : 270 <= T1 <= 350 -> 270 <= T2 <= 350 -> 0 < d <= 669 / 1000 -> T1 < T2 -> 1 / 2 * (RR * d) * (T2 - T1) <= detail_p (fun j => bR (xd j)) T2 d - detail_p (fun j => bR (xd j)) T1 d.
Proof.
  intros H1 H2 Hd L. assert (Hg : natural_gas (fun j => bR (xd j))) by apply Hc. set (r := fun j => bR (xd j)) in *. clearbody r.
  destruct (mid_value (fun T => detail_p r T d) (fun T => RR * d * (1 + z0 r T d + zt r T d)) T1 T2 L) as (u & Hu & E).
  - intros T HT. apply p_T. lra.
  - cbv beta in E. rewrite E. assert (RU : 270 <= u <= 350) by lra. pose proof (zt_range r Hg u d RU Hd) as V. destruct (MedProps.zq_range r Hg u d RU Hd) as [Z _]. rewrite Z_sum in Z. change (tot 58 _) with (z0 r u d) in Z.
    set (z := z0 r u d) in *. set (w := zt r u d) in *. clearbody z w. assert (0 < RR * d * (T2 - T1)) by (apply Rmult_lt_0_compat; lra). assert (1 / 2 <= 1 + z + w) by lra. nra.
Qed.
Lemma T_box_g T1 T2 d : 270 <= T1 <= 350 -> 270 <= T2 <= 350 -> 0 < d <= 5569 / 10000 -> T1 < T2 -> 1 / 2 * (Rg * d) * (T2 - T1) <= gpres Api.New (fun j => bR (xg j)) T2 d - gpres Api.New (fun j => bR (xg j)) T1 d.
Proof.
  intros H1 H2 Hd L. assert (PRg : Rg = 8314472 / 1000000) by reflexivity. pose proof (xg_ok m c Hc) as Hx. assert (Hg : natural_gas (fun j => bR (xg (S j)))) by apply Hc.
  set (r := fun j => bR (xg j)) in *.
  assert (Q : forall T, 270 <= T <= 350 -> is_derive (fun T => gpres Api.New r T d) T (Derive (fun T => gpres Api.New r T d) T) /\ 1 / 2 * (Rg * d) <= Derive (fun T => gpres Api.New r T d) T).
  { intros T HT. destruct (MedSlopeG.gp_slopes xg Hx Hg T d HT Hd) as (z & w & u & _ & _ & D & Z & _ & U). change (is_derive (fun T => gpres Api.New r T d) T (d * Rg * (1 + z - u))) in D. split; [apply Derive_correct; eexists; exact D|].
    assert (DE : Derive (fun T => gpres Api.New r T d) T = d * Rg * (1 + z - u)) by (apply is_derive_unique; exact D). rewrite DE, PRg. clear - Z U Hd. assert (1 / 2 <= 1 + z - u) by lra. nra. }
  destruct (mid_value (fun T => gpres Api.New r T d) (fun T => Derive (fun T => gpres Api.New r T d) T) T1 T2 L) as (u & Hu & E).
  - intros T HT. apply Q. lra.
  - cbv beta in E. rewrite E. apply Rmult_le_compat_r; [lra|]. apply Q. lra.
Qed.
Variables t1 d1 t2 d2 : b64.
Hypothesis H1 : fin t1 /\ 270 <= bR t1 <= 350.
Hypothesis H2 : fin t2 /\ 270 <= bR t2 <= 350.
Lemma rise_detail : fin d1 /\ 1 / 10000 <= bR d1 <= 55 / 100 -> fin d2 /\ 1 / 10000 <= bR d2 <= 55 / 100 -> exists s1 v1 s2 v2,
  @dexec B Api.New (gauge (A := B) c t1 d1) = Some (s1, gauged (A := B) v1) /\ @dexec B Api.New (gauge (A := B) c t2 d2) = Some (s2, gauged (A := B) v2) /\ fin v1 /\ fin v2 /\
  (state_above (bR t1) (bR d1) (bR t2) (bR d2) -> bR v1 < bR v2).
Proof.
  intros D1 D2. destruct (gauge_detail m A c Hc t1 d1 H1 D1) as (s1 & v1 & E1 & F1 & _ & V1). destruct (gauge_detail m A c Hc t2 d2 H2 D2) as (s2 & v2 & E2 & F2 & _ & V2).
  exists s1, v1, s2, v2. repeat (split; [assumption|]). destruct H1 as [_ T1], H2 as [_ T2], D1 as [_ D1], D2 as [_ D2].
  apply (rise (detail_p (fun j => bR (xd j))) RR (bR t1) (bR t2) (bR d1) (bR d2)); trivial; try lra.
  - intros L. pose proof (slope_box _ (bR t2) (bR d1) (bR d2) (proj1 (proj2 Hc)) T2 ltac:(lra) L ltac:(lra)) as [K _]. eapply Rle_trans; [|exact K]. apply Rmult_le_compat_r; lra.
  - intros L. apply T_box_d; trivial; lra.
Qed.
Lemma rise_gerg : fin d1 /\ 1 / 10000 <= bR d1 <= 40 / 100 -> fin d2 /\ 1 / 10000 <= bR d2 <= 40 / 100 -> exists s1 v1 s2 v2,
  @gexec B Api.New (gauge (A := B) c t1 d1) = Some (s1, gauged (A := B) v1) /\ @gexec B Api.New (gauge (A := B) c t2 d2) = Some (s2, gauged (A := B) v2) /\ fin v1 /\ fin v2 /\
  (state_above (bR t1) (bR d1) (bR t2) (bR d2) -> bR v1 < bR v2).
Proof.
  intros D1 D2. destruct (gauge_gerg m A c Hc t1 d1 H1 D1) as (s1 & v1 & E1 & F1 & _ & V1). destruct (gauge_gerg m A c Hc t2 d2 H2 D2) as (s2 & v2 & E2 & F2 & _ & V2).
  exists s1, v1, s2, v2. repeat (split; [assumption|]). assert (PRg : Rg = 8314472 / 1000000) by reflexivity. pose proof H1 as [_ T1]. pose proof H2 as [_ T2]. destruct D1 as [_ D1], D2 as [_ D2].
  apply (rise (gpres Api.New (fun j => bR (xg j))) Rg (bR t1) (bR t2) (bR d1) (bR d2)); trivial; try lra.
  - intros L. pose proof (slope_box_g xg t2 (bR d1) (bR d2) (xg_ok m c Hc) (proj1 (proj2 Hc)) H2 ltac:(lra) L ltac:(lra)) as [K _]. eapply Rle_trans; [|exact K]. rewrite PRg. apply Rmult_le_compat_r; lra.
  - intros L. apply T_box_g; trivial; lra.
Qed.
End X.

Section Y.
Variables m n : Libm.
Variables (A : accurate m) (A' : accurate n).
Variables (c : @Composition (ArithB64 m)) (e : @Composition (ArithB64 n)).
Hypothesis Hc : gas_comp m c.
Hypothesis He : bfractions m c = bfractions n e.
Variables t d : b64.
Hypothesis Ht : fin t /\ 270 <= bR t <= 350.
Lemma agree_detail : fin d /\ 1 / 10000 <= bR d <= 55 / 100 -> exists s v s' w, @dexec (ArithB64 m) Api.New (gauge (A := ArithB64 m) c t d) = Some (s, gauged (A := ArithB64 m) v) /\
  @dexec (ArithB64 n) Api.New (gauge (A := ArithB64 n) e t d) = Some (s', gauged (A := ArithB64 n) w) /\ fin v /\ fin w /\ same_pressure (bR v) (bR w).
Proof.
  intros D. destruct (gauge_detail m A c Hc t d Ht D) as (s & v & E & F & _ & V). destruct (gauge_detail n A' e (Platform.gas_comp_same m n c e He Hc) t d Ht D) as (s' & w & E' & F' & _ & W).
  rewrite <- He in W. exists s, v, s', w. repeat (split; [assumption|]). destruct Ht as [_ T], D as [_ D]. assert (Hg : natural_gas (fun j => bR (nth j (bfractions m c) B0))) by apply Hc.
  destruct (MedProps.zq_range _ Hg (bR t) (bR d) T ltac:(lra)) as [Z _].
  refine (agree (bR d * (RR * bR t)) (bR v) (bR w) _ _ _ _ _ V W); [apply Rmult_lt_0_compat; lra|apply Rle_trans with (2 := proj1 Z); lra|unfold detail_p; ring].
Qed.
Lemma agree_gerg : fin d /\ 1 / 10000 <= bR d <= 40 / 100 -> exists s v s' w, @gexec (ArithB64 m) Api.New (gauge (A := ArithB64 m) c t d) = Some (s, gauged (A := ArithB64 m) v) /\
  @gexec (ArithB64 n) Api.New (gauge (A := ArithB64 n) e t d) = Some (s', gauged (A := ArithB64 n) w) /\ fin v /\ fin w /\ same_pressure (bR v) (bR w).
Proof.
  intros D. destruct (gauge_gerg m A c Hc t d Ht D) as (s & v & E & F & _ & V). destruct (gauge_gerg n A' e (Platform.gas_comp_same m n c e He Hc) t d Ht D) as (s' & w & E' & F' & _ & W).
  rewrite <- He in W. exists s, v, s', w. repeat (split; [assumption|]). destruct Ht as [_ T], D as [_ D]. assert (PRg : Rg = 8314472 / 1000000) by reflexivity.
  destruct (MedSlopeG.gp_slopes _ (xg_ok m c Hc) (proj1 (proj2 Hc)) (bR t) (bR d) T ltac:(lra)) as (z & _ & _ & P & _ & _ & Z & _).
  refine (agree (bR d * (Rg * bR t)) (bR v) (bR w) _ (1 + z) _ _ _ V W); [apply Rmult_lt_0_compat; [lra|rewrite PRg; lra]|lra|rewrite P; ring].
Qed.
End Y.
