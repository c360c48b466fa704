(* cp, w, jt and kappa from the other fields, by the relations of C57, up to 1.2 MPa. *)
From Coq Require Import Reals ZArith List Bool Lra Lia Psatz.
From Flocq Require Import Core BinarySingleNaN.
From Verif Require Import FArith ArithB64 B64Lemmas Api SpecAllF SpecRel B64Err GAllCase.
From Verif Require Import GasDerived.
Local Open Scope R_scope.

Lemma y_range G T a q : 0 < G -> 0 < T -> 84 / 100 * G <= a <= 126 / 100 * G -> 80 / 100 * (G * T) <= q <= 105 / 100 * (G * T) ->
  672 / 1000 * G <= T * a ^ 2 / q <= 19845 / 10000 * G.
Proof.
  intros HG HT Ha Hq. assert (0 < G * T) by (apply Rmult_lt_0_compat; lra). assert (Q : 0 < q) by lra.
  assert (A : (84 / 100 * G) ^ 2 <= a ^ 2 <= (126 / 100 * G) ^ 2) by (split; apply pow_incr; lra).
  assert (GG : 0 < G * (G * T)) by (apply Rmult_lt_0_compat; lra).
  split; (apply (Rmult_le_reg_r q); [exact Q|]); replace (T * a ^ 2 / q * q) with (T * a ^ 2) by (field; lra).
  - apply Rle_trans with (T * (84 / 100 * G) ^ 2); [|apply Rmult_le_compat_l; lra].
    replace (T * (84 / 100 * G) ^ 2) with (7056 / 10000 * (G * (G * T))) by field.
    apply Rle_trans with (672 / 1000 * G * (105 / 100 * (G * T))); [apply Rmult_le_compat_l; lra|lra].
  - apply Rle_trans with (T * (126 / 100 * G) ^ 2); [apply Rmult_le_compat_l; lra|].
    replace (T * (126 / 100 * G) ^ 2) with (15876 / 10000 * (G * (G * T))) by field.
    apply Rle_trans with (19845 / 10000 * G * (80 / 100 * (G * T))); [lra|apply Rmult_le_compat_l; lra].
Qed.
Lemma ratio_range G cp cv : 0 < G -> 12 / 10 * G <= cv <= 6 * G -> 671 / 1000 * G <= cp - cv <= 1985 / 1000 * G -> 11118 / 10000 <= cp / cv <= 26542 / 10000.
Proof.
  intros HG Hv Hp. assert (0 < cv) by lra. split; (apply (Rmult_le_reg_r cv); [lra|]); replace (cp / cv * cv) with cp by (field; lra); lra.
Qed.
Section D.
Variables (G : R) (f : pfield -> b64).
Local Notation v k := (bR (f k)).
Local Notation T := (v PT).
Local Notation d := (v PD).
Hypothesis HR : relations G f.
Hypothesis HG : 831 / 100 <= G <= 832 / 100.
Hypothesis HT : 270 <= T <= 350.
Hypothesis Hd : / 262144 <= d <= 67 / 100.
Hypothesis Fz : fin (f PZ). Hypothesis Hz : 90 / 100 <= v PZ <= 103 / 100.
Hypothesis Fq : fin (f PDpDd). Hypothesis Hq : 80 / 100 * (G * T) <= v PDpDd <= 105 / 100 * (G * T).
Hypothesis Fp : fin (f PDpDt). Hypothesis Hp : 84 / 100 * (d * G) <= v PDpDt <= 126 / 100 * (d * G).
Hypothesis Fv : fin (f PCv). Hypothesis Hv : 12 / 10 * G <= v PCv <= 6 * G.
Hypothesis Fm : fin (f PMM). Hypothesis Hm : 143 / 10 <= v PMM <= 301 / 10.
Lemma gT : 2243 <= G * T <= 2912. Proof. nra. Qed.
Lemma gd : 831 / 100 * d <= d * G <= 832 / 100 * d. Proof. nra. Qed.
Lemma rq : 80 / 100 * (G * T) <= v PDpDd <= 105 / 100 * (G * T). Proof. exact Hq. Qed.
Lemma rz : 90 / 100 <= v PZ <= 103 / 100. Proof. exact Hz. Qed.
Lemma pq : positive (f PDpDd). Proof. pose proof gT. pose proof rq. apply (pos' _ 1000 4000 Fq); lra. Qed.
Lemma pp' : positive (f PDpDt). Proof. pose proof gd. pose proof Hp. apply (pos' _ (/ 1048576) 16 Fp); lra. Qed.
Lemma pv : positive (f PCv). Proof. apply (pos' _ 8 60 Fv); lra. Qed.
Lemma pm : positive (f PMM). Proof. apply (pos' _ 14 31 Fm); lra. Qed.
Lemma pz' : positive (f PZ). Proof. pose proof rz. apply (pos' _ (90 / 100) (103 / 100) Fz); lra. Qed.
Lemma cp_val : fin (f PCp) /\ 671 / 1000 * G <= v PCp - v PCv <= 1985 / 1000 * G.
Proof.
  destruct HR as (H & _). destruct (H (proj1 pv) (proj1 pp') pq) as [F E]. split; [exact F|].
  assert (Y : 672 / 1000 * G <= T * (v PDpDt / d) ^ 2 / v PDpDd <= 19845 / 10000 * G).
  { apply y_range; [lra|lra| |exact rq]. split; (apply (Rmult_le_reg_r d); [lra|]); replace (v PDpDt / d * d) with (v PDpDt) by (field; lra); lra. }
  set (y := T * _ / _) in *. clearbody y. rewrite (Rabs_pos_eq (v PCv)) in E by lra. apply Rabs_le_inv in E. lra.
Qed.
Lemma pc : positive (f PCp). Proof. destruct cp_val as [F H]. apply (pos' _ 8 100 F); lra. Qed.
Lemma jt_val : fin (f PJt). Proof. destruct HR as (_ & H & _). exact (proj1 (H pc (proj1 pp') pq)). Qed.
Let rho := v PCp / v PCv.
Lemma rr : 11118 / 10000 <= rho <= 26542 / 10000. Proof. apply (ratio_range G); [lra|exact Hv|apply cp_val]. Qed.
Let c2 := 1000 * v PCp / v PCv * v PDpDd / v PMM.
Lemma c2_eq : c2 * v PMM = 1000 * (rho * v PDpDd).
Proof. unfold c2, rho. field. lra. Qed.
Lemma c2_range : 256 * 256 <= c2 <= 754 * 754.
Proof.
  pose proof c2_eq as E. pose proof rr as R. pose proof rq as Q. pose proof gT as GT. set (q := v PDpDd) in *. set (mm := v PMM) in *. clearbody rho c2 q mm.
  assert (1794 <= q <= 3058) by lra. assert (A : 11118 / 10000 * 1794 <= rho * q <= 26542 / 10000 * 3058) by (split; apply Rmult_le_compat; lra). nra.
Qed.
Lemma w_val : fin (f PW) /\ 255 <= v PW <= 755 /\ Rabs (v PW ^ 2 - c2) <= 1 / 1000000000000 * c2.
Proof.
  destruct HR as (_ & _ & H & _). destruct (H pc pv pq pm) as [F E]. fold c2 in E. split; [exact F|]. pose proof c2_range as C.
  pose proof (sqrt_range c2 256 754 ltac:(lra) ltac:(lra) C) as S. assert (Q : sqrt c2 * sqrt c2 = c2) by (apply sqrt_sqrt; lra).
  set (c := sqrt c2) in *. set (w := v PW) in *. clearbody c w. apply Rabs_le_inv in E. split; [lra|].
  apply Rabs_le. rewrite <- Q. split; nra.
Qed.
Lemma k_val : fin (f PKappa) /\ 86 / 100 < v PKappa < 31 / 10.
Proof.
  destruct HR as (_ & _ & _ & H). destruct (H pc pv pq pm pz') as [F E]. split; [exact F|]. destruct w_val as (_ & _ & W). pose proof c2_eq as C. pose proof rr as R. pose proof rq as Q. pose proof gT as GT. pose proof rz as Z. pose proof c2_range as CR.
  set (k := v PW ^ 2 * v PMM / (G * T * 1000 * v PZ)) in *.
  assert (KE : k * (G * T * 1000 * v PZ) = v PW ^ 2 * v PMM) by (unfold k; field; lra).
  set (W2 := v PW ^ 2) in *. pose proof Hm as Hm2. set (mm := v PMM) in *. set (z := v PZ) in *. set (q := v PDpDd) in *. set (h := G * T) in *. set (kk := v PKappa) in *.
  clearbody W2 mm z q h k kk rho c2. apply Rabs_le_inv in W.
  assert (B : 999 / 1000 * (c2 * mm) <= W2 * mm <= 1001 / 1000 * (c2 * mm)) by (clear - W Hm2 CR; split; nra). rewrite C, <- KE in B.
  assert (A : 11118 / 10000 * (80 / 100 * h) <= rho * q <= 26542 / 10000 * (105 / 100 * h)) by (split; apply Rmult_le_compat; lra).
  assert (KZ : 888 / 1000 <= k * z <= 27898 / 10000).
  { replace (k * (h * 1000 * z)) with (1000 * h * (k * z)) in B by ring. split; apply (Rmult_le_reg_l (1000 * h)); lra. }
  assert (K : 862 / 1000 <= k <= 30998 / 10000) by (clear - KZ Z; split; nra). apply Rabs_le_inv in E. lra.
Qed.
End D.
