(* Error analysis of the factors of the GERG terms, for all derivatives. *)
From Coq Require Import Reals ZArith List Bool Lra Lia Psatz.
From Flocq Require Import Core BinarySingleNaN.
From Verif Require Import FArith Prelude Tab ArithB64 B64Lemmas ArithR SpecAcc DetailPure GergTables GergModel GergPure B64Err AccFold AccMix AccEos AccSlope SpecAll.
Import ListNotations.
Local Open Scope R_scope.

Section C.
Variable m : Libm.
Hypothesis A : accurate m.
Local Notation B := (ArithB64 m).
Lemma ap_le1 k a b v x M : ap k a b v x M -> 1 <= M -> (a <= 0)%Z -> ap k 0 b v x M.
Proof. intros P H Ha. eapply ap_rng; [exact P|]. apply (rng_one a); [apply P|exact H]. Qed.
Lemma a3 : ap 1 1 2 (@f3 B) 3 3.
Proof. eapply ap_eq; [apply (ap_inok (L 3 0) 1 2); [reflexivity|zc]| |]; reflexivity. Qed.
Lemma nat_one n : (1 <= n)%nat -> 1 <= INR n. Proof. intros H. exact (le_INR 1 n H). Qed.

Variables (k0 a0 b0 : Z) (nv tv : b64) (nx nM t : R) (d : nat).
Hypothesis Hn : ap k0 a0 b0 nv nx nM.
Hypothesis Hk0 : (0 <= k0 <= 774000)%Z.
Hypothesis Ha0 : (-980 <= a0)%Z.
Hypothesis Hb0 : (b0 <= 400)%Z.
Hypothesis Ht : ap 1 (-5) 5 tv t (Rabs t).
Hypothesis Hd : (1 <= d <= 7)%nat.
Local Notation dv := (bofZ (Z.of_nat d)).
Lemma ad0 : ap 1 0 3 dv (INR d) (INR d).
Proof.
  eapply ap_rng; [apply anat; lia|]. right. split; [exact (nat_one d ltac:(lia))|]. change (p2 3) with 8. replace 8 with (INR 8) by (cbn; lra). apply le_INR. lia.
Qed.
Ltac sub P1 P2 a b := eapply (ap_sub _ _ _ _ _ _ _ _ _ _ _ _ a b P1 P2); [zc|zc|zc|eapply rng_weak; [eapply rng_add; [apply P1|apply P2]|zc|zc]].
Ltac add P1 P2 a b := eapply (ap_add _ _ _ _ _ _ _ _ _ _ _ _ a b P1 P2); [zc|zc|zc|eapply rng_weak; [eapply rng_add; [apply P1|apply P2]|zc|zc]].
Lemma at1 : ap 3 (-5) 6 (bsub tv (@f1 B)) (t - 1) (Rabs t + 1).
Proof. pose proof (a1 m) as Q. change 3%Z with (Z.max 1 1 + 2)%Z. sub Ht Q (-5)%Z 6%Z. Qed.
Ltac muls tac := first [tac|eapply ap_mul; [muls tac|muls tac|zc|zc|zc|zc]].
Lemma apol e : ap (k0 + 30) (a0 - 10) (b0 + 20) (@pol_c B nv dv tv e) (@pol_c ArithR nx (INR d) t e) (nM * pure_factor d 0 (Rabs t) 0 e).
Proof.
  pose proof ad0 as D0. pose proof (a1 m) as O. pose proof (a2 m) as O2. pose proof at1 as T1.
  assert (D1 : ap 3 0 4 (bsub dv (@f1 B)) (INR d - 1) (INR d + 1)) by (change 3%Z with (Z.max 1 1 + 2)%Z; sub D0 O 0%Z 4%Z).
  assert (D2 : ap 3 0 4 (bsub dv (@f2 B)) (INR d - 2) (INR d + 2)) by (change 3%Z with (Z.max 1 1 + 2)%Z; sub D0 O2 0%Z 4%Z).
  destruct e as [|[|[|[|[|[|[|e]]]]]]]; cbn [pol_c pure_factor fmul fsub ArithB64];
  (eapply ap_eq; [eapply ap_weak; [muls ltac:(first [exact Hn|exact D0|exact D1|exact D2|exact Ht|exact T1])|zc|zc|zc]|reflexivity|change (INR 0) with 0; cbn [pow]; ring]).
Qed.
(* with the factor exp (- delta^c) *)
Section E.
Variables (c : nat) (pv : b64) (delta : R).
Hypothesis Hc : (c < 8)%nat.
Hypothesis Hp : ap 3057 (-168) 12 pv (delta ^ c) (delta ^ c).
Local Notation cv := (bofZ (Z.of_nat c)).
Local Notation Ex := (INR c * delta ^ c).
Lemma ac0 : ap 1 0 3 cv (INR c) (INR c).
Proof.
  pose proof Hc as H. destruct (Nat.eq_dec c 0) as [E|E]; [rewrite E; eapply ap_weak; [exact (ap_0 0 3)|zc|zc|zc]|]. eapply ap_rng; [apply anat; lia|]. right. split; [exact (nat_one c ltac:(lia))|].
  change (p2 3) with 8. replace 8 with (INR 8) by (cbn; lra). apply le_INR. lia.
Qed.
Lemma aex : ap 3061 (-168) 15 (bmul cv pv) Ex Ex.
Proof. eapply ap_weak; [eapply ap_mul; [exact ac0|exact Hp|zc|zc|zc|zc]|zc|zc|zc]. Qed.
Local Notation ex := (bmul cv pv).
Local Notation g := (INR d + Ex).
Lemma Ex0 : 0 <= Ex. Proof. exact (ap_M _ _ _ _ _ _ aex). Qed.
Lemma g1 : 1 <= g. Proof. pose proof Ex0. pose proof (nat_one d ltac:(lia)). lra. Qed.
Lemma aex2 : ap 3063 0 16 (bsub dv ex) (INR d - Ex) g.
Proof.
  pose proof ad0 as D0. pose proof aex as E0. eapply (ap_le1 _ (-168)); [|exact g1|zc]. change 3063%Z with (Z.max 1 3061 + 2)%Z. sub D0 E0 (-168)%Z 16%Z.
Qed.
Local Notation ex2 := (bsub dv ex).
Lemma aex21 : ap 3065 0 17 (bsub ex2 (@f1 B)) (INR d - Ex - 1) (g + 1).
Proof. pose proof aex2 as E2. pose proof (a1 m) as O. change 3065%Z with (Z.max 3063 1 + 2)%Z. sub E2 O 0%Z 17%Z. Qed.
Lemma aex22 : ap 3065 0 17 (bsub ex2 (@f2 B)) (INR d - Ex - 2) (g + 2).
Proof. pose proof aex2 as E2. pose proof (a2 m) as O. change 3065%Z with (Z.max 3063 1 + 2)%Z. sub E2 O 0%Z 17%Z. Qed.
Local Notation ex3 := (bmul ex2 (bsub ex2 (@f1 B))).
Lemma aex3 : ap 6131 0 33 ex3 ((INR d - Ex) * (INR d - Ex - 1)) (g * (g + 1)).
Proof. eapply ap_weak; [eapply ap_mul; [exact aex2|exact aex21|zc|zc|zc|zc]|zc|zc|zc]. Qed.
Lemma acex : ap 3065 (-168) 18 (bmul cv ex) (INR c * Ex) (INR c * Ex).
Proof. eapply ap_weak; [eapply ap_mul; [exact ac0|exact aex|zc|zc|zc|zc]|zc|zc|zc]. Qed.
Lemma aq2 : ap 6133 0 34 (bsub ex3 (bmul cv ex)) ((INR d - Ex) * (INR d - Ex - 1) - INR c * Ex) (g * (g + 1) + INR c * Ex).
Proof.
  pose proof aex3 as E3. pose proof acex as E1. pose proof (ap_M _ _ _ _ _ _ E1). pose proof g1. eapply (ap_le1 _ (-168)); [|nra|zc].
  change 6133%Z with (Z.max 6131 3065 + 2)%Z. sub E3 E1 (-168)%Z 34%Z.
Qed.
Lemma aq3 : ap 9213 0 60 (bsub (bmul ex3 (bsub ex2 (@f2 B))) (bmul (bmul ex (badd (bsub (bmul (@f3 B) ex2) (@f3 B)) cv)) cv))
  ((INR d - Ex) * (INR d - Ex - 1) * (INR d - Ex - 2) - Ex * (3 * (INR d - Ex) - 3 + INR c) * INR c)
  (g * (g + 1) * (g + 2) + Ex * (3 * g + 3 + INR c) * INR c).
Proof.
  pose proof aex2 as E2. pose proof ac0 as C0. pose proof a3 as O3.
  assert (P1 : ap 9199 0 50 (bmul ex3 (bsub ex2 (@f2 B))) ((INR d - Ex) * (INR d - Ex - 1) * (INR d - Ex - 2)) (g * (g + 1) * (g + 2))).
  { eapply ap_weak; [eapply ap_mul; [exact aex3|exact aex22|zc|zc|zc|zc]|zc|zc|zc]. }
  assert (P2 : ap 3067 1 18 (bmul (@f3 B) ex2) (3 * (INR d - Ex)) (3 * g)) by (eapply ap_weak; [eapply ap_mul; [exact O3|exact E2|zc|zc|zc|zc]|zc|zc|zc]).
  assert (P3 : ap 3069 1 19 (bsub (bmul (@f3 B) ex2) (@f3 B)) (3 * (INR d - Ex) - 3) (3 * g + 3)) by (change 3069%Z with (Z.max 3067 1 + 2)%Z; sub P2 O3 1%Z 19%Z).
  assert (P4 : ap 3071 0 20 (badd (bsub (bmul (@f3 B) ex2) (@f3 B)) cv) (3 * (INR d - Ex) - 3 + INR c) (3 * g + 3 + INR c)) by (change 3071%Z with (Z.max 3069 1 + 2)%Z; add P3 C0 0%Z 20%Z).
  assert (P5 : ap 6139 (-168) 38 (bmul (bmul ex (badd (bsub (bmul (@f3 B) ex2) (@f3 B)) cv)) cv) (Ex * (3 * (INR d - Ex) - 3 + INR c) * INR c) (Ex * (3 * g + 3 + INR c) * INR c)).
  { eapply ap_weak; [eapply ap_mul; [eapply ap_mul; [exact aex|exact P4|zc|zc|zc|zc]|exact C0|zc|zc|zc|zc]|zc|zc|zc]. }
  pose proof (ap_M _ _ _ _ _ _ P5). pose proof g1. eapply (ap_le1 _ (-168)); [|assert (1 <= g * (g + 1)) by nra; nra|zc].
  eapply ap_weak; [sub P1 P5 (-168)%Z 60%Z|zc|zc|zc].
Qed.
Lemma aexpc e : ap (k0 + 9300) (a0 - 10) (b0 + 70) (@exp_c B nv dv tv cv pv e) (@exp_c ArithR nx (INR d) t (INR c) (delta ^ c) e) (nM * pure_factor d c (Rabs t) delta e).
Proof.
  pose proof aex2 as E2. pose proof aq2 as Q2. pose proof aq3 as Q3. pose proof at1 as T1.
  destruct e as [|[|[|[|[|[|[|e]]]]]]]; cbv zeta beta iota delta [exp_c pure_factor]; cbn [fmul fsub fadd ArithB64];
  (eapply ap_eq; [eapply ap_weak; [muls ltac:(first [exact Hn|exact E2|exact Q2|exact Q3|exact Ht|exact T1])|zc|zc|zc]|reflexivity|ring]).
Qed.
End E.
(* with the exponential of the departure functions *)
Section X.
Variables (cv ev : b64) (cx ex C E : R).
Hypothesis Hc : ap 1021 (-58) 4 cv cx C.
Hypothesis He : ap 521 (-30) 5 ev ex E.
Local Notation G := (INR d + 2 * C + E).
Lemma C0 : 0 <= C. Proof. exact (ap_M _ _ _ _ _ _ Hc). Qed.
Lemma E0 : 0 <= E. Proof. exact (ap_M _ _ _ _ _ _ He). Qed.
Lemma G1 : 1 <= G. Proof. pose proof C0. pose proof E0. pose proof (nat_one d ltac:(lia)). lra. Qed.
Lemma a2c : ap 1025 (-57) 5 (bmul (@f2 B) cv) (2 * cx) (2 * C).
Proof. eapply ap_weak; [eapply ap_mul; [exact (a2 m)|exact Hc|zc|zc|zc|zc]|zc|zc|zc]. Qed.
Lemma axG : ap 1029 0 7 (badd (badd dv (bmul (@f2 B) cv)) ev) (INR d + 2 * cx + ex) G.
Proof.
  pose proof ad0 as D0. pose proof a2c as Q. pose proof He as HE.
  assert (P1 : ap 1027 (-57) 6 (badd dv (bmul (@f2 B) cv)) (INR d + 2 * cx) (INR d + 2 * C)) by (change 1027%Z with (Z.max 1 1025 + 2)%Z; add D0 Q (-57)%Z 6%Z).
  eapply (ap_le1 _ (-57)); [|exact G1|zc]. change 1029%Z with (Z.max 1027 521 + 2)%Z. add P1 HE (-57)%Z 7%Z.
Qed.
Local Notation gv := (badd (badd dv (bmul (@f2 B) cv)) ev).
Local Notation gx := (INR d + 2 * cx + ex).
Lemma axG2 : ap 2065 0 16 (badd (bsub (bmul gv gv) dv) (bmul (@f2 B) cv)) (gx * gx - INR d + 2 * cx) (G * G + INR d + 2 * C).
Proof.
  pose proof ad0 as D0. pose proof a2c as Q. pose proof G1. pose proof C0.
  assert (P1 : ap 2061 0 14 (bmul gv gv) (gx * gx) (G * G)) by (eapply ap_weak; [eapply ap_mul; [exact axG|exact axG|zc|zc|zc|zc]|zc|zc|zc]).
  assert (P2 : ap 2063 0 15 (bsub (bmul gv gv) dv) (gx * gx - INR d) (G * G + INR d)) by (change 2063%Z with (Z.max 2061 1 + 2)%Z; sub P1 D0 0%Z 15%Z).
  pose proof (nat_one d ltac:(lia)). eapply (ap_le1 _ (-57)); [|nra|zc]. change 2065%Z with (Z.max 2063 1025 + 2)%Z. add P2 Q (-57)%Z 16%Z.
Qed.
Local Notation g2v := (badd (bsub (bmul gv gv) dv) (bmul (@f2 B) cv)).
Local Notation g2x := (gx * gx - INR d + 2 * cx).
Local Notation G2 := (G * G + INR d + 2 * C).
Lemma axG3 : ap 3120 0 30 (badd (bmul gv (bsub g2v (bmul (@f2 B) (bsub dv (bmul (@f2 B) cv))))) (bmul (@f2 B) dv))
  (gx * (g2x - 2 * (INR d - 2 * cx)) + 2 * INR d) (G * (G2 + 2 * (INR d + 2 * C)) + 2 * INR d).
Proof.
  pose proof ad0 as D0. pose proof a2c as Q. pose proof G1. pose proof C0. pose proof (nat_one d ltac:(lia)). pose proof axG2 as Q2. pose proof (a2 m) as O2.
  assert (P1 : ap 1027 0 6 (bsub dv (bmul (@f2 B) cv)) (INR d - 2 * cx) (INR d + 2 * C)).
  { eapply (ap_le1 _ (-57)); [|lra|zc]. change 1027%Z with (Z.max 1 1025 + 2)%Z. sub D0 Q (-57)%Z 6%Z. }
  assert (P2 : ap 1031 1 7 (bmul (@f2 B) (bsub dv (bmul (@f2 B) cv))) (2 * (INR d - 2 * cx)) (2 * (INR d + 2 * C))) by (eapply ap_weak; [eapply ap_mul; [exact O2|exact P1|zc|zc|zc|zc]|zc|zc|zc]).
  assert (P3 : ap 2067 0 17 (bsub g2v (bmul (@f2 B) (bsub dv (bmul (@f2 B) cv)))) (g2x - 2 * (INR d - 2 * cx)) (G2 + 2 * (INR d + 2 * C))) by (change 2067%Z with (Z.max 2065 1031 + 2)%Z; sub Q2 P2 0%Z 17%Z).
  assert (P4 : ap 3100 0 24 (bmul gv (bsub g2v (bmul (@f2 B) (bsub dv (bmul (@f2 B) cv))))) (gx * (g2x - 2 * (INR d - 2 * cx))) (G * (G2 + 2 * (INR d + 2 * C)))) by (eapply ap_weak; [eapply ap_mul; [exact axG|exact P3|zc|zc|zc|zc]|zc|zc|zc]).
  assert (P5 : ap 5 1 4 (bmul (@f2 B) dv) (2 * INR d) (2 * INR d)) by (eapply ap_weak; [eapply ap_mul; [exact O2|exact D0|zc|zc|zc|zc]|zc|zc|zc]).
  eapply ap_weak; [add P4 P5 0%Z 30%Z|zc|zc|zc].
Qed.
Lemma amexpc e : ap (k0 + 9300) (a0 - 10) (b0 + 70) (@mexp_c B nv dv tv cv ev e) (@mexp_c ArithR nx (INR d) t cx ex e) (nM * dep_factor d (Rabs t) C E e).
Proof.
  pose proof axG as Q1. pose proof axG2 as Q2. pose proof axG3 as Q3. pose proof at1 as T1.
  destruct e as [|[|[|[|[|[|[|e]]]]]]]; cbv zeta beta iota delta [mexp_c dep_factor]; cbn [fmul fsub fadd ArithB64];
  (eapply ap_eq; [eapply ap_weak; [muls ltac:(first [exact Hn|exact Q1|exact Q2|exact Q3|exact Ht|exact T1])|zc|zc|zc]|reflexivity|ring]).
Qed.
End X.
End C.
