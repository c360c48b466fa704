(* The DETAIL equation for a natural gas between 270 K and 350 K at low density. *)
From Coq Require Import Reals ZArith List Bool Lra Lia Psatz.
From Verif Require Import FArith ArithR StdDetail SpecStd SpecGas SpecAcc SpecSlope SpecConv SlopeReal ConvDetail FixUp.
Import ListNotations.
Local Open Scope R_scope.

Lemma div0 a b : 0 <= a -> 0 < b -> 0 <= a / b.
Proof. intros A B. apply Rmult_le_pos; [exact A|]. left. now apply Rinv_0_lt_compat. Qed.

(* powers with half-integer exponents *)
Fixpoint pt (z acc : Z) (n : nat) : list Z := acc :: match n with O => [] | S m => pt z (mulU z acc) m end.
Lemma up_pt z a n : up z a -> forall acc b k, (k <= n)%nat -> up acc b -> up (nth k (pt z acc n) 0%Z) (b * a ^ k).
Proof.
  intros H. induction n as [|n IH]; intros acc b k Hk Ha.
  - replace k with 0%nat by lia. cbn. now rewrite Rmult_1_r.
  - destruct k as [|k]; [cbn; now rewrite Rmult_1_r|]. cbn [pt nth pow]. replace (b * (a * a ^ k)) with (a * b * a ^ k) by ring.
    apply IH; [lia|]. now apply up_mul.
Qed.
Definition halfU (tab : list Z) (zr : Z) (n : nat) : Z := let p := nth (Nat.div2 n) tab 0%Z in if Nat.odd n then mulU zr p else p.
Lemma up_half z zr a n N : 0 <= a -> up z a -> up zr (sqrt a) -> (Nat.div2 n <= N)%nat -> up (halfU (pt z SC N) zr n) (sqrt a ^ n).
Proof.
  intros Ha Hz Hr Hn. unfold halfU. replace (sqrt a ^ n) with (sqrt a ^ (2 * Nat.div2 n + Nat.b2n (Nat.odd n))) by now rewrite <- Nat.div2_odd. rewrite pow_add, pow_mult.
  replace (sqrt a ^ 2) with a by (rewrite <- Rsqr_pow2; symmetry; now apply Rsqr_sqrt).
  pose proof (up_pt z a N Hz SC 1 _ Hn up_1) as P. rewrite Rmult_1_l in P. destruct (Nat.odd n); cbn [Nat.b2n pow].
  - rewrite Rmult_comm, Rmult_1_r. now apply up_mul.
  - now rewrite Rmult_1_r.
Qed.
Lemma Rpower_half z n : 0 < z -> Rpower z (INR n / 2) = sqrt z ^ n.
Proof.
  intros Hz. rewrite <- Rpower_sqrt by exact Hz. rewrite <- Rpower_pow by apply exp_pos. rewrite Rpower_mult. f_equal. field.
Qed.
Definition expU (tz ty : list Z) (zr yr : Z) (h : Z) : Z := match h with Zneg p => halfU ty yr (Pos.to_nat p) | _ => halfU tz zr (Z.to_nat h) end.
Lemma up_exp z zr y yr a N M h : 0 < a -> up z a -> up zr (sqrt a) -> up y (/ a) -> up yr (sqrt (/ a)) -> (- 2 * Z.of_nat M <= h <= 2 * Z.of_nat N)%Z ->
  up (expU (pt z SC N) (pt y SC M) zr yr h) (Rpower a (IZR h / 2)).
Proof.
  intros Ha Hz Hr Hy Hq Hh. assert (0 < / a) by now apply Rinv_0_lt_compat. unfold expU. destruct h as [|p|p].
  - replace (IZR 0 / 2) with (INR 0 / 2) by reflexivity. rewrite Rpower_half by exact Ha. apply up_half; trivial; [lra|cbn; lia].
  - replace (IZR (Zpos p)) with (INR (Z.to_nat (Zpos p))) by (rewrite INR_IZR_INZ, Z2Nat.id by lia; reflexivity). rewrite Rpower_half by exact Ha.
    apply up_half; trivial; [lra|]. pose proof (Nat.div2_decr (Z.to_nat (Z.pos p)) (2 * N)) as D. rewrite Nat.div2_div. apply Nat.div_le_upper_bound; lia.
  - replace (Rpower a (IZR (Zneg p) / 2)) with (Rpower (/ a) (INR (Pos.to_nat p) / 2)).
    + rewrite Rpower_half by assumption. apply up_half; trivial; [lra|]. rewrite Nat.div2_div. apply Nat.div_le_upper_bound; lia.
    + rewrite INR_IZR_INZ, positive_nat_Z. unfold Rpower. rewrite ln_Rinv by exact Ha. f_equal. replace (IZR (Zneg p)) with (- IZR (Zpos p)) by reflexivity. field.
Qed.
(* square root by the tangent at r^2 *)
Definition sqU (c1 c2 : lit) (z : Z) : Z := (mulU (litU c1) z + litU c2)%Z.
Lemma up_sq c1 c2 z a r : 0 < r -> 0 <= a -> up z a -> 1 / (2 * r) <= Rlit c1 -> r / 2 <= Rlit c2 -> up (sqU c1 c2 z) (sqrt a).
Proof.
  intros Hr Ha Hz H1 H2. assert (0 < 1 / (2 * r)) by (apply Rdiv_lt_0_compat; lra).
  pose proof (up_add _ _ _ _ (up_mul _ _ _ _ (up_lit c1) Hz) (up_lit c2)) as [A B]. rewrite !Rabs_pos_eq in B by lra.
  split; [apply sqrt_pos|]. apply Rle_trans with (2 := B). apply Rle_trans with (1 / (2 * r) * a + r / 2); [|nra].
  pose proof (sqrt_sqrt a Ha) as Q. set (s := sqrt a) in *. rewrite <- Q. apply (Rmult_le_reg_r (2 * r)); [lra|].
  replace ((1 / (2 * r) * (s * s) + r / 2) * (2 * r)) with (s * s + r * r) by (field; lra).
  clearbody s. pose proof (Rle_0_sqr (s - r)) as G. unfold Rsqr in G. lra.
Qed.

(* table entries *)
Definition rootU (l : lit) (k s : Z) : bool := let '(L m e) := l in
  match e with Zpos _ => false | _ => (0 <=? m)%Z && (0 <=? s)%Z && (m * SC * SC <=? k * (s * s) * 10 ^ (- e))%Z end.
Lemma up_root l k s : (0 < k)%Z -> rootU l k s = true -> up s (sqrt (Rlit l / IZR k)).
Proof.
  intros Hk. destruct l as [m e]. unfold rootU. intros H. assert (H' : (0 <= m)%Z /\ (0 <= s)%Z /\ (m * SC * SC <= k * (s * s) * 10 ^ (- e))%Z /\ (e <= 0)%Z).
  { destruct e; [|discriminate|]; apply andb_true_iff in H as [H H3]; apply andb_true_iff in H as [H H2]; apply Z.leb_le in H, H2, H3; repeat split; trivial; lia. }
  destruct H' as (Hm & Hs & H3 & He). clear H. split; [apply sqrt_pos|].
  assert (0 < 10 ^ (- e))%Z as Ht by (apply Z.pow_pos_nonneg; lia).
  assert (El : Rlit (L m e) = IZR m / IZR (10 ^ (- e))).
  { destruct e as [|p|p]; [|lia|reflexivity]. cbn [Rlit]. rewrite Z.pow_0_r. cbn. field. }
  rewrite El. apply IZR_le in Hm, Hs, H3. apply IZR_lt in Hk, Ht. rewrite !mult_IZR in H3. pose proof SC_pos as P. set (t := IZR (10 ^ (- e))) in *.
  assert (0 <= fx s) as F0 by (unfold fx; apply div0; lra).
  rewrite <- (sqrt_square (fx s)) by exact F0. apply sqrt_le_1_alt. unfold fx. apply (Rmult_le_reg_r (t * IZR k * (IZR SC * IZR SC))); [repeat apply Rmult_lt_0_compat; lra|].
  replace (IZR m / t / IZR k * (t * IZR k * (IZR SC * IZR SC))) with (IZR m * IZR SC * IZR SC) by (field; lra).
  replace (IZR s / IZR SC * (IZR s / IZR SC) * (t * IZR k * (IZR SC * IZR SC))) with (IZR k * (IZR s * IZR s) * t) by (field; lra). exact H3.
Qed.
Definition irootU (l : lit) (k s : Z) : bool := let '(L m e) := l in
  match e with Zpos _ => false | _ => (0 <? m)%Z && (0 <=? s)%Z && (k * SC * SC * 10 ^ (- e) <=? m * (s * s))%Z end.
Lemma up_iroot l k s : (0 < k)%Z -> irootU l k s = true -> 0 < Rlit l /\ up s (sqrt (IZR k / Rlit l)).
Proof.
  intros Hk. destruct l as [m e]. unfold irootU. intros H. assert (H' : (0 < m)%Z /\ (0 <= s)%Z /\ (k * SC * SC * 10 ^ (- e) <= m * (s * s))%Z /\ (e <= 0)%Z).
  { destruct e; [|discriminate|]; apply andb_true_iff in H as [H H3]; apply andb_true_iff in H as [H H2]; apply Z.ltb_lt in H; apply Z.leb_le in H2, H3; repeat split; trivial; lia. }
  destruct H' as (Hm & Hs & H3 & He). clear H.
  assert (0 < 10 ^ (- e))%Z as Ht by (apply Z.pow_pos_nonneg; lia).
  assert (El : Rlit (L m e) = IZR m / IZR (10 ^ (- e))).
  { destruct e as [|p|p]; [|lia|reflexivity]. cbn [Rlit]. rewrite Z.pow_0_r. cbn. field. }
  rewrite El. apply IZR_le in Hs, H3. apply IZR_lt in Hm, Hk, Ht. rewrite !mult_IZR in H3. pose proof SC_pos as P. set (t := IZR (10 ^ (- e))) in *.
  split; [now apply Rdiv_lt_0_compat|]. split; [apply sqrt_pos|].
  assert (0 <= fx s) as F0 by (unfold fx; apply div0; lra).
  rewrite <- (sqrt_square (fx s)) by exact F0. apply sqrt_le_1_alt. unfold fx. apply (Rmult_le_reg_r (IZR m * (IZR SC * IZR SC))); [repeat apply Rmult_lt_0_compat; lra|].
  replace (IZR k / (IZR m / t) * (IZR m * (IZR SC * IZR SC))) with (IZR k * IZR SC * IZR SC * t) by (field; lra).
  replace (IZR s / IZR SC * (IZR s / IZR SC) * (IZR m * (IZR SC * IZR SC))) with (IZR m * (IZR s * IZR s)) by (field; lra). exact H3.
Qed.

Definition SE : list Z := [200957272; 163150290; 254115014; 255270845; 282067024; 294087575; 300181717; 312364041; 314527717; 327804158; 337861817; 346673814; 354482733; 361459996; 84820603; 181008217; 167824687; 370378824; 281231607; 26392924; 178680792]%Z.
Definition SK : list Z := [182442431; 179654389; 181218569; 195040279; 205094001; 214864718; 213763348; 220355543; 221329992; 227381122; 232861981; 237827604; 242377018; 246578476; 159146598; 173695664; 180748859; 166036998; 182422840; 160834914; 174308498]%Z.
Definition IE : list Z := [358571721; 441663911; 283562918; 282278984; 255462669; 245020875; 240046581; 230684667; 229097758; 219819039; 213275343; 207854162; 203275331; 199351507; 849529394; 398090186; 429362308; 194551066; 256221538; 2730186233; 403275550]%Z.
Definition zn (l : list Z) (i : nat) : Z := nth i l 0%Z.
Definition compl (c i : nat) : lit := nth c (nth i COMPONENTS []) (L 0 0).
Lemma roots_ok : forallb (fun i => rootU (compl 0 i) 270 (zn SE i) && rootU (compl 1 i) 1 (zn SK i) && irootU (compl 0 i) 270 (zn IE i) && irootU (compl 1 i) 1 (2 ^ 29 - 1)%Z) (seq 0 21) = true.
Proof. vm_compute. reflexivity. Qed.
Lemma roots i : (i < 21)%nat -> 0 < E_ i /\ 0 < K_ i /\ up (zn SE i) (sqrt (E_ i / 270)) /\ up (zn SK i) (sqrt (K_ i)) /\ up (zn IE i) (sqrt (270 / E_ i)).
Proof.
  intros Hi. pose proof (proj1 (forallb_forall _ _) roots_ok i ltac:(apply in_seq; lia)) as H. cbv beta in H.
  apply andb_true_iff in H as [H H4]. apply andb_true_iff in H as [H H3]. apply andb_true_iff in H as [H1 H2].
  apply up_root in H1, H2; [|reflexivity..]. apply up_iroot in H3, H4; [|reflexivity..].
  replace (Rlit (compl 1 i) / 1) with (Rlit (compl 1 i)) in H2 by field. change (Rlit (compl 0 i)) with (E_ i) in *. change (Rlit (compl 1 i)) with (K_ i) in *. tauto.
Qed.
Definition pairU (c i j : nat) : Z :=
  match find (fun r => Nat.eqb (fst (fst r)) (Nat.min i j) && Nat.eqb (snd (fst r)) (Nat.max i j))%bool PAIRS with
  | Some r => litU (nth c (snd r) (L 1 0)) | None => SC end.
Definition pos_lit (l : lit) : bool := let '(L m e) := l in Z.ltb 0 m.
Lemma pos_ok l : pos_lit l = true -> 0 < Rlit l.
Proof.
  destruct l as [m [|p|p]]; cbn [pos_lit Rlit]; intros H; apply Z.ltb_lt in H.
  - now apply IZR_lt.
  - apply IZR_lt. apply Z.mul_pos_pos; [exact H|]. now apply Z.pow_pos_nonneg.
  - apply Rdiv_lt_0_compat; [now apply IZR_lt|]. apply IZR_lt. now apply Z.pow_pos_nonneg.
Qed.
(* all parameters positive, E at least 1/1.45, no pair of equal components *)
Lemma pairs_ok : forallb (fun r => forallb pos_lit (snd r) && Nat.ltb (fst (fst r)) (snd (fst r)) && (let '(L m e) := nth 0 (snd r) (L 1 0) in match e with Zneg p => (69 * 10 ^ Zpos p <=? 100 * m)%Z | Z0 => (1 <=? m)%Z | _ => false end))%bool PAIRS = true.
Proof. vm_compute. reflexivity. Qed.
Lemma pairU_ok c i j : up (pairU c i j) (pair c i j) /\ 0 < pair c i j.
Proof.
  unfold pairU, pair. destruct (find _ PAIRS) as [r|] eqn:F; [|split; [exact up_1|lra]]. apply find_some in F. destruct F as [F _].
  pose proof (proj1 (forallb_forall _ _) pairs_ok r F) as H. cbv beta in H. apply andb_true_iff in H as [H _]. apply andb_true_iff in H as [H _].
  assert (0 < Rlit (nth c (snd r) (L 1 0))) as P.
  { destruct (nth_in_or_default c (snd r) (L 1 0)) as [K|K]; [|rewrite K; cbn; lra]. apply pos_ok. exact (proj1 (forallb_forall _ _) H _ K). }
  split; [|exact P]. rewrite <- (Rabs_pos_eq (Rlit _)) by lra. apply up_lit.
Qed.
Lemma pair0_low i j : 69 / 100 <= pair 0 i j.
Proof.
  unfold pair. destruct (find _ PAIRS) as [r|] eqn:F; [|lra]. apply find_some in F. destruct F as [F _].
  pose proof (proj1 (forallb_forall _ _) pairs_ok r F) as H. cbv beta in H. apply andb_true_iff in H as [_ H].
  destruct (nth 0 (snd r) (L 1 0)) as [m e]. destruct e as [|p|p]; [| discriminate|].
  - apply Z.leb_le in H. apply IZR_le in H. cbn [Rlit]. lra.
  - apply Z.leb_le in H. assert (0 < 10 ^ Zpos p)%Z as Ht by now apply Z.pow_pos_nonneg. apply IZR_le in H. apply IZR_lt in Ht. rewrite !mult_IZR in H. cbn [Rlit].
    apply (Rmult_le_reg_r (IZR (10 ^ Zpos p))); [exact Ht|]. unfold Rdiv at 2. rewrite Rmult_assoc, Rinv_l by lra. lra.
Qed.
Lemma pair_sym c i j : pair c i j = pair c j i. Proof. unfold pair. now rewrite Nat.min_comm, Nat.max_comm. Qed.
Lemma pair_diag c i : pair c i i = 1.
Proof.
  unfold pair. rewrite Nat.min_id, Nat.max_id. destruct (find _ PAIRS) as [r|] eqn:F; [|reflexivity]. apply find_some in F. destruct F as [F E].
  pose proof (proj1 (forallb_forall _ _) pairs_ok r F) as H. cbv beta in H. apply andb_true_iff in H as [H _]. apply andb_true_iff in H as [_ H].
  apply Nat.ltb_lt in H. apply andb_true_iff in E as [E1 E2]. apply Nat.eqb_eq in E1, E2. lia.
Qed.
(* terms *)
Definition hz (l : lit) : Z := let '(L m e) := l in match e with Z0 => (2 * m)%Z | _ => (m / 5)%Z end.
Definition hu (n : nat) : Z := hz (snd (fst (term n))).
Lemma u_half n : (n < 58)%nat -> u_ n = IZR (hu n) / 2.
Proof.
  intros Hn. assert (K : forallb (fun n => let '(L m e) := snd (fst (term n)) in match e with Z0 => true | Zneg xH => Z.eqb (m mod 5) 0 | _ => false end) (seq 0 58) = true) by (vm_compute; reflexivity).
  pose proof (proj1 (forallb_forall _ _) K n ltac:(apply in_seq; lia)) as H. cbv beta in H. unfold u_, hu. destruct (snd (fst (term n))) as [m [|p|[p|p|]]]; try discriminate; cbn [hz Rlit].
  - rewrite mult_IZR. lra.
  - apply Z.eqb_eq in H. pose proof (Z.div_mod m 5 ltac:(lia)) as E. rewrite H, Z.add_0_r in E. apply (f_equal IZR) in E. rewrite mult_IZR in E.
    change (10 ^ 1)%Z with 10%Z. lra.
Qed.
Lemma F_sqrt i : sqrt (F_ i) = F_ i.
Proof.
  unfold F_, comp. assert (K : forallb (fun i => let l := nth 4 (nth i COMPONENTS []) (L 0 0) in match l with L 0 0 => true | L 1 0 => true | _ => false end) (seq 0 22) = true) by (vm_compute; reflexivity).
  destruct (Nat.lt_ge_cases i 21) as [Hi|Hi].
  - pose proof (proj1 (forallb_forall _ _) K i ltac:(apply in_seq; lia)) as H. cbv beta zeta in H. destruct (nth 4 _ _) as [[|[p|p|]|p] [|p'|p']]; try discriminate; cbn [Rlit]; [exact sqrt_0|exact sqrt_1].
  - rewrite (nth_overflow COMPONENTS) by exact Hi. cbn. exact sqrt_0.
Qed.
Definition ckn (n : nat) : bool := ((-26 <=? hu n) && (hu n <=? 46) && Nat.leb (g_ n) 1 && Nat.leb (q_ n) 1 && Nat.leb (f_ n) 1 && Nat.leb (s_ n) 1 && Nat.leb (w_ n) 1
  && (if Nat.ltb n 18 then (-12 <=? hu n) && (hu n <=? 26) else true))%Z%bool.
Lemma ckn_ok : forallb ckn (seq 0 58) = true. Proof. vm_compute. reflexivity. Qed.
Lemma ckn_at n : (n < 58)%nat -> ckn n = true.
Proof. intros H. apply (proj1 (forallb_forall _ _) ckn_ok). apply in_seq. lia. Qed.
Lemma hu_range n : (n < 58)%nat -> (- 26 <= hu n <= 46)%Z.
Proof. intros H. apply ckn_at in H. unfold ckn in H. rewrite !andb_true_iff in H. destruct H as (((((((A & B) & _) & _) & _) & _) & _) & _). apply Z.leb_le in A, B. lia. Qed.
Lemma hu_range18 n : (n < 18)%nat -> (- 12 <= hu n <= 26)%Z.
Proof.
  intros H. pose proof (ckn_at n ltac:(lia)) as K. unfold ckn in K. rewrite !andb_true_iff in K. destruct K as (_ & K). apply Nat.ltb_lt in H. rewrite H in K.
  apply andb_true_iff in K as [A B]. apply Z.leb_le in A, B. lia.
Qed.
Lemma flags n : (n < 58)%nat -> (g_ n <= 1 /\ q_ n <= 1 /\ f_ n <= 1 /\ s_ n <= 1 /\ w_ n <= 1)%nat.
Proof. intros H. apply ckn_at in H. unfold ckn in H. rewrite !andb_true_iff, !Nat.leb_le in H. tauto. Qed.
Definition whenU (g : nat) (v acc : Z) : Z := match g with O => acc | _ => mulU acc v end.
Lemma up_when g v r acc s : (g <= 1)%nat -> up v r -> up acc s -> up (whenU g v acc) (s * when g r).
Proof.
  intros Hg Hv Ha. destruct g as [|[|g]]; [| |lia]; unfold when, whenU; cbn [pow INR]; [now rewrite Rmult_1_r|].
  replace ((r + 1 - 1) * 1) with r by ring. now apply up_mul.
Qed.
Definition aU (n : nat) : Z := litU (fst (fst (term n))).
Lemma up_a n : up (aU n) (Rabs (a_ n)). Proof. apply up_lit. Qed.
Definition compU (c i : nat) : Z := litU (compl c i).
Lemma comp_nn : forallb (forallb (fun l : lit => let '(L m e) := l in Z.leb 0 m)) COMPONENTS = true. Proof. vm_compute. reflexivity. Qed.
Lemma comp_ge0 c i : 0 <= comp c i.
Proof.
  unfold comp. destruct (nth_in_or_default i COMPONENTS []) as [K|K]; [|rewrite K; destruct c; cbn; lra].
  pose proof (proj1 (forallb_forall _ _) comp_nn _ K) as H. destruct (nth_in_or_default c (nth i COMPONENTS []) (L 0 0)) as [J|J]; [|rewrite J; cbn; lra].
  apply (proj1 (forallb_forall _ _) H) in J. destruct (nth c _ _) as [m [|p|p]]; cbn [Rlit]; apply Z.leb_le in J.
  - now apply IZR_le.
  - apply IZR_le. apply Z.mul_nonneg_nonneg; [exact J|]. now apply Z.pow_nonneg.
  - apply div0; [now apply IZR_le|]. apply IZR_lt. now apply Z.pow_pos_nonneg.
Qed.
Lemma up_comp c i : up (compU c i) (comp c i).
Proof. rewrite <- (Rabs_pos_eq (comp c i)) by apply comp_ge0. apply up_lit. Qed.
