(* Compositions in binary64. *)
From Coq Require Import ZArith Reals List Bool Psatz.
From Flocq Require Import Core BinarySingleNaN.
From Verif Require Import FArith Prelude Composition SpecGeneric ArithB64 B64Lemmas SpecB64.
Import ListNotations.
Local Open Scope R_scope.

Local Opaque badd bsub bmul bdiv.
Section Comp.
Variable m : Libm.
Local Notation Comp := (@Composition (ArithB64 m)).
Local Notation sum := (@comp_sum (ArithB64 m)).

Definition bsum (a : b64) (l : list b64) : b64 := fold_left badd l a.

Lemma sum_fold (c : Comp) :
  sum c = match bfractions m c with [] => B0 | x :: l => bsum x l end.
Proof.
  unfold comp_sum, bfractions, fractions, bsum. cbn [fold_left]. cbn [fadd ArithB64]. reflexivity.
Qed.

Lemma u64_pos : 0 < u64.
Proof. rewrite u64_val. lra. Qed.

Lemma Rsum_abs l : Rabs (Rsum l) <= Rsum (map Rabs l).
Proof.
  induction l as [|x l IH]; cbn [Rsum fold_right map].
  - rewrite Rabs_R0. lra.
  - eapply Rle_trans; [apply Rabs_triang|]. unfold Rsum in IH. lra.
Qed.
Lemma Rsum_map_abs (l : list b64) : map (fun x => Rabs (bR x)) l = map Rabs (map bR l).
Proof. now rewrite map_map. Qed.

Definition grow (n : nat) : R := (1 + u64) ^ n - 1.
Lemma grow_pos n : 0 <= grow n.
Proof. unfold grow. pose proof (pow_R1_Rle (1 + u64) n). pose proof u64_pos. lra. Qed.
Lemma grow_S n : grow (S n) = grow n * (1 + u64) + u64.
Proof. unfold grow. cbn [pow]. ring. Qed.

Lemma bsum_fin l : forall a, fin (bsum a l) -> fin a /\ List.Forall fin l.
Proof.
  induction l as [|x l IH]; intros a H; cbn in H.
  - split; [exact H|constructor].
  - destruct (IH _ H) as (H1 & H2). destruct (fin_add a x H1). split; [assumption|now constructor].
Qed.

Lemma bsum_error l : forall a, fin (bsum a l) ->
  Rabs (bR (bsum a l) - (bR a + Rsum (map bR l)))
  <= grow (length l) * (Rabs (bR a) + Rsum (map Rabs (map bR l))).
Proof.
  induction l as [|x l IH]; intros a H; cbn [bsum fold_left] in *.
  - cbn [Rsum map fold_right length]. unfold grow. cbn [pow].
    replace (bR a - (bR a + 0)) with 0 by ring. rewrite Rabs_R0. lra.
  - fold (bsum (badd a x) l) in *. specialize (IH _ H).
    destruct (bsum_fin l _ H) as (H1 & _).
    destruct (add_rel a x H1) as (e & He & E).
    cbn [length map Rsum fold_right]. fold (Rsum (map bR l)). fold (Rsum (map Rabs (map bR l))).
    set (S := Rsum (map bR l)) in *. set (T := Rsum (map Rabs (map bR l))) in *.
    set (b := bR (bsum (badd a x) l)) in *.
    assert (T0 : 0 <= T).
    { eapply Rle_trans; [apply Rabs_pos|]. apply Rsum_abs. }
    set (s1 := bR (badd a x)) in *.
    assert (A1 : Rabs (s1 - (bR a + bR x)) <= u64 * (Rabs (bR a) + Rabs (bR x))).
    { rewrite E. replace ((bR a + bR x) * (1 + e) - (bR a + bR x)) with (e * (bR a + bR x)) by ring.
      rewrite Rabs_mult. apply Rmult_le_compat; [apply Rabs_pos|apply Rabs_pos|exact He|apply Rabs_triang]. }
    assert (A2 : Rabs s1 <= (1 + u64) * (Rabs (bR a) + Rabs (bR x))).
    { replace s1 with ((s1 - (bR a + bR x)) + (bR a + bR x)) by ring.
      eapply Rle_trans; [apply Rabs_triang|]. pose proof (Rabs_triang (bR a) (bR x)). lra. }
    replace (b - (bR a + (bR x + S))) with ((b - (s1 + S)) + (s1 - (bR a + bR x))) by ring.
    eapply Rle_trans; [apply Rabs_triang|]. rewrite grow_S.
    set (g := grow (length l)) in *. assert (G : 0 <= g) by apply grow_pos.
    pose proof u64_pos as U. pose proof (Rabs_pos (bR a)). pose proof (Rabs_pos (bR x)).
    assert (g * (Rabs s1 + T) <= g * ((1 + u64) * (Rabs (bR a) + Rabs (bR x)) + T)).
    { apply Rmult_le_compat_l; [exact G|lra]. }
    assert (0 <= g * u64 * T) by (apply Rmult_le_pos; [apply Rmult_le_pos; lra|exact T0]).
    assert (0 <= u64 * T) by (apply Rmult_le_pos; lra).
    apply Rle_trans with (g * ((1 + u64) * (Rabs (bR a) + Rabs (bR x)) + T)
      + u64 * (Rabs (bR a) + Rabs (bR x))); [lra|].
    replace ((g * (1 + u64) + u64) * (Rabs (bR a) + (Rabs (bR x) + T))) with
      (g * ((1 + u64) * (Rabs (bR a) + Rabs (bR x)) + T) + u64 * (Rabs (bR a) + Rabs (bR x))
       + g * u64 * T + u64 * T) by ring. lra.
Qed.

Lemma grow_20 : grow 20 <= 21 * u64.
Proof. unfold grow. rewrite u64_val. lra. Qed.

(* C07 *)
Lemma sum_accurate (c : Comp) : fin (sum c) ->
  List.Forall fin (bfractions m c) /\
  Rabs (bR (sum c) - exact_sum m c) <= 21 * u64 * abs_sum m c.
Proof.
  rewrite sum_fold. unfold exact_sum, abs_sum. rewrite Rsum_map_abs.
  assert (LN : length (bfractions m c) = 21%nat) by reflexivity.
  destruct (bfractions m c) as [|x l]; [discriminate|].
  intros H. destruct (bsum_fin l x H) as (H1 & H2). split; [now constructor|].
  cbn [map Rsum fold_right]. fold (Rsum (map bR l)). fold (Rsum (map Rabs (map bR l))).
  eapply Rle_trans; [apply (bsum_error l x H)|].
  cbn [length] in LN. injection LN as ->. apply Rmult_le_compat_r; [|exact grow_20].
  pose proof (Rabs_pos (bR x)).
  assert (0 <= Rsum (map Rabs (map bR l))) by (eapply Rle_trans; [apply Rabs_pos|apply Rsum_abs]). lra.
Qed.

(* -- check ---------------------------------------------------------------------------------- *)
Definition e10 : b64 := blit (L 1 (-10)).
Definition e2 : b64 := blit (L 1 (-2)).
Definition one : b64 := blit (L 1 0).
Lemma lit10 : fin e10 /\ Rabs (bR e10 - / 10000000000) <= / 10 ^ 26.
Proof.
  split; [reflexivity|]. unfold e10. erewrite lit_R by (vm_compute; reflexivity).
  unfold SF2R, F2R. cbn [Fnum Fexp cond_Zopp bpow Z.pow_pos Pos.iter Z.mul Pos.mul radix2 radix_val].
  apply Rabs_le. split; lra.
Qed.
Lemma lit2 : fin e2 /\ Rabs (bR e2 - / 100) <= / 10 ^ 18.
Proof.
  split; [reflexivity|]. unfold e2. erewrite lit_R by (vm_compute; reflexivity).
  unfold SF2R, F2R. cbn [Fnum Fexp cond_Zopp bpow Z.pow_pos Pos.iter Z.mul Pos.mul radix2 radix_val].
  apply Rabs_le. split; lra.
Qed.
Lemma lit1 : fin one /\ bR one = 1.
Proof.
  split; [reflexivity|]. unfold one. erewrite lit_R by (vm_compute; reflexivity).
  unfold SF2R, F2R. cbn [Fnum Fexp cond_Zopp bpow Z.pow_pos Pos.iter Z.mul Pos.mul radix2 radix_val]. lra.
Qed.

Lemma check_eq (c : Comp) : @comp_check (ArithB64 m) c
  = if Bltb (Babs (bsub (sum c) B0)) e10 then RErr Empty
    else if Bltb e2 (Babs (bsub (sum c) one)) then RErr BadSum else ROk.
Proof. reflexivity. Qed.

Lemma bR_small x : Rabs (bR x) < bpow radix2 1024.
Proof. apply (abs_B2R_lt_emax 53 1024). Qed.

Lemma sub_zero s : fin s -> fin (bsub s B0) /\ bR (bsub s B0) = bR s.
Proof.
  intros H. assert (E : bR s - bR B0 = bR s) by (unfold bR at 2; cbn; ring).
  destruct (sub_ok s B0 H eq_refl) as (E1 & E2).
  - rewrite E, rnd_bR. apply bR_small.
  - split; [exact E2|]. now rewrite E1, E, rnd_bR.
Qed.

(* |rnd x| <= e2 forces x to be hardly larger, and conversely *)
Lemma rnd_close x : Rabs (rnd x - x) <= u64 * Rabs x + bpow radix2 (-1075).
Proof.
  destruct (rnd_any x) as (e & h & He & Hh & E). rewrite E.
  replace (x * (1 + e) + h - x) with (e * x + h) by ring.
  eapply Rle_trans; [apply Rabs_triang|]. rewrite Rabs_mult.
  pose proof (Rabs_pos x). pose proof (Rmult_le_compat_r (Rabs x) _ _ H He). lra.
Qed.
Lemma tiny : bpow radix2 (-1075) <= / 10 ^ 300.
Proof.
  apply Rle_trans with (bpow radix2 (-1000)); [apply bpow_le; lia|].
  apply Rle_trans with (/ IZR (2 ^ 1000)); [apply Req_le; reflexivity|].
  rewrite pow_IZR. apply Rinv_le; [apply IZR_lt; reflexivity|]. apply IZR_le. now vm_compute.
Qed.
Lemma tiny_pos : 0 < bpow radix2 (-1075).
Proof. apply bpow_gt_0. Qed.
Lemma tiny' : bpow radix2 (-1075) <= / 10 ^ 30.
Proof. 
  eapply Rle_trans; [exact tiny|]. apply Rinv_le; [lra|]. apply Rle_pow; [lra|lia].
Qed.

(* the decision check() takes, by the computed sum *)
Lemma check_of_sum (c : Comp) : fin (sum c) -> forall s, s = bR (sum c) ->
  (Rabs s <= / 10 ^ 10 - / 10 ^ 26 * 2 -> @comp_check (ArithB64 m) c = RErr Empty) /\
  (/ 10 ^ 10 + / 10 ^ 26 <= Rabs s -> / 100 + / 10 ^ 17 < Rabs (s - 1) ->
     @comp_check (ArithB64 m) c = RErr BadSum) /\
  (Rabs (s - 1) <= / 100 - / 10 ^ 17 -> @comp_check (ArithB64 m) c = ROk) /\
  (@comp_check (ArithB64 m) c = ROk -> Rabs (s - 1) <= / 100 + / 10 ^ 17) /\
  (@comp_check (ArithB64 m) c = RErr Empty -> Rabs s <= / 10 ^ 10 + / 10 ^ 26).
Proof.
  intros H s Es. rewrite check_eq.
  destruct (sub_zero _ H) as (Z1 & Z2). destruct lit10 as (L1 & L2). destruct lit2 as (L3 & L4).
  destruct lit1 as (L5 & L6).
  rewrite (lt_fin (Babs (bsub (sum c) B0)) e10) by (first [exact L1|apply abs_ok; exact Z1]).
  rewrite (proj1 (abs_ok (bsub (sum c) B0))), Z2, <- Es.
  apply Rabs_le_inv in L2. apply Rabs_le_inv in L4.
  assert (R1 : / 10000000000 = / 10 ^ 10) by (f_equal; ring).
  assert (R2 : / 10 ^ 26 < / 10 ^ 10) by lra.
  assert (P17 : 0 < / 10 ^ 17) by (apply Rinv_0_lt_compat; lra).
  assert (P26 : 0 < / 10 ^ 26) by (apply Rinv_0_lt_compat; lra).
  assert (D : Bltb e2 (Babs (bsub (sum c) one)) = true /\ / 100 - / 10 ^ 17 < Rabs (s - 1)
           \/ Bltb e2 (Babs (bsub (sum c) one)) = false /\ Rabs (s - 1) <= / 100 + / 10 ^ 17).
  { destruct (sub_cases (sum c) one H L5) as [(F1 & F2)|(b & EI)].
    - rewrite lt_fin by (first [exact L3|apply abs_ok; exact F1]).
      rewrite (proj1 (abs_ok _)), F2, L6, <- Es.
      pose proof (rnd_close (s - 1)) as RC. pose proof tiny' as T1. pose proof u64_val as U1.
      set (y := s - 1) in *. set (q := rnd y) in *.
      assert (A1 : Rabs y <= Rabs q + (u64 * Rabs y + bpow radix2 (-1075))).
      { replace y with (q - (q - y)) at 1 by ring. eapply Rle_trans; [apply Rabs_triang|].
        rewrite Rabs_Ropp. lra. }
      assert (A2 : Rabs q <= Rabs y + (u64 * Rabs y + bpow radix2 (-1075))).
      { replace q with ((q - y) + y) at 1 by ring. eapply Rle_trans; [apply Rabs_triang|]. lra. }
      rewrite U1 in A1, A2.
      case Rlt_bool_spec; intros Q; [left|right]; (split; [reflexivity|]); lra.
    - left. rewrite EI. split; [reflexivity|].
      destruct (Rle_lt_dec (Rabs (s - 1)) 1) as [S1|S1]; [exfalso|lra].
      destruct (sub_ok (sum c) one H L5) as (_ & F2).
      + rewrite L6, <- Es. apply (no_overflow _ 0); [lia|exact S1].
      + rewrite EI in F2. discriminate. }
  assert (Ab : forall a, Rabs (s - 1) <= a -> Rabs s >= 1 - a).
  { intros a Ha. apply Rabs_le_inv in Ha. pose proof (Rle_abs s). lra. }
  destruct D as [(D1 & D2)|(D1 & D2)]; rewrite D1; case (Rlt_bool_spec (Rabs s) (bR e10)); intros Q;
    (split; [|split; [|split; [|split]]]); intros HH; intros;
    first [lra|match goal with |- _ = _ => reflexivity end
          |match type of HH with _ = _ => discriminate HH end
          |exfalso; lra|exfalso; pose proof (Ab _ HH); lra|exfalso; pose proof (Ab _ D2); lra].
Qed.

(* -- sums of non-negative numbers ------------------------------------------------------------- *)

Lemma nonneg_fin x : fin x -> (nonneg x <-> 0 <= bR x).
Proof.
  intros H. unfold nonneg. rewrite le_fin by (first [exact H|reflexivity]).
  change (bR B0) with 0. case Rle_bool_spec; intros; split; intros; try assumption; try reflexivity;
    try discriminate; lra.
Qed.

Lemma Rsum_nonneg l : List.Forall (fun x => 0 <= x) l -> 0 <= Rsum l.
Proof. induction 1; cbn; [lra|]. fold (Rsum l). lra. Qed.
Lemma Rsum_abs_nonneg l : List.Forall (fun x => 0 <= x) l -> Rsum (map Rabs l) = Rsum l.
Proof.
  induction 1 as [|x l Hx Hl IH]; cbn; [reflexivity|]. fold (Rsum (map Rabs l)). fold (Rsum l).
  rewrite IH, Rabs_pos_eq by exact Hx. reflexivity.
Qed.

Lemma bsum_bound l : forall a, fin a -> 0 <= bR a ->
  List.Forall (fun x => fin x /\ 0 <= bR x) l ->
  (bR a + Rsum (map bR l)) * (1 + u64) ^ length l <= bpow radix2 1001 -> fin (bsum a l).
Proof.
  induction l as [|x l IH]; intros a Ha Pa Hl B; [exact Ha|].
  inversion_clear Hl as [|? ? (Hx & Px) Hl']. cbn [bsum fold_left]. fold (bsum (badd a x) l).
  cbn [map Rsum fold_right length pow] in B. fold (Rsum (map bR l)) in B.
  pose proof u64_pos as U.
  assert (S0 : 0 <= Rsum (map bR l)).
  { apply Rsum_nonneg. rewrite List.Forall_map. eapply List.Forall_impl; [|exact Hl'].
    intros y Hy. apply Hy. }
  assert (P1 : 1 <= (1 + u64) ^ length l) by (apply pow_R1_Rle; lra).
  set (q := (1 + u64) ^ length l) in *. set (S := Rsum (map bR l)) in *.
  assert (Q : bR a + bR x <= bpow radix2 1001).
  { eapply Rle_trans; [|exact B].
    assert (bR a + bR x <= (bR a + (bR x + S)) * 1) by lra.
    eapply Rle_trans; [exact H|]. apply Rmult_le_compat_l; [lra|]. nra. }
  assert (F : fin (badd a x)).
  { apply add_ok; [exact Ha|exact Hx|]. apply (no_overflow _ 1001); [lia|]. rewrite Rabs_pos_eq; lra. }
  destruct (add_rel a x F) as (e & He & E). apply Rabs_le_inv in He.
  assert (U1 : u64 < 1) by (rewrite u64_val; lra).
  apply IH; [exact F| |exact Hl'|].
  - rewrite E. apply Rmult_le_pos; lra.
  - eapply Rle_trans; [|exact B]. fold q. rewrite E.
    replace ((bR a + (bR x + S)) * ((1 + u64) * q)) with (((bR a + bR x) * (1 + u64) + S * (1 + u64)) * q) by ring.
    apply Rmult_le_compat_r; [lra|].
    assert ((bR a + bR x) * (1 + e) <= (bR a + bR x) * (1 + u64)) by (apply Rmult_le_compat_l; lra).
    assert (S * 1 <= S * (1 + u64)) by (apply Rmult_le_compat_l; lra). lra.
Qed.


Lemma usable_abs l : usable l -> Rsum (map (fun x => Rabs (bR x)) l) = Rsum (map bR l).
Proof.
  intros H. rewrite Rsum_map_abs. apply Rsum_abs_nonneg. rewrite List.Forall_map.
  eapply List.Forall_impl; [|exact H]. intros x Hx. apply Hx.
Qed.

Lemma sum_usable (c : Comp) : usable (bfractions m c) -> exact_sum m c <= bpow radix2 1000 ->
  fin (sum c) /\ Rabs (bR (sum c) - exact_sum m c) <= 21 * u64 * exact_sum m c.
Proof.
  intros Us B.
  assert (F : fin (sum c)).
  { rewrite sum_fold. unfold exact_sum in B.
    assert (LN : length (bfractions m c) = 21%nat) by reflexivity.
    destruct (bfractions m c) as [|x l]; [discriminate|].
    inversion_clear Us as [|? ? (Hx & Px) Hl]. cbn [map Rsum fold_right] in B.
    fold (Rsum (map bR l)) in B. apply bsum_bound; [exact Hx|exact Px|exact Hl|].
    injection LN as ->. change 1001%Z with (1000 + 1)%Z. rewrite bpow_plus.
    assert (P : (1 + u64) ^ 20 <= bpow radix2 1).
    { change (bpow radix2 1) with 2. rewrite u64_val. lra. }
    assert (S0 : 0 <= Rsum (map bR l)).
    { apply Rsum_nonneg. rewrite List.Forall_map. eapply List.Forall_impl; [|exact Hl].
      intros y Hy. apply Hy. }
    apply Rmult_le_compat; [lra|apply pow_le; pose proof u64_pos; lra|exact B|exact P]. }
  split; [exact F|]. destruct (sum_accurate c F) as (_ & A). unfold abs_sum in A.
  rewrite (usable_abs _ Us) in A. exact A.
Qed.

(* -- normalize -------------------------------------------------------------------------------- *)
Lemma normalize_eq (c : Comp) : Bltb B0 (sum c) = true ->
  exists c', @comp_normalize (ArithB64 m) c = (c', ROk) /\
    bfractions m c' = map (fun x => bmul x (bdiv one (sum c))) (bfractions m c).
Proof.
  intros H. unfold comp_normalize. cbn [flt ArithB64]. change (@f0 (ArithB64 m)) with B0.
  rewrite H. eexists. split; [reflexivity|].
  unfold bfractions, fractions. cbn [map]. cbn [methane nitrogen carbon_dioxide ethane propane
    isobutane n_butane isopentane n_pentane hexane heptane octane nonane decane hydrogen oxygen
    carbon_monoxide water hydrogen_sulfide helium argon fmul fdiv ArithB64]. reflexivity.
Qed.

Lemma Rsum_close (l : list R) (g : R -> R) (S k h : R) : 0 < S ->
  List.Forall (fun x => Rabs (g x - x / S) <= k * (x / S) + h) l ->
  Rabs (Rsum (map g l) - Rsum l / S) <= k * (Rsum l / S) + INR (length l) * h.
Proof.
  intros HS. induction 1 as [|x l Hx Hl IH].
  - cbn [map Rsum fold_right length INR]. replace (0 - 0 / S) with 0 by (field; lra).
    rewrite Rabs_R0. apply Req_le. field. lra.
  - cbn [map Rsum fold_right length]. rewrite S_INR. fold (Rsum (map g l)). fold (Rsum l).
    replace (g x + Rsum (map g l) - (x + Rsum l) / S)
      with ((g x - x / S) + (Rsum (map g l) - Rsum l / S)) by (field; lra).
    eapply Rle_trans; [apply Rabs_triang|].
    replace (k * ((x + Rsum l) / S)) with (k * (x / S) + k * (Rsum l / S)) by (field; lra). lra.
Qed.

Lemma scale_close S s e1 e2 : 0 < S -> Rabs (s - S) <= 21 * u64 * S -> Rabs e1 <= u64 -> Rabs e2 <= u64 ->
  Rabs (S / s * (1 + e1) * (1 + e2) - 1) <= 25 * u64.
Proof.
  intros HS H1 H2 H3. apply Rabs_le_inv in H1, H2, H3.
  assert (U : u64 = / 9007199254740992) by reflexivity.
  set (u := u64) in *.
  assert (Hs : 0 < s) by (rewrite U in H1; lra).
  assert (Q1 : S / s * (1 - 21 * u) <= 1).
  { apply Rmult_le_reg_r with s; [exact Hs|]. replace (S / s * (1 - 21 * u) * s) with (S * (1 - 21 * u)) by (field; lra). lra. }
  assert (Q2 : 1 <= S / s * (1 + 21 * u)).
  { apply Rmult_le_reg_r with s; [exact Hs|]. replace (S / s * (1 + 21 * u) * s) with (S * (1 + 21 * u)) by (field; lra). lra. }
  set (q := S / s) in *.
  assert (E : 1 - 2 * u <= (1 + e1) * (1 + e2) <= 1 + 5 / 2 * u).
  { split.
    - apply Rle_trans with ((1 - u) * (1 - u)); [rewrite U; lra|].
      apply Rmult_le_compat; rewrite ?U in *; lra.
    - apply Rle_trans with ((1 + u) * (1 + u)); [|rewrite U; lra].
      apply Rmult_le_compat; rewrite ?U in *; lra. }
  set (g := (1 + e1) * (1 + e2)) in *.
  replace (q * (1 + e1) * (1 + e2)) with (q * g) by (unfold g; ring).
  rewrite U in *.
  assert (0 < q) by lra. assert (q <= 1 + 22 * / 9007199254740992) by lra.
  assert (1 - 22 * / 9007199254740992 <= q) by lra.
  apply Rabs_le. split.
  - apply Rle_trans with ((1 - 22 * / 9007199254740992) * (1 - 2 * / 9007199254740992) - 1); [lra|].
    apply Rplus_le_compat_r. apply Rmult_le_compat; lra.
  - apply Rle_trans with ((1 + 22 * / 9007199254740992) * (1 + 5 / 2 * / 9007199254740992) - 1).
    + apply Rplus_le_compat_r. apply Rmult_le_compat; lra.
    + lra.
Qed.

Lemma Rsum_ge_elem l : List.Forall (fun x => 0 <= x) l -> forall x, In x l -> x <= Rsum l.
Proof.
  induction 1 as [|y l Hy Hl IH]; intros x [].
  - subst. cbn. fold (Rsum l). pose proof (Rsum_nonneg l Hl). lra.
  - cbn. fold (Rsum l). specialize (IH x H). lra.
Qed.

(* C06 *)
Lemma normalize_check (c : Comp) : usable (bfractions m c) ->
  bpow radix2 (-1000) <= exact_sum m c <= bpow radix2 1000 ->
  exists c', @comp_normalize (ArithB64 m) c = (c', ROk) /\
    usable (bfractions m c') /\
    List.Forall2 (fun x y => Rabs (bR y - bR x / exact_sum m c)
      <= 25 * u64 * (bR x / exact_sum m c) + bpow radix2 (-1075)) (bfractions m c) (bfractions m c') /\
    Rabs (exact_sum m c' - 1) <= / 10 ^ 14 /\
    @comp_check (ArithB64 m) c' = ROk.
Proof.
  intros Us (B1 & B2). destruct (sum_usable c Us B2) as (Fs & As).
  set (S := exact_sum m c) in *. set (s := bR (sum c)) in *.
  assert (HS : 0 < S) by (eapply Rlt_le_trans; [apply bpow_gt_0|exact B1]).
  assert (U : u64 = / 9007199254740992) by reflexivity.
  assert (Bs : bpow radix2 (-1001) <= s <= bpow radix2 1001).
  { apply Rabs_le_inv in As. rewrite U in As.
    replace (bpow radix2 (-1001)) with (/ 2 * bpow radix2 (-1000));
      [|change (/ 2) with (bpow radix2 (-1)); rewrite <- bpow_plus; reflexivity].
    replace (bpow radix2 1001) with (2 * bpow radix2 1000);
      [|change 2 with (bpow radix2 1); rewrite <- bpow_plus; reflexivity].
    lra. }
  assert (Hs : 0 < s) by (eapply Rlt_le_trans; [apply bpow_gt_0|apply Bs]).
  assert (Ls : Bltb B0 (sum c) = true).
  { rewrite lt_fin by (first [exact Fs|reflexivity]). change (bR B0) with 0. fold s.
    now apply Rlt_bool_true. }
  destruct (normalize_eq c Ls) as (c' & En & Ef). exists c'. split; [exact En|].
  destruct lit1 as (O1 & O2).
  (* the factor *)
  assert (I1 : bpow radix2 (-1001) <= / s <= bpow radix2 1001).
  { split.
    - replace (bpow radix2 (-1001)) with (/ bpow radix2 1001) by (now rewrite <- bpow_opp).
      apply Rinv_le; [exact Hs|apply Bs].
    - replace (bpow radix2 1001) with (/ bpow radix2 (-1001)) by (now rewrite <- bpow_opp).
      apply Rinv_le; [apply bpow_gt_0|apply Bs]. }
  assert (I0 : 0 < / s) by now apply Rinv_0_lt_compat.
  destruct (div_ok one (sum c) O1) as (D1 & D2).
  { fold s. lra. }
  { rewrite O2. fold s. replace (1 / s) with (/ s) by (unfold Rdiv; ring).
    apply (no_overflow _ 1001); [lia|]. rewrite Rabs_pos_eq; lra. }
  rewrite O2 in D1. fold s in D1. replace (1 / s) with (/ s) in D1 by (unfold Rdiv; ring).
  destruct (rnd_rel (/ s)) as (e1 & He1 & E1).
  { rewrite Rabs_pos_eq by lra. apply Rle_trans with (bpow radix2 (-1001)); [apply bpow_le; lia|apply I1]. }
  set (f := bdiv one (sum c)) in *. rewrite E1 in D1.
  assert (Pf : 0 <= bR f).
  { rewrite D1. apply Rabs_le_inv in He1. apply Rmult_le_pos; [lra|]. rewrite U in He1. lra. }
  assert (Step : forall x, In x (bfractions m c) ->
     (fin (bmul x f) /\ 0 <= bR (bmul x f)) /\
     Rabs (bR (bmul x f) - bR x / S) <= 25 * u64 * (bR x / S) + bpow radix2 (-1075)).
  { intros x Hx. assert (Ux := proj1 (List.Forall_forall _ _) Us x Hx). destruct Ux as (Fx & Px).
    assert (xS : bR x <= S).
    { unfold S, exact_sum. apply Rsum_ge_elem; [|now apply in_map].
      rewrite List.Forall_map. eapply List.Forall_impl; [|exact Us]. intros y Hy. apply Hy. }
    assert (xp : bR x * bR f <= 2).
    { apply Rle_trans with (S * bR f); [now apply Rmult_le_compat_r|]. rewrite D1.
      pose proof (scale_close S s e1 0 HS As He1) as SC. rewrite Rabs_R0 in SC.
      specialize (SC ltac:(lra)). apply Rabs_le_inv in SC. unfold Rdiv in SC.
      replace (S * (/ s * (1 + e1))) with (S * / s * (1 + e1) * (1 + 0)) by ring. rewrite U in SC. lra. }
    assert (xp0 : 0 <= bR x * bR f) by now apply Rmult_le_pos.
    destruct (mul_ok x f Fx D2) as (M1 & M2).
    { apply (no_overflow _ 1); [lia|]. rewrite Rabs_pos_eq by exact xp0. exact xp. }
    split; [split; [exact M2|]|].
    - rewrite M1, <- rnd_0. now apply rnd_le.
    - rewrite M1. destruct (rnd_any (bR x * bR f)) as (e2 & h & He2 & Hh & E2). rewrite E2, D1.
      replace (bR x * (/ s * (1 + e1)) * (1 + e2) + h - bR x / S)
        with (bR x / S * (S / s * (1 + e1) * (1 + e2) - 1) + h) by (field; lra).
      eapply Rle_trans; [apply Rabs_triang|]. apply Rplus_le_compat; [|exact Hh].
      rewrite Rabs_mult, (Rabs_pos_eq (bR x / S)).
      + rewrite Rmult_comm. apply Rmult_le_compat_r.
        * apply Rmult_le_pos; [exact Px|]. left. now apply Rinv_0_lt_compat.
        * now apply scale_close.
      + apply Rmult_le_pos; [exact Px|]. left. now apply Rinv_0_lt_compat. }
  assert (Us' : usable (bfractions m c')).
  { rewrite Ef. apply List.Forall_forall. intros y Hy. apply in_map_iff in Hy.
    destruct Hy as (x & <- & Hx). now apply Step. }
  split; [exact Us'|split].
  { rewrite Ef. assert (G : forall l, (forall x, In x l -> In x (bfractions m c)) ->
      List.Forall2 (fun x y => Rabs (bR y - bR x / S) <= 25 * u64 * (bR x / S) + bpow radix2 (-1075))
        l (map (fun x => bmul x f) l)).
    { induction l as [|x l IH]; intros Hl; cbn [map]; constructor.
      - apply Step. apply Hl. now left.
      - apply IH. intros z Hz. apply Hl. now right. }
    apply G. auto. }
  assert (Y : Rabs (exact_sum m c' - 1) <= 26 * u64).
  { assert (EY : exact_sum m c' = Rsum (map (fun x => bR (bmul x f)) (bfractions m c))).
    { unfold exact_sum. rewrite Ef, map_map. reflexivity. }
    assert (G : forall l, (forall x, In x l -> In x (bfractions m c)) ->
      Rabs (Rsum (map (fun x => bR (bmul x f)) l) - Rsum (map bR l) / S)
      <= 25 * u64 * (Rsum (map bR l) / S) + INR (length l) * bpow radix2 (-1075)).
    { induction l as [|x l IH]; intros Hl; cbn [map Rsum fold_right length].
      - replace (0 - 0 / S) with 0 by (field; lra). rewrite Rabs_R0. cbn [INR]. apply Req_le. field. lra.
      - rewrite S_INR. fold (Rsum (map (fun x => bR (bmul x f)) l)). fold (Rsum (map bR l)).
        destruct (Step x (Hl x (or_introl eq_refl))) as (_ & St).
        specialize (IH (fun z Hz => Hl z (or_intror Hz))).
        replace (bR (bmul x f) + Rsum (map (fun x => bR (bmul x f)) l) - (bR x + Rsum (map bR l)) / S)
          with ((bR (bmul x f) - bR x / S) + (Rsum (map (fun x => bR (bmul x f)) l) - Rsum (map bR l) / S)) by (field; lra).
        eapply Rle_trans; [apply Rabs_triang|].
        replace (25 * u64 * ((bR x + Rsum (map bR l)) / S))
          with (25 * u64 * (bR x / S) + 25 * u64 * (Rsum (map bR l) / S)) by (field; lra). lra. }
    specialize (G (bfractions m c) (fun x Hx => Hx)). rewrite <- EY in G.
    fold (exact_sum m c) in G. fold S in G. replace (S / S) with 1 in G by (field; lra).
    change (length (bfractions m c)) with 21%nat in G.
    eapply Rle_trans; [exact G|]. pose proof tiny'. pose proof tiny_pos. rewrite U.
    cbn [INR]. lra. }
  split; [eapply Rle_trans; [exact Y|rewrite U; lra]|].
  destruct (sum_usable c' Us') as (Fs' & As').
  { apply Rabs_le_inv in Y. rewrite U in Y. apply Rle_trans with (bpow radix2 1);
      [change (bpow radix2 1) with 2; lra|apply bpow_le; lia]. }
  apply (check_of_sum c' Fs' _ eq_refl).
  apply Rabs_le_inv in Y. apply Rabs_le_inv in As'. rewrite U in Y, As'.
  apply Rabs_le. lra.
Qed.

End Comp.
