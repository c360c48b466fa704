(* The reducing functions of GERG-2008 for a natural gas. *)
From Coq Require Import Reals ZArith List Bool Lra Lia Psatz.
From Coquelicot Require Rcomplements.
From Verif Require Import FArith ArithR StdDetail StdGerg SpecStd SpecGas SlopeReal ConvDetail FixUp GasDetail GasVirial GasThird.
Import ListNotations.
Local Open Scope R_scope.

Definition AV : list Z := [124023299; 120035247; 122104178; 141200520; 156981557; 171121831; 170246126; 180833837; 181866852; 192635866; 202909600; 211091327; 220265775; 227627780; 108990760; 112376265; 121254156; 102667959; 123817440; 103593328; 112994691]%Z.
Definition ST : list Z := [225516554; 183515989; 284895994; 285454600; 314163792; 329906339; 336834308; 350511338; 354052999; 368139906; 379670756; 389794958; 398338413; 406019412; 94115602; 203121418; 188302082; 415568245; 315551771; 37236025; 200537636]%Z.
Definition cubeU (l : lit) (s : Z) : bool := let '(L m e) := l in
  match e with Zpos _ => false | _ => (0 <? m)%Z && (0 <=? s)%Z && (SC * SC * SC * 10 ^ (- e) <=? m * (s * s * s))%Z end.
Lemma cube_le a b : 0 <= b -> a ^ 3 <= b ^ 3 -> a <= b.
Proof. intros B H. destruct (Rle_lt_dec a b) as [K|K]; [exact K|]. assert (b ^ 3 < a ^ 3); [|lra]. assert (0 < a) by lra. replace (a ^ 3) with (a * (a * a)) by ring. replace (b ^ 3) with (b * (b * b)) by ring.
  assert (b * b <= a * a) by nra. assert (b * (b * b) <= b * (a * a)) by (apply Rmult_le_compat_l; lra). assert (0 < a * a) by nra. nra. Qed.
Lemma up_cube l s : cubeU l s = true -> 0 < Rlit l /\ up s (Rpower (Rlit l) (- (1 / 3))).
Proof.
  destruct l as [m e]. unfold cubeU. intros H. assert (H' : (0 < m)%Z /\ (0 <= s)%Z /\ (SC * SC * SC * 10 ^ (- e) <= m * (s * s * s))%Z /\ (e <= 0)%Z).
  { destruct e; [|discriminate|]; apply andb_true_iff in H as [H H3]; apply andb_true_iff in H as [H H2]; apply Z.ltb_lt in H; apply Z.leb_le in H2, H3; repeat split; trivial; lia. }
  destruct H' as (Hm & Hs & H3 & He). clear H. assert (0 < 10 ^ (- e))%Z as Ht by (apply Z.pow_pos_nonneg; lia).
  assert (El : Rlit (L m e) = IZR m / IZR (10 ^ (- e))) by (destruct e as [|p|p]; [|lia|reflexivity]; cbn [Rlit]; rewrite Z.pow_0_r; cbn; field).
  rewrite El. apply IZR_le in Hs, H3. apply IZR_lt in Hm, Ht. rewrite !mult_IZR in H3. pose proof SC_pos as P. set (t := IZR (10 ^ (- e))) in *. set (q := IZR m / t).
  assert (Q : 0 < q) by now apply Rdiv_lt_0_compat. split; [exact Q|]. split; [left; apply exp_pos|]. apply cube_le; [unfold fx; apply div0; lra|].
  rewrite <- (Rpower_pow 3) by apply exp_pos. rewrite Rpower_mult. replace (- (1 / 3) * INR 3) with (Ropp 1) by (cbn; lra). rewrite Rpower_Ropp, Rpower_1 by exact Q.
  unfold fx, q. apply (Rmult_le_reg_r (IZR m * (IZR SC * IZR SC * IZR SC))); [repeat apply Rmult_lt_0_compat; lra|].
  replace (/ (IZR m / t) * (IZR m * (IZR SC * IZR SC * IZR SC))) with (IZR SC * IZR SC * IZR SC * t) by (field; lra).
  replace ((IZR s / IZR SC) ^ 3 * (IZR m * (IZR SC * IZR SC * IZR SC))) with (IZR m * (IZR s * IZR s * IZR s)) by (field; lra). exact H3.
Qed.
Definition critl (i : nat) := nth (S i) CRIT (L 0 0, L 0 0).
Lemma crit_ok : forallb (fun i => cubeU (fst (critl i)) (zn AV i) && rootU (snd (critl i)) 270 (zn ST i) && pos_lit (snd (critl i))) (seq 0 21) = true.
Proof. vm_compute. reflexivity. Qed.
Lemma crits i : (i < 21)%nat -> 0 < rho_c (S i) /\ up (zn AV i) (Rpower (rho_c (S i)) (- (1 / 3))) /\ 0 < T_c (S i) /\ up (zn ST i) (sqrt (T_c (S i) / 270)).
Proof.
  intros Hi. pose proof (proj1 (forallb_forall _ _) crit_ok i ltac:(apply in_seq; lia)) as H. cbv beta in H. apply andb_true_iff in H as [H H3]. apply andb_true_iff in H as [H1 H2].
  apply up_cube in H1. apply up_root in H2; [|reflexivity]. apply pos_ok in H3. unfold rho_c, T_c. fold (critl i). tauto.
Qed.

(* gamma max(beta, 1/beta) of a pair; beta is parameter c *)
Definition rfind (i j : nat) := find (fun r : nat * nat * list lit => Nat.eqb (fst (fst r)) i && Nat.eqb (snd (fst r)) j)%bool REDUCING.
Definition invU (l : lit) : Z := let '(L m e) := l in match e with Zneg p => (10 ^ Zpos p * SC / m + 1)%Z | _ => (SC / (m * 10 ^ e) + 1)%Z end.
Lemma up_inv l : 0 < Rlit l -> up (invU l) (/ Rlit l).
Proof.
  assert (G : forall a b, (0 < b)%Z -> IZR a / IZR b <= IZR (a / b + 1)).
  { intros a b Hb. pose proof (Z.mul_succ_div_gt a b Hb) as H. unfold Z.succ in H. apply IZR_lt in H, Hb. rewrite mult_IZR in H. apply (Rmult_le_reg_r (IZR b)); [exact Hb|].
    unfold Rdiv. rewrite Rmult_assoc, Rinv_l by lra. lra. }
  intros H. split; [left; now apply Rinv_0_lt_compat|]. destruct l as [m [|p|p]]; cbn [invU Rlit] in *; unfold fx; pose proof SC_pos as P.
  - apply lt_IZR in H. rewrite Z.pow_0_r, Z.mul_1_r. specialize (G SC m H). apply IZR_lt in H. apply (Rmult_le_reg_r (IZR SC)); [exact P|]. unfold Rdiv at 1. rewrite Rmult_assoc, Rinv_l by lra. rewrite Rmult_1_r, Rmult_comm. exact G.
  - apply lt_IZR in H. specialize (G SC _ H). apply IZR_lt in H. apply (Rmult_le_reg_r (IZR SC)); [exact P|]. unfold Rdiv at 1. rewrite Rmult_assoc, Rinv_l by lra. rewrite Rmult_1_r, Rmult_comm. exact G.
  - assert (0 < 10 ^ Zpos p)%Z as Ht by (apply Z.pow_pos_nonneg; lia). set (t := (10 ^ Zpos p)%Z) in *. pose proof Ht as Ht'. apply IZR_lt in Ht'.
    assert (0 < m)%Z as Hm. { apply lt_IZR. apply (Rmult_lt_reg_r (/ IZR t)); [now apply Rinv_0_lt_compat|]. rewrite Rmult_0_l. exact H. }
    specialize (G (t * SC)%Z m Hm). rewrite mult_IZR in G. apply IZR_lt in Hm. apply (Rmult_le_reg_r (IZR SC)); [exact P|]. unfold Rdiv at 2. rewrite Rmult_assoc, Rinv_l by lra. rewrite Rmult_1_r.
    apply Rle_trans with (2 := G). right. field. lra.
Qed.
Definition mxU (c i j : nat) : Z := if Nat.eqb i j then SC else
  match rfind (S (Nat.min i j)) (S (Nat.max i j)) with Some r => mulU (litU (nth (S c) (snd r) (L 0 0))) (Z.max (litU (nth c (snd r) (L 0 0))) (invU (nth c (snd r) (L 0 0)))) | None => 0%Z end.
Definition mx (c i j : nat) : R := if Nat.eqb i j then 1 else
  red (S c) (S (Nat.min i j)) (S (Nat.max i j)) * Rmax (red c (S (Nat.min i j)) (S (Nat.max i j))) (/ red c (S (Nat.min i j)) (S (Nat.max i j))).
Lemma mx_sym c i j : mx c i j = mx c j i. Proof. unfold mx. now rewrite Nat.min_comm, Nat.max_comm, Nat.eqb_sym. Qed.
Lemma mx_diag c i : mx c i i = 1. Proof. unfold mx. now rewrite Nat.eqb_refl. Qed.
Lemma red_ok : forallb (fun r => Nat.eqb (length (snd r)) 4 && forallb pos_lit (snd r)) REDUCING = true. Proof. vm_compute. reflexivity. Qed.
Lemma full_ok : forallb (fun j => forallb (fun i => match rfind (S i) (S j) with Some _ => true | None => false end) (seq 0 j)) (seq 0 21) = true. Proof. vm_compute. reflexivity. Qed.
Lemma rfound i j : (i < j)%nat -> (j < 21)%nat -> exists r, rfind (S i) (S j) = Some r /\ forall c, (c < 4)%nat -> red c (S i) (S j) = Rlit (nth c (snd r) (L 0 0)) /\ 0 < Rlit (nth c (snd r) (L 0 0)).
Proof.
  intros Hi Hj. pose proof (proj1 (forallb_forall _ _) full_ok j ltac:(apply in_seq; lia)) as H. cbv beta in H. apply (proj1 (forallb_forall _ _)) with (x := i) in H; [|apply in_seq; lia].
  unfold red. fold (rfind (S i) (S j)). destruct (rfind (S i) (S j)) as [r|] eqn:F; [|discriminate]. exists r. split; [reflexivity|]. intros c Hc. split; [reflexivity|].
  unfold rfind in F. apply find_some in F. destruct F as [F _]. pose proof (proj1 (forallb_forall _ _) red_ok r F) as K. cbv beta in K. apply andb_true_iff in K as [K1 K2]. apply Nat.eqb_eq in K1.
  apply pos_ok. apply (proj1 (forallb_forall _ _) K2). apply nth_In. lia.
Qed.
Lemma red_pos c i j : (c < 4)%nat -> (i < j)%nat -> (j < 21)%nat -> 0 < red c (S i) (S j).
Proof. intros Hc Hi Hj. destruct (rfound i j Hi Hj) as (r & _ & H). destruct (H c Hc) as [E P]. now rewrite E. Qed.
Lemma up_max a b r s : up a r -> up b s -> up (Z.max a b) (Rmax r s).
Proof. intros [A B] [C D]. split; [apply Rle_trans with (1 := A), Rmax_l|]. apply Rmax_lub; [apply Rle_trans with (1 := B)|apply Rle_trans with (1 := D)]; apply fx_le; lia. Qed.
Lemma up_mx c i j : (c < 3)%nat -> (i < 21)%nat -> (j < 21)%nat -> up (mxU c i j) (mx c i j).
Proof.
  intros Hc Hi Hj. unfold mxU, mx. destruct (Nat.eqb_spec i j) as [E|E]; [exact up_1|].
  destruct (rfound (Nat.min i j) (Nat.max i j) ltac:(lia) ltac:(lia)) as (r & F & H). rewrite F. destruct (H c ltac:(lia)) as [E1 P1]. destruct (H (S c) ltac:(lia)) as [E2 P2]. rewrite E1, E2.
  apply up_mul; [apply pos_up; lra|]. apply up_max; [apply pos_up; lra|now apply up_inv].
Qed.

(* one pair of the sums *)
Lemma pair_le a b g bb be ga B : 0 <= a -> 0 <= b -> 0 < be -> 0 <= ga -> 0 <= B -> near g (be * ga * B) -> near bb (be ^ 2) ->
  0 <= 2 * a * b * g * (a + b) / (bb * a + b) <= (1 + 1 / 1000000000000) * (2 * (a * b * (ga * Rmax be (/ be) * B))).
Proof.
  intros Ha Hb Hbe Hga HB Hg Hbb. set (h := ga * B). assert (Hh : 0 <= h) by now apply Rmult_le_pos.
  replace (2 * a * b * g * (a + b) / (bb * a + b)) with (2 * (a * b) * (g * ((a + b) / (bb * a + b)))) by (unfold Rdiv; ring).
  replace (be * ga * B) with (be * h) in Hg by (unfold h; ring). replace (ga * Rmax be (/ be) * B) with (h * Rmax be (/ be)) by (unfold h; ring). clearbody h. clear HB Hga ga B.
  assert (P2 : 0 < be ^ 2) by now apply pow_lt. assert (Bg : 0 <= g <= (1 + 1 / 100000000000000) * (be * h)) by (unfold near in Hg; apply Rcomplements.Rabs_le_between in Hg; assert (0 <= be * h) by (apply Rmult_le_pos; lra); lra).
  assert (Bb : (1 - 1 / 100000000000000) * be ^ 2 <= bb) by (unfold near in Hbb; apply Rcomplements.Rabs_le_between in Hbb; lra).
  assert (Pb : 0 < bb) by lra. assert (ab : 0 <= a * b) by now apply Rmult_le_pos.
  destruct (Req_dec (bb * a + b) 0) as [Z|Z].
  { assert (bb * a = 0) by (assert (0 <= bb * a) by (apply Rmult_le_pos; lra); lra). assert (b = 0) by lra. subst b. rewrite !Rmult_0_r, !Rmult_0_l, Rmult_0_r, !Rmult_0_r. lra. }
  assert (D : 0 < bb * a + b) by (assert (0 <= bb * a) by (apply Rmult_le_pos; lra); lra).
  assert (F : 0 <= (a + b) / (bb * a + b) <= Rmax 1 (/ bb)).
  { split; [apply div0; lra|]. apply (Rmult_le_reg_r (bb * a + b)); [exact D|]. unfold Rdiv. rewrite Rmult_assoc, Rinv_l by lra. rewrite Rmult_1_r.
    pose proof (Rmax_l 1 (/ bb)) as M1. pose proof (Rmax_r 1 (/ bb)) as M2. set (M := Rmax 1 (/ bb)) in *. clearbody M. assert (1 <= M * bb) by (replace 1 with (/ bb * bb) by (field; lra); apply Rmult_le_compat_r; lra).
    assert (a <= M * bb * a) by (rewrite <- (Rmult_1_l a) at 1; apply Rmult_le_compat_r; lra). assert (b <= M * b) by (rewrite <- (Rmult_1_l b) at 1; apply Rmult_le_compat_r; lra). lra. }
  set (q := (a + b) / (bb * a + b)) in *. clearbody q.
  assert (K : be * Rmax 1 (/ bb) <= (1 + 2 / 100000000000000) * Rmax be (/ be)).
  { pose proof (Rmax_l be (/ be)) as M1. pose proof (Rmax_r be (/ be)) as M2. set (M := Rmax be (/ be)) in *. clearbody M.
    unfold Rmax at 1. destruct (Rle_dec 1 (/ bb)) as [C|C]; [|lra].
    assert (be * / bb <= (1 + 2 / 100000000000000) * / be); [|assert (0 < / be) by (now apply Rinv_0_lt_compat); lra].
    apply (Rmult_le_reg_r (bb * be)); [now apply Rmult_lt_0_compat|]. replace (be * / bb * (bb * be)) with (be ^ 2) by (field; lra). replace ((1 + 2 / 100000000000000) * / be * (bb * be)) with ((1 + 2 / 100000000000000) * bb) by (field; lra).
    nra. }
  assert (MM : 0 <= Rmax 1 (/ bb)) by (apply Rle_trans with 1; [lra|apply Rmax_l]).
  set (M := Rmax be (/ be)) in *. set (N := Rmax 1 (/ bb)) in *. clearbody M N. assert (gq : 0 <= g * q <= (1 + 1 / 100000000000000) * (be * h) * N).
  { split; [apply Rmult_le_pos; lra|]. apply Rmult_le_compat; lra. }
  assert (X : (1 + 1 / 100000000000000) * (be * h) * N <= (1 + 1 / 1000000000000) * (h * M)).
  { assert (h * (be * N) <= h * ((1 + 2 / 100000000000000) * M)) by (apply Rmult_le_compat_l; lra). assert (0 <= h * M) by (apply Rmult_le_pos; [lra|]; nra). lra. }
  assert (Y : 0 <= 2 * (a * b)) by lra. split; [apply Rmult_le_pos; lra|].
  replace ((1 + 1 / 1000000000000) * (2 * (a * b * (h * M)))) with (2 * (a * b) * ((1 + 1 / 1000000000000) * (h * M))) by ring. apply Rmult_le_compat_l; lra.
Qed.
