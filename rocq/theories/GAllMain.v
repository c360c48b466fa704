(* properties() of GERG-2008 in double precision after any history. *)
From Coq Require Import Reals ZArith List Bool Lra Lia.
From Coquelicot Require Import Coquelicot.
From Flocq Require Import Core BinarySingleNaN.
From Verif Require Import FArith Prelude Tab ArithB64 B64Lemmas ArithR SpecGerg SpecStd SpecAcc SpecAccG SpecAll SpecAllF SpecHistory GergTables GergModel GergPure GergRefine GergEval Api ApiSafe HistoryGerg SpecReal GergThermo DetailPure
  NewtonReal B64Err StdGergProof GAccEos GAccProof GAllFin.
Import ListNotations.
Local Open Scope R_scope.

Lemma nth22 (l : list b64) : length l = 22%nat -> map (fun j => nth j l B0) (seq 0 22) = l.
Proof. intros H. do 22 (destruct l as [|? l]; [discriminate H|]). destruct l; [reflexivity|discriminate H]. Qed.

Lemma gprops_run m l (s : @Gerg (ArithB64 m)) o (x : nat -> b64) : @gexec (ArithB64 m) New l = Some (s, o) ->
  separated (A := ArithB64 m) 1 (gasked (A := ArithB64 m) (l ++ [Properties (A := ArithB64 m)])) -> g_x s = map x (seq 0 22) ->
  let t := gread (A := ArithB64 m) PT s in let d := gread (A := ArithB64 m) PD s in
  let lB := @can_terms (ArithB64 m) gp_new (map x (seq 0 22)) t d in
  exists s', gstep (A := ArithB64 m) Properties s = Some (s', OVal (A := ArithB64 m) (@gqp (ArithB64 m) lB t d)) /\
    gread (A := ArithB64 m) PT s' = t /\ gread (A := ArithB64 m) PD s' = d /\
    forall f, match f with PT | PD | PP => False | _ => True end ->
      gread (A := ArithB64 m) f s' = @gfield (ArithB64 m) gp_new lB (@xf (ArithB64 m) (map x (seq 0 22))) t d f.
Proof.
  intros E HV X22. cbv zeta.
  destruct (@g_hinv (ArithB64 m) New l [Properties (A := ArithB64 m)] s o E HV) as (Hh & Hin & HL).
  specialize (Hin _ (or_introl eq_refl)).
  destruct (@HistoryGerg.props_hist (ArithB64 m) gp_new _ HV HL s Hh Hin) as (s' & E' & _ & _ & Hf).
  exists s'. cbv zeta in Hf. split. { cbn [gstep]. rewrite E', X22. reflexivity. }
  rewrite X22 in Hf. split; [exact (Hf PT)|]. split; [exact (Hf PD)|].
  intros f Pf. rewrite Hf. now rewrite gfield_ok.
Qed.
Lemma gprops_all : exists gv gt bt : nat -> nat -> R,
  (forall i j, (1 <= i <= j)%nat -> (j < 22)%nat ->
    near (gv i j) (v_red i j) /\ near (gt i j) (t_red i j) /\ near (bt i j) (b_red i j)) /\
  forall m, accurate m -> forall l (s : @Gerg (ArithB64 m)) o, @gexec (ArithB64 m) New l = Some (s, o) ->
  separated (A := ArithB64 m) 1 (gasked (A := ArithB64 m) (l ++ [Properties (A := ArithB64 m)])) ->
  let r j := bR (nth j (g_x s) B0) in let t := gread (A := ArithB64 m) PT s in let d := gread (A := ArithB64 m) PD s in
  (forall i, (1 <= i < 22)%nat -> fin (nth i (g_x s) B0) /\ (r i = 0 \/ bpow radix2 (-49) <= r i)) ->
  99 / 100 <= tot 21 (fun i => r (S i)) <= 101 / 100 -> fin t /\ 32 <= bR t <= 2048 ->
  fin d /\ bpow radix2 (-20) <= bR d -> bR d * red_volume r v_red <= 249 / 100 ->
  let size f := field_size f r (bR d * red_volume r gv) (red_temp r gt bt / bR t) (bR t) (bR d) in
  exists s' v, gstep (A := ArithB64 m) Properties s = Some (s', OVal (A := ArithB64 m) v) /\
    fin v /\ Rabs (bR v - gpres New r (bR t) (bR d)) <= 1 / 10000000000 * size PP /\
    (forall f, plain_field f -> let w := gread (A := ArithB64 m) f s' in
       fin w /\ Rabs (bR w - gprop New f r (bR t) (bR d)) <= 1 / 10000000000 * size f) /\
    let w := gread (A := ArithB64 m) PMM s' in let M := gprop New PMM r (bR t) (bR d) in
    fin w /\ Rabs (bR w - M) <= 1 / 100000000000000 * M.
Proof.
  exists (tb2 G_GVIJ), (tb2 G_GTIJ), (tb2 G_BTIJ). split.
  { intros i j Hi Hj. split; [now apply v_std|]. split; [now apply t_std|now apply b_std]. }
  intros m A l s o E HV r t d Hx Hs HT [Fd Hd] HD. cbv zeta. rewrite vred_std, tred_std.
  destruct (@g_hinv (ArithB64 m) New l [Properties (A := ArithB64 m)] s o E HV) as (_ & Hin & HL).
  specialize (Hin _ (or_introl eq_refl)). pose proof (HL _ _ Hin) as Lx. clear Hin HL.
  set (xs := fun j => nth j (g_x s) B0) in *. assert (X22 : g_x s = map xs (seq 0 22)) by (symmetry; apply nth22, Lx).
  destruct (gprops_run m l s o xs E HV X22) as (s' & E' & _ & _ & Hf).
  assert (HD' : bR d * vred r <= 5 / 2).
  { assert (0 <= bR d) as D0 by (eapply Rle_trans; [apply Rlt_le, bpow_gt_0|exact Hd]).
    pose proof (vred_le r (rg_ge0 xs Hx)) as G. apply Rmult_le_compat_l with (1 := D0) in G. lra. }
  assert (Hd2 : fin d /\ p2 (-20) <= bR d) by (now split).
  destruct (pvalue m A xs t d Hx Hs HT Hd2 HD') as [P1 P2].
  exists s'. eexists. split; [exact E'|].
  split; [exact P1|]. split; [exact P2|]. split.
  - intros f Pf. rewrite Hf by (destruct f; try contradiction Pf; exact I). exact (fields m A xs t d Hx Hs HT Hd2 HD' f Pf).
  - rewrite Hf by exact I. exact (mvalue m xs t d Hx Hs HT).
Qed.
