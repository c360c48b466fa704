(* Total closed forms of the DETAIL computations (proof artefacts: DetailRefine.v shows that the
   checked model of DetailModel.v never panics and computes exactly these). *)
From Coq Require Import ZArith List Bool.
From Verif Require Import FArith Prelude Tab Composition DetailTables DetailModel.
Import ListNotations.

(* simplification of field reads and updates *)
Ltac dsimp := cbn [d_dp_dd_save d_t d_p d_d d_z d_mm d_dp_dd d_d2p_dd2 d_d2p_dtd d_dp_dt d_u d_h d_s d_cv d_cp d_w
  d_g d_jt d_kappa d_x d_xold d_told d_ki25 d_ei25 d_bsnij2 d_bs d_kij5 d_uij5 d_gij5 d_k3 d_csn
  d_a0 d_ar d_tun d_n0i
  set_d_dp_dd_save set_d_t set_d_p set_d_d set_d_z set_d_mm set_d_dp_dd set_d_d2p_dd2
  set_d_d2p_dtd set_d_dp_dt set_d_u set_d_h set_d_s set_d_cv set_d_cp set_d_w set_d_g set_d_jt
  set_d_kappa set_d_x set_d_xold set_d_told set_d_ki25 set_d_ei25 set_d_bsnij2 set_d_bs set_d_kij5
  set_d_uij5 set_d_gij5 set_d_k3 set_d_csn set_d_a0 set_d_ar set_d_tun set_d_n0i].
Ltac dsimp_in H := cbn [d_dp_dd_save d_t d_p d_d d_z d_mm d_dp_dd d_d2p_dd2 d_d2p_dtd d_dp_dt d_u d_h d_s d_cv d_cp d_w
  d_g d_jt d_kappa d_x d_xold d_told d_ki25 d_ei25 d_bsnij2 d_bs d_kij5 d_uij5 d_gij5 d_k3 d_csn
  d_a0 d_ar d_tun d_n0i
  set_d_dp_dd_save set_d_t set_d_p set_d_d set_d_z set_d_mm set_d_dp_dd set_d_d2p_dd2
  set_d_d2p_dtd set_d_dp_dt set_d_u set_d_h set_d_s set_d_cv set_d_cp set_d_w set_d_g set_d_jt
  set_d_kappa set_d_x set_d_xold set_d_told set_d_ki25 set_d_ei25 set_d_bsnij2 set_d_bs set_d_kij5
  set_d_uij5 set_d_gij5 set_d_k3 set_d_csn set_d_a0 set_d_ar set_d_tun set_d_n0i] in H.
(* full unfolding of field updates (for an object in constructor form) *)
Ltac dunf := cbv beta iota zeta delta [d_dp_dd_save d_t d_p d_d d_z d_mm d_dp_dd d_d2p_dd2 d_d2p_dtd d_dp_dt d_u d_h d_s d_cv d_cp d_w
  d_g d_jt d_kappa d_x d_xold d_told d_ki25 d_ei25 d_bsnij2 d_bs d_kij5 d_uij5 d_gij5 d_k3 d_csn
  d_a0 d_ar d_tun d_n0i
  set_d_dp_dd_save set_d_t set_d_p set_d_d set_d_z set_d_mm set_d_dp_dd set_d_d2p_dd2
  set_d_d2p_dtd set_d_dp_dt set_d_u set_d_h set_d_s set_d_cv set_d_cp set_d_w set_d_g set_d_jt
  set_d_kappa set_d_x set_d_xold set_d_told set_d_ki25 set_d_ei25 set_d_bsnij2 set_d_bs set_d_kij5
  set_d_uij5 set_d_gij5 set_d_k3 set_d_csn set_d_a0 set_d_ar set_d_tun set_d_n0i].

Section Pure.
Context {A : Arith}.
Local Open Scope bool_scope.
Local Open Scope F_scope.

(* table entries *)
Definition lv (t : list lit) (i : nat) : F := flit (nth i t (L 0 0)).
Definition lv2 (t : list (list lit)) (i j : nat) : F := flit (nth j (nth i t []) (L 0 0)).
(* the last assignment to cell (i, j) in a list of assignments *)
Definition alookup {T} (l : list ((nat * nat) * T)) (i j : nat) : option T :=
  fold_left (fun o e => if Nat.eqb i (fst (fst e)) && Nat.eqb j (snd (fst e))
                        then Some (snd e) else o) l None.
Definition aval (l : list ((nat * nat) * lit)) (i j : nat) (d : F) : F :=
  match alookup l i j with Some v => flit v | None => d end.

(* the constant part of the object, as set by setup *)
Definition Dki25 i := fpowf (lv D_KI i) (flit (L 25 (-1))).
Definition Dei25 i := fpowf (lv D_EI i) (flit (L 25 (-1))).
Definition fl (t : list nat) n : bool := Nat.eqb (nth n t 0%nat) 1.
Definition Dbsnij (i j n : nat) : F :=
  let b := f1 in
  let b := if fl D_GN n then lv2 D_GIJ i j * (lv D_GI i + lv D_GI j) / f2 else b in
  let b := if fl D_QN n then b * lv D_QI i * lv D_QI j else b in
  let b := if fl D_FN n then b * lv D_FI i * lv D_FI j else b in
  let b := if fl D_SN n then b * lv D_SI i * lv D_SI j else b in
  if fl D_WN n then b * lv D_WI i * lv D_WI j else b.
Definition Dbsn2 (i j n : nat) : F :=
  lv D_AN n * fpowf (lv2 D_EIJ i j * fsqrt (lv D_EI i * lv D_EI j)) (lv D_UN n)
  * fpowf (lv D_KI i * lv D_KI j) (flit (L 15 (-1))) * Dbsnij i j n.
Definition Dkij5 i j := (fpowi (lv2 D_KIJ i j) 5 - f1) * Dki25 i * Dki25 j.
Definition Duij5 i j := (fpowi (lv2 D_UIJ i j) 5 - f1) * Dei25 i * Dei25 j.
Definition Dgij5 i j := (lv2 D_GIJ i j - f1) * (lv D_GI i + lv D_GI j) / f2.
Definition Dn0i i j : F :=
  let v := aval D_setup_n0i i j f0 in
  if Nat.eqb j 2 then v - f1 else if Nat.eqb j 0 then v - fln D0 else v.

(* The parameter arrays an object carries; dp_new are those written by setup, dp_zero those of
   an object made by Default (no setup). *)
End Pure.
Class DParams {A : Arith} := {
  q_ki25 : nat -> F; q_ei25 : nat -> F; q_bsn2 : nat -> nat -> nat -> F;
  q_kij5 : nat -> nat -> F; q_uij5 : nat -> nat -> F; q_gij5 : nat -> nat -> F;
  q_n0i : nat -> nat -> F }.
Definition dp_new {A : Arith} : DParams :=
  Build_DParams A Dki25 Dei25 Dbsn2 Dkij5 Duij5 Dgij5 Dn0i.
Definition dp_zero {A : Arith} : DParams :=
  Build_DParams A (fun _ => f0) (fun _ => f0) (fun _ _ _ => f0) (fun _ _ => f0) (fun _ _ => f0)
    (fun _ _ => f0) (fun _ _ => f0).

Section Pure2.
Context {A : Arith} {P : DParams}.
Local Open Scope bool_scope.
Local Open Scope F_scope.

(* mixing sums; X is the vector of mole fractions *)
Definition pos (x : F) : bool := x >? f0.
Definition accp (X : nat -> F) (g : nat -> F) (a : F) : F :=
  fold_left (fun a i => if pos (X i) then a + g i else a) (seq 0 21) a.
Definition accrow (X : nat -> F) (g : nat -> F) (i : nat) (a : F) : F :=
  fold_left (fun a j => if pos (X j) then a + f2 * X i * X j * g j else a)
            (seq (S i) (21 - S i)) a.
Definition accpp (X : nat -> F) (g : nat -> nat -> F) (a : F) : F :=
  fold_left (fun a i => if pos (X i) then accrow X (g i) i a else a) (seq 0 21) a.
Definition pK3 X :=
  fpowf (accpp X q_kij5 (fpowi (accp X (fun i => X i * q_ki25 i) f0) 2)) (flit (L 6 (-1))).
Definition pU X :=
  fpowf (accpp X q_uij5 (fpowi (accp X (fun i => X i * q_ei25 i) f0) 2)) (flit (L 2 (-1))).
Definition pG X := accpp X q_gij5 (accp X (fun i => X i * lv D_GI i) f0).
Definition pQ X := accp X (fun i => X i * lv D_QI i) f0.
Definition pF X := accp X (fun i => fpowi (X i) 2 * lv D_FI i) f0.
Definition pBs X n :=
  accpp X (fun i j => q_bsn2 i j n) (accp X (fun i => fpowi (X i) 2 * q_bsn2 i i n) f0).
Definition csn_of (u g q f : F) (n : nat) : F :=
  let q2 := fpowi q 2 in
  let c := lv D_AN n * fpowf u (lv D_UN n) in
  let c := if fl D_GN n then c * g else c in
  let c := if fl D_QN n then c * q2 else c in
  if fl D_FN n then c * f else c.
Definition pCsn X n := if Nat.leb 12 n then csn_of (pU X) (pG X) (pQ X) (pF X) n else f0.

(* cached composition and temperature terms; None is the state of a new object *)
Definition xf (x : list F) (i : nat) : F := nth i x f0.
Definition cK3 (cx : option (list F)) := match cx with Some x => pK3 (xf x) | None => f0 end.
Definition cBs cx n := match cx with Some x => pBs (xf x) n | None => f0 end.
Definition cCsn cx n := match cx with Some x => pCsn (xf x) n | None => f0 end.
Definition cTun (ct : option F) n :=
  match ct with Some t => fpowf t (- lv D_UN n) | None => f0 end.

(* change detection *)
Definition differs (a b : F) : bool := fabs (a - b) >? flit (L 1 (-7)).
Definition x_diff (x xo : list F) : bool :=
  existsb (fun i => differs (xf x i) (xf xo i)) (seq 0 21).
Definition new_cx (x xo : list F) (cx : option (list F)) : option (list F) :=
  if x_diff x xo then Some x else cx.
Definition new_ct (t to : F) (ct : option F) : option F := if differs t to then Some t else ct.

(* the residual Helmholtz energy terms *)
Record cache := mkCache { ca_k3 : F; ca_bs : nat -> F; ca_csn : nat -> F; ca_tun : nat -> F }.
Definition cache_of (cx : option (list F)) (ct : option F) : cache :=
  mkCache (cK3 cx) (cBs cx) (cCsn cx) (cTun ct).

Fixpoint fpw (x : F) (n : nat) : F := match n with O => f1 | S n => x * fpw x n end.
Definition bn n := nth n D_BN 0%nat.
Definition kn n := nth n D_KN 0%nat.
Definition pexpn (dred : F) (n : nat) : F :=
  match n with O => f1 | _ => fexp (- fpw dred n) end.
Definition tsum0 (k : cache) (dred : F) n : F :=
  if Nat.leb 12 n then ca_csn k n * fpw dred (bn n) * ca_tun k n * pexpn dred (kn n) else f0.
Definition tsumb (k : cache) (dred d : F) n : F :=
  if Nat.leb n 17 then
    (if Nat.leb 12 n then ca_bs k n * d + (- ca_csn k n) * dred else ca_bs k n * d) * ca_tun k n
  else f0.
Definition bkd (dred : F) n := fofnat (bn n) - fofnat (kn n) * fpw dred (kn n).
Definition ckd (dred : F) n := fofnat (kn n) * fofnat (kn n) * fpw dred (kn n).
Definition cd1 dred n := if Nat.leb 12 n then bkd dred n else f0.
Definition cd2 dred n :=
  if Nat.leb 12 n then bkd dred n * (bkd dred n - f1) - ckd dred n else f0.
Definition cd3 dred n :=
  if Nat.leb 12 n then (bkd dred n - f2) * cd2 dred n
                       + ckd dred n * (f1 - fofnat (kn n) - f2 * bkd dred n) else f0.
Definition ct1 n := RDETAIL * (lv D_UN n - f1).
Definition ct2 n := ct1 n * lv D_UN n.
Definition ts0 k dred d n := tsum0 k dred n + tsumb k dred d n.
Definition ts1 k dred d n := tsum0 k dred n * cd1 dred n + tsumb k dred d n.
Definition ts2 k dred n := tsum0 k dred n * cd2 dred n.
Definition ts3 k dred n := tsum0 k dred n * cd3 dred n.
Definition facc (g : nat -> F) : F := fold_left (fun a n => a + g n) (seq 0 58) f0.
Definition fdec (g : nat -> F) : F := fold_left (fun a n => a - g n) (seq 0 58) f0.

Section At.
Variables (k : cache) (t d : F).
Definition dr := ca_k3 k * d.
Definition ar00 := facc (fun n => RDETAIL * t * ts0 k dr d n).
Definition ar01 := facc (fun n => RDETAIL * t * ts1 k dr d n).
Definition ar02 := facc (fun n => RDETAIL * t * ts2 k dr n).
Definition ar03 := facc (fun n => RDETAIL * t * ts3 k dr n).
Definition ar10 := fdec (fun n => ct1 n * ts0 k dr d n).
Definition ar11 := fdec (fun n => ct1 n * ts1 k dr d n).
Definition ar20 := facc (fun n => ct2 n * ts0 k dr d n).
End At.

Definition mk_ar (a00 a01 a02 a03 a10 a11 a12 a20 : F) : list (list F) :=
  [[a00; a01; a02; a03]; [a10; a11; a12; f0]; [a20; f0; f0; f0]; [f0; f0; f0; f0]].
Definition ar_of (itau : Z) (k : cache) (t d : F) : list (list F) :=
  if (0 <? itau)%Z
  then mk_ar (ar00 k t d) (ar01 k t d) (ar02 k t d) (ar03 k t d) (ar10 k d) (ar11 k d) f0
             (ar20 k d)
  else mk_ar (ar00 k t d) (ar01 k t d) (ar02 k t d) (ar03 k t d) f0 f0 f0 f0.

(* pressure, compressibility factor and dp/dd as the pressure method computes them *)
Definition pz k t d := f1 + ar01 k t d / RDETAIL / t.
Definition pp k t d := d * RDETAIL * t * pz k t d.
Definition pdpdd k t d := RDETAIL * t + f2 * ar01 k t d + ar02 k t d.

(* the ideal-gas part *)
Definition hyp_step (t : F) (i j : nat) (st : F * F * F) : F * F * F :=
  let '(h0, h1, h2) := st in
  let th := lv2 D_TH0I i j in
  if th >? f0 then
    let th0t := th / t in
    let ep := fexp th0t in
    let em := f1 / ep in
    let hsn := (ep - em) / f2 in
    let hcn := (ep + em) / f2 in
    let n := q_n0i i j in
    if (Nat.eqb j 3 || Nat.eqb j 5)%bool then
      let loghyp := fln (fabs hsn) in
      (h0 + n * loghyp, h1 + n * (loghyp - th0t * hcn / hsn), h2 + n * fpowi (th0t / hsn) 2)
    else
      let loghyp := fln (fabs hcn) in
      (h0 + (- n) * loghyp, h1 + (- n) * (loghyp - th0t * hsn / hcn),
       h2 + n * fpowi (th0t / hcn) 2)
  else (h0, h1, h2).
Definition phyp t i := fold_left (fun st j => hyp_step t i j st) (seq 3 4) (f0, f0, f0).
Definition plogd (d : F) : F := if d >? EPSILON then fln d else fln EPSILON.
Definition a0_step (X : nat -> F) (t d : F) (i : nat) (st : F * F * F) : F * F * F :=
  let '(a0, a1, a2) := st in
  if pos (X i) then
    let logxd := plogd d + fln (X i) in
    let '(h0, h1, h2) := phyp t i in
    (a0 + X i * (logxd + q_n0i i 0 + q_n0i i 1 / t - q_n0i i 2 * fln t + h0),
     a1 + X i * (logxd + q_n0i i 0 - q_n0i i 2 * (f1 + fln t) + h1),
     a2 + (- X i) * (q_n0i i 2 + h2))
  else (a0, a1, a2).
Definition pa0sum X t d := fold_left (fun st i => a0_step X t d i st) (seq 0 21) (f0, f0, f0).
Definition pa0 X t d : list F :=
  let '(a0, a1, a2) := pa0sum X t d in [a0 * RDETAIL * t; a1 * RDETAIL; a2 * RDETAIL].

Definition pmm (X : nat -> F) : F :=
  fold_left (fun a i => a + X i * lv D_MMI i) (seq 0 21) f0.

End Pure2.
