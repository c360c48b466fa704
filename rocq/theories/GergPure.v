(* Total closed forms of the GERG-2008 computations (proof artefacts: GergRefine.v and GergEval.v
   show that the checked model of GergModel.v never panics and computes exactly these). *)
From Coq Require Import ZArith List Bool.
From Verif Require Import FArith Prelude Tab Composition DetailModel DetailPure GergTables GergModel.
Import ListNotations.

(* simplification of field reads and updates *)
Ltac gsimp := cbn [g_t g_p g_d g_z g_mm g_dp_dd g_d2p_dd2 g_d2p_dtd g_dp_dt g_u g_h g_s g_cv g_cp g_w g_g
  g_jt g_kappa g_x g_drold g_trold g_told g_trold2 g_xold g_a g_a0 g_ar g_dpddsave g_taup
  g_taupijk g_coik g_doik g_toik g_dijk g_tijk g_cijk g_eijk g_gijk g_nijk g_n0i g_bvij
  g_gvij g_btij g_gtij set_g_t set_g_p set_g_d set_g_z set_g_mm set_g_dp_dd set_g_d2p_dd2
  set_g_d2p_dtd set_g_dp_dt set_g_u set_g_h set_g_s set_g_cv set_g_cp set_g_w set_g_g
  set_g_jt set_g_kappa set_g_x set_g_drold set_g_trold set_g_told set_g_trold2 set_g_xold
  set_g_a set_g_a0 set_g_ar set_g_dpddsave set_g_taup set_g_taupijk set_g_coik set_g_doik
  set_g_toik set_g_dijk set_g_tijk set_g_cijk set_g_eijk set_g_gijk set_g_nijk set_g_n0i
  set_g_bvij set_g_gvij set_g_btij set_g_gtij].
Ltac gsimp_in H := cbn [g_t g_p g_d g_z g_mm g_dp_dd g_d2p_dd2 g_d2p_dtd g_dp_dt g_u g_h g_s g_cv g_cp g_w g_g
  g_jt g_kappa g_x g_drold g_trold g_told g_trold2 g_xold g_a g_a0 g_ar g_dpddsave g_taup
  g_taupijk g_coik g_doik g_toik g_dijk g_tijk g_cijk g_eijk g_gijk g_nijk g_n0i g_bvij
  g_gvij g_btij g_gtij set_g_t set_g_p set_g_d set_g_z set_g_mm set_g_dp_dd set_g_d2p_dd2
  set_g_d2p_dtd set_g_dp_dt set_g_u set_g_h set_g_s set_g_cv set_g_cp set_g_w set_g_g
  set_g_jt set_g_kappa set_g_x set_g_drold set_g_trold set_g_told set_g_trold2 set_g_xold
  set_g_a set_g_a0 set_g_ar set_g_dpddsave set_g_taup set_g_taupijk set_g_coik set_g_doik
  set_g_toik set_g_dijk set_g_tijk set_g_cijk set_g_eijk set_g_gijk set_g_nijk set_g_n0i
  set_g_bvij set_g_gvij set_g_btij set_g_gtij] in H.
Ltac gunf := cbv beta iota zeta delta [g_t g_p g_d g_z g_mm g_dp_dd g_d2p_dd2 g_d2p_dtd g_dp_dt g_u g_h g_s g_cv g_cp g_w g_g
  g_jt g_kappa g_x g_drold g_trold g_told g_trold2 g_xold g_a g_a0 g_ar g_dpddsave g_taup
  g_taupijk g_coik g_doik g_toik g_dijk g_tijk g_cijk g_eijk g_gijk g_nijk g_n0i g_bvij
  g_gvij g_btij g_gtij set_g_t set_g_p set_g_d set_g_z set_g_mm set_g_dp_dd set_g_d2p_dd2
  set_g_d2p_dtd set_g_dp_dt set_g_u set_g_h set_g_s set_g_cv set_g_cp set_g_w set_g_g
  set_g_jt set_g_kappa set_g_x set_g_drold set_g_trold set_g_told set_g_trold2 set_g_xold
  set_g_a set_g_a0 set_g_ar set_g_dpddsave set_g_taup set_g_taupijk set_g_coik set_g_doik
  set_g_toik set_g_dijk set_g_tijk set_g_cijk set_g_eijk set_g_gijk set_g_nijk set_g_n0i
  set_g_bvij set_g_gvij set_g_btij set_g_gtij].

(* The usize exponent tables as setup leaves them (evaluated from the assignments). *)
Definition zeros (r c : nat) : list (list nat) := repeat (repeat 0%nat c) r.
Definition from_opt {T} (d : T) (o : option T) : T := match o with Some v => v | None => d end.
Definition G_COIK : list (list nat) := Eval vm_compute in
  from_opt [] (setup_exps (fun n => n) G_setup_coik_all G_setup_coik_long
                 (assign2n G_setup_coik) (zeros 22 25)).
Definition G_DOIK : list (list nat) := Eval vm_compute in
  from_opt [] (setup_exps (fun n => n) G_setup_doik_all G_setup_doik_long
                 (assign2n G_setup_doik) (zeros 22 25)).
Definition G_DIJK : list (list nat) := Eval vm_compute in
  from_opt [] (assign2n G_setup_dijk (zeros 13 13)).
(* assignments of literals, before conversion to f64 *)
Definition assignL (l : list ((nat * nat) * lit)) (a : list (list lit)) :=
  fold_left (fun o e => a <- o ;; upd2 a (fst (fst e)) (snd (fst e)) (snd e)) l (Some a).
Definition G_TOIK : list (list lit) := Eval vm_compute in
  from_opt [] (setup_exps (fun n => n) G_setup_toik_all G_setup_toik_long
                 (assignL G_setup_toik) (repeat (repeat (L 0 0) 25) 22)).
Definition nv2 (t : list (list nat)) (i j : nat) : nat := nth j (nth i t []) 0%nat.
Definition kpol i := nth i G_KPOL 0%nat.
Definition kexp i := nth i G_KEXP 0%nat.
Definition kpolij m := nth m G_KPOLIJ 0%nat.
Definition kexpij m := nth m G_KEXPIJ 0%nat.
Definition mnumb i j := nv2 G_MNUMB i j.

Section Pure.
Context {A : Arith}.
Local Open Scope bool_scope.
Local Open Scope F_scope.

(* the constant part of the object, as set by setup *)
Definition Gvc3 i := f1 / fpowf (lv G_DC i) (f1 / f3) / f2.
Definition Gtc2 i := fsqrt (lv G_TC i).
Definition inred (i j : nat) : bool := Nat.leb 1 i && Nat.leb i j.
Definition Gbvij i j :=
  let v := aval G_setup_bvij i j f0 in
  if inred i j then if Nat.eqb i j then f1 else fpowi v 2 else v.
Definition Gbtij i j :=
  let v := aval G_setup_btij i j f0 in
  if inred i j then if Nat.eqb i j then f1 else fpowi v 2 else v.
Definition Ggvij i j :=
  let v := aval G_setup_gvij i j f0 in
  if inred i j then
    if Nat.eqb i j then f1 / lv G_DC i
    else v * aval G_setup_bvij i j f0 * fpowi (Gvc3 i + Gvc3 j) 3
  else v.
Definition Ggtij i j :=
  let v := aval G_setup_gtij i j f0 in
  if inred i j then
    if Nat.eqb i j then lv G_TC i
    else v * aval G_setup_btij i j f0 * Gtc2 i * Gtc2 j
  else v.
Definition ingec (i j : nat) : bool := Nat.leb 1 i && Nat.leb 1 j.
Definition Gcijk i j :=
  let c := aval G_setup_cijk i j f0 in if ingec i j then - c else c.
Definition Geijk i j :=
  let c := aval G_setup_cijk i j f0 in
  let e := aval G_setup_eijk i j f0 in
  if ingec i j then f2 * c * e - aval G_setup_bijk i j f0 else e.
Definition Ggijk i j :=
  let c := aval G_setup_cijk i j f0 in
  let e := aval G_setup_eijk i j f0 in
  let g := aval G_setup_gijk i j f0 in
  if ingec i j then (- c) * fpowi e 2 + aval G_setup_bijk i j f0 * g else g.
Definition Gn0i (i j : nat) : F :=
  let v := aval G_setup_n0i i j f0 in
  if Nat.eqb i 0 then v else
  match j with
  | 0%nat => v
  | 1%nat => v * RSR - fln GD0
  | 2%nat => (v + GT0) * RSR - GT0
  | 3%nat => (v - f1) * RSR
  | _ => v * RSR
  end.
End Pure.

(* The parameter arrays an object carries; gp_new are those written by setup, gp_zero those of
   an object made by Default (no setup). *)
Class GParams {A : Arith} := {
  q_coik : nat -> nat -> nat; q_doik : nat -> nat -> nat; q_toik : nat -> nat -> F;
  q_dijk : nat -> nat -> nat; q_tijk : nat -> nat -> F; q_cijk : nat -> nat -> F;
  q_eijk : nat -> nat -> F; q_gijk : nat -> nat -> F; q_nijk : nat -> nat -> F;
  gq_n0i : nat -> nat -> F; q_bvij : nat -> nat -> F;
  q_coik_lt : forall i k, q_coik i k < 8;
  q_doik_lt : forall i k, q_doik i k < 8;
  q_dijk_lt : forall i k, q_dijk i k < 8 }.

Lemma nv2_lt t b : forallb (forallb (fun n => Nat.ltb n b)) t = true -> 0 < b ->
  forall i j, nv2 t i j < b.
Proof.
  intros H Hb i j. unfold nv2. rewrite forallb_forall in H.
  destruct (Nat.lt_ge_cases i (length t)) as [Hi|Hi].
  - specialize (H _ (nth_In _ [] Hi)). rewrite forallb_forall in H.
    destruct (Nat.lt_ge_cases j (length (nth i t []))) as [Hj|Hj].
    + apply Nat.ltb_lt. apply H. now apply nth_In.
    + now rewrite nth_overflow.
  - rewrite (nth_overflow t) by assumption. now destruct j.
Qed.
Lemma lt08 : 0 < 8. Proof. repeat constructor. Qed.

Definition gp_new {A : Arith} : GParams :=
  Build_GParams A (nv2 G_COIK) (nv2 G_DOIK) (lv2 G_TOIK) (nv2 G_DIJK)
    (fun i j => aval G_setup_tijk i j f0) Gcijk Geijk Ggijk
    (fun i j => aval G_setup_nijk i j f0) Gn0i Gbvij
    (nv2_lt G_COIK 8 eq_refl lt08) (nv2_lt G_DOIK 8 eq_refl lt08) (nv2_lt G_DIJK 8 eq_refl lt08).
Definition gp_zero {A : Arith} : GParams :=
  Build_GParams A (fun _ _ => 0) (fun _ _ => 0) (fun _ _ => f0) (fun _ _ => 0) (fun _ _ => f0)
    (fun _ _ => f0) (fun _ _ => f0) (fun _ _ => f0) (fun _ _ => f0) (fun _ _ => f0)
    (fun _ _ => f0) (fun _ _ => lt08) (fun _ _ => lt08) (fun _ _ => lt08).

Section Pure2.
Context {A : Arith} {P : GParams}.
Local Open Scope bool_scope.
Local Open Scope F_scope.

Definition act (x : F) : bool := x >? GEPSILON.

(* reducing functions *)
Definition rstep (X : nat -> F) (i j : nat) (st : F * F * F) : F * F * F :=
  let '(vr, tr, f) := st in
  if act (X j) then
    let xij := f * (X i * X j) * (X i + X j) in
    (vr + xij * lv2 G_GVIJ i j / (q_bvij i j * X i + X j),
     tr + xij * lv2 G_GTIJ i j / (lv2 G_BTIJ i j * X i + X j), f2)
  else st.
Definition rrow (X : nat -> F) (i : nat) (st : F * F) : F * F :=
  fst (fold_left (fun st j => rstep X i j st) (seq i (22 - i)) (st, f1)).
Definition gred (X : nat -> F) : F * F :=
  fold_left (fun st i => if act (X i) then rrow X i st else st) (seq 1 21) (f0, f0).
Definition gdr X := let vr := fst (gred X) in if vr >? GEPSILON then f1 / vr else f0.
Definition gtr X := snd (gred X).

(* powers of tau *)
Definition ntaup (X : nat -> F) (lntau : F) (TP : nat -> nat -> F) (i k : nat) : F :=
  if Nat.leb 1 i && act (X i) then
    if short_form i then
      if Nat.leb 1 k && Nat.ltb k 13 then lv2 G_NOIK i k * fexp (q_toik 5 k * lntau) else TP i k
    else if Nat.leb 1 k && Nat.leb k (kpol i + kexp i)
         then lv2 G_NOIK i k * fexp (q_toik i k * lntau) else TP i k
  else TP i k.
Definition actrow (X : nat -> F) (m i n : nat) : bool :=
  existsb (fun j => act (X j) && Nat.eqb (mnumb i j) m) (seq (i + 1) n).
Definition actm (X : nat -> F) (m n : nat) : bool :=
  existsb (fun i => act (X i) && actrow X m i (21 - i)) (seq 1 n).
Definition ntm (X : nat -> F) (lntau : F) (TM : nat -> nat -> F) (m k : nat) : F :=
  if Nat.ltb 0 m && actm X m 21 && Nat.leb 1 k && Nat.leb k (kpolij m)
  then q_nijk m k * fexp (q_tijk m k * lntau) else TM m k.

(* powers of delta *)
Fixpoint gdelp (del : F) (k : nat) : F :=
  match k with
  | O => f0
  | S O => del
  | S k' => gdelp del k' * del
  end.
Definition gexpd (del : F) (k : nat) : F :=
  match k with O => f0 | _ => fexp (- gdelp del k) end.

(* What one term adds to the entries of ar; the entries are numbered
   0: [0][0], 1: [0][1], 2: [0][2], 3: [0][3], 4: [1][0], 5: [1][1], 6: [1][2], 7: [2][0]. *)
Definition pol_c (ndt dd tt : F) (e : nat) : F :=
  match e with
  | 0%nat => ndt | 1%nat => ndt * dd | 2%nat => ndt * dd * (dd - f1)
  | 3%nat => ndt * dd * (dd - f1) * (dd - f2)
  | 4%nat => ndt * tt | 5%nat => ndt * tt * dd | 6%nat => ndt * tt * dd * (dd - f1)
  | _ => ndt * tt * (tt - f1)
  end.
Definition exp_c (ndt dd tt cc delc : F) (e : nat) : F :=
  let ex := cc * delc in
  let ex2 := dd - ex in
  let ex3 := ex2 * (ex2 - f1) in
  match e with
  | 0%nat => ndt | 1%nat => ndt * ex2 | 2%nat => ndt * (ex3 - cc * ex)
  | 3%nat => ndt * (ex3 * (ex2 - f2) - ex * (f3 * ex2 - f3 + cc) * cc)
  | 4%nat => ndt * tt | 5%nat => ndt * tt * ex2 | 6%nat => ndt * tt * (ex3 - cc * ex)
  | _ => ndt * tt * (tt - f1)
  end.
Definition mexp_c (ndt dd tt cij0 eij0 : F) (e : nat) : F :=
  let ex := dd + f2 * cij0 + eij0 in
  let ex2 := ex * ex - dd + f2 * cij0 in
  match e with
  | 0%nat => ndt | 1%nat => ndt * ex | 2%nat => ndt * ex2
  | 3%nat => ndt * (ex * (ex2 - f2 * (dd - f2 * cij0)) + f2 * dd)
  | 4%nat => ndt * tt | 5%nat => ndt * tt * ex | 6%nat => ndt * tt * ex2
  | _ => ndt * tt * (tt - f1)
  end.

Definition pterm X del (TP : nat -> nat -> F) i k : nat -> F :=
  pol_c (X i * gdelp del (q_doik i k) * TP i k) (fofnat (q_doik i k)) (q_toik i k).
Definition eterm X del (TP : nat -> nat -> F) i k : nat -> F :=
  exp_c (X i * gdelp del (q_doik i k) * TP i k * gexpd del (q_coik i k))
    (fofnat (q_doik i k)) (q_toik i k) (fofnat (q_coik i k)) (gdelp del (q_coik i k)).
Definition pure_terms X del TP i : list (nat -> F) :=
  if act (X i) then map (pterm X del TP i) (seq 1 (kpol i))
                    ++ map (eterm X del TP i) (seq (1 + kpol i) (kexp i))
  else [].
Definition mpterm X del (TM : nat -> nat -> F) i j m k : nat -> F :=
  pol_c (X i * X j * lv2 G_FIJ i j * gdelp del (q_dijk m k) * TM m k) (fofnat (q_dijk m k))
    (q_tijk m k).
Definition meterm X del lntau i j m k : nat -> F :=
  let cij0 := q_cijk m k * gdelp del 2 in
  let eij0 := q_eijk m k * del in
  mexp_c (X i * X j * lv2 G_FIJ i j * q_nijk m k * gdelp del (q_dijk m k)
          * fexp (cij0 + eij0 + q_gijk m k + q_tijk m k * lntau))
    (fofnat (q_dijk m k)) (q_tijk m k) cij0 eij0.
Definition mix_terms X del lntau TM i j : list (nat -> F) :=
  if act (X j) then
    let m := mnumb i j in
    if Nat.ltb 0 m then map (mpterm X del TM i j m) (seq 1 (kpolij m))
                        ++ map (meterm X del lntau i j m) (seq (1 + kpolij m) (kexpij m))
    else []
  else [].
Definition mixrow X del lntau TM i : list (nat -> F) :=
  if act (X i) then flat_map (mix_terms X del lntau TM i) (seq (i + 1) (21 - i)) else [].
Definition gterms X del lntau TP TM : list (nat -> F) :=
  flat_map (pure_terms X del TP) (seq 1 21) ++ flat_map (mixrow X del lntau TM) (seq 1 20).

Definition arS (l : list (nat -> F)) (e : nat) : F := fold_left (fun a c => a + c e) l f0.
Definition arT (itau : Z) (l : list (nat -> F)) : list (list F) :=
  if (0 <? itau)%Z
  then mk_ar (arS l 0) (arS l 1) (arS l 2) (arS l 3) (arS l 4) (arS l 5) (arS l 6) (arS l 7)
  else mk_ar f0 (arS l 1) (arS l 2) f0 f0 f0 f0 f0.

(* change detection (slots 1..21) *)
Definition gx_diff (x xo : list F) : bool :=
  existsb (fun i => differs (xf x i) (xf xo i)) (seq 1 21).

(* ideal-gas part *)
Definition ghyp_step (t : F) (i j : nat) (st : F * F * F) : F * F * F :=
  let '(h0, h1, h2) := st in
  let th := lv2 G_TH0I i j in
  if th >? GEPSILON then
    let th0t := th / t in
    let ep := fexp th0t in
    let em := f1 / ep in
    let hsn := (ep - em) / f2 in
    let hcn := (ep + em) / f2 in
    let n := gq_n0i i j in
    if (Nat.eqb j 4 || Nat.eqb j 6)%bool then
      let loghyp := fln (fabs hsn) in
      (h0 + n * loghyp, h1 + n * th0t * hcn / hsn, h2 + n * (th0t / hsn) * (th0t / hsn))
    else
      let loghyp := fln (fabs hcn) in
      (h0 - n * loghyp, h1 - n * th0t * hsn / hcn, h2 + n * (th0t / hcn) * (th0t / hcn))
  else (h0, h1, h2).
Definition ghyp t i := fold_left (fun st j => ghyp_step t i j st) (seq 4 4) (f0, f0, f0).
Definition glogd (d : F) : F := if d >? GEPSILON then fln d else fln GEPSILON.
Definition ga0_step (X : nat -> F) (t d : F) (i : nat) (st : F * F * F) : F * F * F :=
  let '(a0, a1, a2) := st in
  if act (X i) then
    let logxd := glogd d + fln (X i) in
    let '(h0, h1, h2) := ghyp t i in
    (a0 + X i * (logxd + gq_n0i i 1 + gq_n0i i 2 / t - gq_n0i i 3 * fln t + h0),
     a1 + X i * (gq_n0i i 3 + gq_n0i i 2 / t + h1),
     a2 + (- X i) * (gq_n0i i 3 + h2))
  else (a0, a1, a2).
Definition ga0sum X t d := fold_left (fun st i => ga0_step X t d i st) (seq 1 21) (f0, f0, f0).
Definition ga0 X t d : list F := let '(a0, a1, a2) := ga0sum X t d in [a0; a1; a2].

Definition gmm (X : nat -> F) : F :=
  fold_left (fun a i => a + X i * lv G_MMI_GERG i) (seq 1 21) f0.

(* pseudo-critical point *)
Definition gpc (X : nat -> F) : F * F :=
  fold_left (fun st i => (fst st + X i * lv G_TC i, snd st + X i / lv G_DC i)) (seq 1 21) (f0, f0).
Definition gdcx X := if snd (gpc X) >? GEPSILON then f1 / snd (gpc X) else f0.
Definition gtcx X := fst (gpc X).

End Pure2.

(* The cached part of the object as a value: reducing parameters, the keys under which the powers
   of tau are stored, and the powers. *)
Record gcache {A : Arith} := mkGC {
  gc_dr : F; gc_tr : F; gc_told : F; gc_tr2 : F;
  gc_tp : nat -> nat -> F; gc_tm : nat -> nat -> F }.
Arguments mkGC {A}.
Section Cache.
Context {A : Arith} {P : GParams}.
Local Open Scope bool_scope.
Local Open Scope F_scope.
Definition gc_zero : gcache := mkGC f0 f0 f0 f0 (fun _ _ => f0) (fun _ _ => f0).
Definition gc_red (x xo : list F) (c : gcache) : gcache :=
  if gx_diff x xo then mkGC (gdr (xf x)) (gtr (xf x)) f0 f0 (gc_tp c) (gc_tm c) else c.
Definition gc_fresh (t : F) (c : gcache) : bool :=
  differs t (gc_told c) || differs (gc_tr c) (gc_tr2 c).
Definition gc_tau (X : nat -> F) (t : F) (c : gcache) : gcache :=
  let lntau := fln (gc_tr c / t) in
  if gc_fresh t c
  then mkGC (gc_dr c) (gc_tr c) t (gc_tr c) (ntaup X lntau (gc_tp c)) (ntm X lntau (gc_tm c))
  else mkGC (gc_dr c) (gc_tr c) t (gc_tr c) (gc_tp c) (gc_tm c).
Definition gc_next (x xo : list F) (t : F) (c : gcache) : gcache := gc_tau (xf x) t (gc_red x xo c).
(* the term list an evaluation uses, given the cache it leaves *)
Definition cterms (x : list F) (t d : F) (c : gcache) : list (nat -> F) :=
  gterms (xf x) (d / gc_dr c) (fln (gc_tr c / t)) (gc_tp c) (gc_tm c).
Definition nxold (x xo : list F) : list F :=
  tab 22 (fun i => if Nat.eqb i 0 then xf xo 0 else xf x i).
End Cache.
