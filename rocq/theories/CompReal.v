(* Composition and molar mass over the reals. *)
From Coq Require Import Reals ZArith List Bool Lra Lia.
From Verif Require Import FArith Prelude Composition DetailTables GergTables DetailModel GergModel Api
  SpecGeneric ArithR SpecReal GenericLemmas.
Import ListNotations.
Local Open Scope R_scope.
Local Existing Instance ArithR.

Lemma comp_sum_total c : comp_sum c = total (fields c).
Proof. unfold comp_sum, fields. cbn [total]. rar. ring. Qed.
Lemma comp_sum_R c : (@comp_sum ArithR c : R) = total (fields c).
Proof. exact (comp_sum_total c). Qed.

Lemma check_real c : comp_check c =
  if Rlt_dec (Rabs (total (fields c))) (1 / 10000000000) then RErr Empty
  else if Rlt_dec (1 / 100) (Rabs (total (fields c) - 1)) then RErr BadSum else ROk.
Proof.
  unfold comp_check. rewrite !comp_sum_total. unfold f0, f1. rar. cbn [Rlit]. rewrite Rminus_0_r.
  unfold Rltb. change (IZR (10 ^ 10)) with 10000000000. change (IZR (10 ^ 2)) with 100.
  destruct (Rlt_dec _ _); [reflexivity|]. destruct (Rlt_dec _ _); reflexivity.
Qed.
Lemma check_empty c : comp_check c = RErr Empty <-> Rabs (total (fields c)) < 1 / 10000000000.
Proof. rewrite check_real. destruct (Rlt_dec _ _); [tauto|]. destruct (Rlt_dec _ _); split; intros; (discriminate || tauto). Qed.
Lemma check_badsum c : comp_check c = RErr BadSum <->
  1 / 10000000000 <= Rabs (total (fields c)) /\ 1 / 100 < Rabs (total (fields c) - 1).
Proof.
  rewrite check_real. destruct (Rlt_dec _ _); [split; [discriminate|lra]|].
  destruct (Rlt_dec _ _); split; try discriminate; try tauto; lra.
Qed.
Lemma check_ok c : comp_check c = ROk <-> Rabs (total (fields c) - 1) <= 1 / 100.
Proof.
  rewrite check_real. destruct (Rlt_dec _ _) as [H|H].
  - split; [discriminate|]. intros K. exfalso. apply Rabs_def2 in H. apply Rabs_def2_le in K || idtac.
    unfold Rabs in K. destruct (Rcase_abs _); lra.
  - destruct (Rlt_dec _ _); split; try discriminate; try tauto; lra.
Qed.

Lemma normalize_real c : comp_normalize c =
  if Rlt_dec 0 (total (fields c)) then
    (let k := 1 / total (fields c) in
    (mkComposition (A := ArithR)
       (methane c * k) (nitrogen c * k) (carbon_dioxide c * k)
       (ethane c * k) (propane c * k) (isobutane c * k) (n_butane c * k)
       (isopentane c * k) (n_pentane c * k) (hexane c * k) (heptane c * k)
       (octane c * k) (nonane c * k) (decane c * k) (hydrogen c * k)
       (oxygen c * k) (carbon_monoxide c * k) (water c * k)
       (hydrogen_sulfide c * k) (helium c * k) (argon c * k), ROk))
  else (c, RErr Empty).
Proof.
  unfold comp_normalize. rewrite !comp_sum_total. cbv zeta. unfold f0, f1. rar. cbn [Rlit].
  unfold Rltb. destruct (Rlt_dec _ _); reflexivity.
Qed.
Lemma total_scale k l : total (map (fun v => v * k) l) = total l * k.
Proof. induction l as [|a l IH]; cbn [map total]; [ring|rewrite IH; ring]. Qed.
Lemma normalize_ok c : 0 < total (fields c) ->
  exists c', comp_normalize c = (c', ROk) /\ total (fields c') = 1 /\
    fields c' = map (fun v => v / total (fields c)) (fields c).
Proof.
  intros H. rewrite normalize_real. destruct (Rlt_dec _ _); [|contradiction]. cbv zeta.
  eexists. split; [reflexivity|].
  match goal with |- total (fields ?c') = _ /\ _ =>
    assert (fields c' = map (fun v => v / total (fields c)) (fields c)) as E end.
  { set (T := total (fields c)) in *.
    assert (forall v, v / T = v * (1 / T)) as EE by (intros; field; lra).
    rewrite (map_ext _ _ EE). reflexivity. }
  split; [|exact E]. rewrite E.
  rewrite (map_ext _ (fun v => v * (1 / total (fields c)))) by (intros; field; lra).
  rewrite total_scale. field. lra.
Qed.
Lemma normalize_err c : total (fields c) <= 0 -> comp_normalize c = (c, RErr Empty).
Proof. intros H. rewrite normalize_real. destruct (Rlt_dec _ _); [lra|reflexivity]. Qed.
Lemma fields_inj c c' : fields c = fields c' -> c = c'.
Proof. destruct c, c'. unfold fields. cbn. intros E. injection E as -> -> -> -> -> -> -> -> -> -> -> -> -> -> -> -> -> -> -> -> ->. reflexivity. Qed.
Lemma normalize_idem c : 0 < total (fields c) ->
  let c' := fst (comp_normalize c) in comp_normalize c' = (c', ROk).
Proof.
  intros H. destruct (normalize_ok c H) as (c' & E & T & _). rewrite E. cbn [fst].
  destruct (normalize_ok c') as (c2 & E2 & T2 & F2); [lra|]. rewrite E2. f_equal.
  apply fields_inj. rewrite F2, T. rewrite (map_ext _ (fun v => v)) by (intros; field). apply map_id.
Qed.
Lemma normalize_scale c c2 q : 0 < q -> 0 < total (fields c) ->
  fields c2 = map (Rmult q) (fields c) -> comp_normalize c2 = comp_normalize c.
Proof.
  intros Hq H E.
  assert (total (fields c2) = total (fields c) * q) as T.
  { rewrite E. rewrite (map_ext _ (fun v => v * q)) by (intros; ring). apply total_scale. }
  destruct (normalize_ok c H) as (c' & E' & _ & F').
  destruct (normalize_ok c2) as (c3 & E3 & _ & F3).
  { rewrite T. now apply Rmult_lt_0_compat. }
  rewrite E', E3. f_equal. apply fields_inj. rewrite F3, F', T, E, map_map. apply map_ext.
  intros v. field. lra.
Qed.

(* molar mass *)
Lemma wsum_acc (l : list (R * R)) a : fold_left (fun a p => a + fst p * snd p) l a
  = a + fold_left (fun a p => a + fst p * snd p) l 0.
Proof.
  revert a. induction l as [|[u v] l IH]; intros a; cbn [fold_left fst snd]; [ring|].
  rewrite IH, (IH (0 + u * v)). ring.
Qed.
Lemma wsum_dot x m : @wsum ArithR x m = dot x m.
Proof.
  unfold wsum, f0. rar. cbn [Rlit]. revert m. induction x as [|a x IH]; intros [|b m]; try reflexivity.
  cbn [combine fold_left fst snd dot]. rewrite wsum_acc, IH. ring.
Qed.
Lemma dot_bounds lo hi x m : length x = length m -> Forall (fun v => 0 <= v) x ->
  Forall (fun v => lo <= v <= hi) m -> lo * total x <= dot x m <= hi * total x.
Proof.
  intros HL Hx. revert m HL. induction Hx as [|a x Ha Hx IH]; intros [|b m] HL Hm; try discriminate.
  - cbn. lra.
  - cbn [dot total]. inversion Hm as [|? ? Hb Hm']; subst. specialize (IH m (eq_add_S _ _ HL) Hm'). nra.
Qed.
Lemma dot_linear a b x y m : length x = length m -> length y = length m ->
  dot (map (fun p => a * fst p + b * snd p) (combine x y)) m = a * dot x m + b * dot y m.
Proof.
  revert y m. induction x as [|u x IH]; intros [|v y] [|w m]; cbn [length]; try discriminate; intros Hx Hy.
  - cbn. ring.
  - cbn [combine map dot fst snd]. rewrite IH by lia. ring.
Qed.
Definition M_detail : list R := map (@flit ArithR) D_MMI.
Definition M_gerg : list R := tl (map (@flit ArithR) G_MMI_GERG).
Lemma M_detail_bounds : Forall (fun v => 20159 / 10000 <= v <= 142285 / 1000) M_detail.
Proof. unfold M_detail. cbn [map D_MMI]. rar. cbn [Rlit]. repeat (apply Forall_cons; [change (10 ^ 2)%Z with 100%Z; change (10 ^ 3)%Z with 1000%Z; change (10 ^ 4)%Z with 10000%Z; change (10 ^ 5)%Z with 100000%Z; change (10 ^ 6)%Z with 1000000%Z; lra|]). apply Forall_nil. Qed.
Lemma M_gerg_bounds : Forall (fun v => 201588 / 100000 <= v <= 14228168 / 100000) M_gerg.
Proof. unfold M_gerg. cbn [map G_MMI_GERG tl]. rar. cbn [Rlit]. repeat (apply Forall_cons; [change (10 ^ 2)%Z with 100%Z; change (10 ^ 3)%Z with 1000%Z; change (10 ^ 4)%Z with 10000%Z; change (10 ^ 5)%Z with 100000%Z; change (10 ^ 6)%Z with 1000000%Z; lra|]). apply Forall_nil. Qed.
Lemma molar_mass_detail s : dreach s ->
  exists v, dstep MolarMass s = Some (set_d_mm v s, OVal v) /\
    v = dot (d_x s) M_detail /\
    (Forall (fun a => 0 <= a) (d_x s) ->
      20159 / 10000 * total (d_x s) <= v <= 142285 / 1000 * total (d_x s)).
Proof.
  intros H. destruct (dmm_step s H) as (s' & E & ->). exists (wsum (d_x s) (map flit D_MMI)).
  split; [exact E|]. split; [exact (wsum_dot _ _)|]. intros Hx. rewrite wsum_dot.
  apply dot_bounds; [exact (dreach_x s H)|exact Hx|exact M_detail_bounds].
Qed.
Lemma molar_mass_gerg s : greach s ->
  exists v, gstep MolarMass s = Some (set_g_mm v s, OUnit) /\
    v = dot (tl (g_x s)) M_gerg /\
    (Forall (fun a => 0 <= a) (tl (g_x s)) ->
      201588 / 100000 * total (tl (g_x s)) <= v <= 14228168 / 100000 * total (tl (g_x s))).
Proof.
  intros H. eexists. split; [exact (gmm_step s H)|]. split; [exact (wsum_dot _ _)|]. intros Hx.
  rewrite wsum_dot.
  apply dot_bounds; [|exact Hx|exact M_gerg_bounds]. pose proof (greach_x s H) as L.
  destruct (g_x s) as [|a l]; [discriminate|]. cbn [tl]. cbn [length] in L. injection L as ->. reflexivity.
Qed.
