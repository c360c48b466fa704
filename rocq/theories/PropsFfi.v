(* Properties of the C interface, for every implementation of the floating-point operations. *)
From Coq Require Import ZArith List Bool.
From Verif Require Import FArith Prelude Composition DetailModel GergModel Api Ffi SpecFfi FfiProofs.
Import ListNotations.
Local Open Scope Z_scope.

(* C35: after any calls, an address stands for exactly the object its own calls would have built *)
Theorem C35_isolation {A : Arith} : forall l h rs, alloc_ok l ->
  ffi_run l empty_heap = Ret h rs -> forall a,
  match owner a l None with
  | Some (e, ops) => exists o, h a = Some o /\ is_object e ops o
  | None => h a = None
  end.
Proof. exact ffi_isolated. Qed.
(* C35: a program runs through (no abort, no undefined behaviour) exactly when it is legal *)
Theorem C35_legal {A : Arith} : forall l, alloc_ok l ->
  ((exists h rs, ffi_run l empty_heap = Ret h rs) <-> legal l).
Proof. exact ffi_returns_iff. Qed.
(* C35: NULL *)
Theorem C35_null {A : Arith} : forall e h,
  ffi_step (Free e null) h = Ret h AUnit /\ forall u, ffi_step (Use e null u) h = Panicked.
Proof. exact (fun e h => conj (free_null e h) (fun u => use_null e u h)). Qed.

(* C36 *)
Theorem C36_detail {A : Arith} : forall l h rs a ops s r u, alloc_ok l ->
  ffi_run l empty_heap = Ret h rs -> owner a l None = Some (KDetail, ops) ->
  dexec Api.New ops = Some (s, r) ->
  exists s' o h' x, drun (rust_ops u) s = Some (s', o)
    /\ ffi_step (Use KDetail a u) h = Ret h' x /\ answers dread u o s' x
    /\ h' a = Some (ODetail s') /\ forall b, b <> a -> h' b = h b.
Proof. exact ffi_detail_call. Qed.
Theorem C36_gerg {A : Arith} : forall l h rs a ops s r u, alloc_ok l ->
  ffi_run l empty_heap = Ret h rs -> owner a l None = Some (KGerg, ops) ->
  gexec Api.New ops = Some (s, r) ->
  exists s' o h' x, grun (rust_ops u) s = Some (s', o)
    /\ ffi_step (Use KGerg a u) h = Ret h' x /\ answers gread u o s' x
    /\ h' a = Some (OGerg s') /\ forall b, b <> a -> h' b = h b.
Proof. exact ffi_gerg_call. Qed.
Theorem C36_roundtrip {A : Arith} : forall l h rs e a ops f v, alloc_ok l ->
  ffi_run l empty_heap = Ret h rs -> owner a l None = Some (e, ops) ->
  exists h', ffi_run [Use e a (USet f v); Use e a (UGet f)] h = Ret h' [AUnit; AVal v].
Proof. exact ffi_roundtrip. Qed.

(* A program with two live objects of different kinds, in which the address of a freed object
   is used again; it is legal and leaves a GERG object at 16 and one at 32. *)
Definition demo {A : Arith} (t : F) : list call :=
  [New KDetail (Some 16); New KGerg (Some 32); Use KDetail 16 (USet IT t); Use KGerg 32 UDensity;
   Use KDetail 16 UPressure; Free KDetail 16; Free KGerg null; New KGerg (Some 16);
   Use KGerg 16 UGetProperties].
Example demo_ok {A : Arith} t : alloc_ok (demo t) /\ legal (demo t)
  /\ owner 16 (demo t) None = Some (KGerg, [])
  /\ owner 32 (demo t) None = Some (KGerg, [Density 0])
  /\ exists h rs, ffi_run (demo t) empty_heap = Ret h rs.
Proof.
  assert (Al : alloc_ok (demo t)).
  { intros l1 e a l2 E. unfold demo in E.
    do 9 (destruct l1 as [|? l1];
      [cbn in E; try discriminate E; injection E; intros; subst; try (split; [discriminate|reflexivity])|
       cbn in E; injection E as <- E]).
    destruct l1; discriminate E. }
  assert (Le : legal (demo t)).
  { intros l1 c l2 E. unfold demo in E.
    do 9 (destruct l1 as [|? l1];
      [cbn in E; injection E as <- <-; lazy; first [reflexivity|discriminate|left; reflexivity|right; reflexivity]|
       cbn in E; injection E as <- E]).
    destruct l1; discriminate E. }
  split; [exact Al|split; [exact Le|split; [reflexivity|split; [reflexivity|]]]].
  exact (proj2 (C35_legal (demo t) Al) Le).
Qed.
(* and a use after free is not legal *)
Example use_after_free {A : Arith} t : ~ legal (demo t ++ [Use KDetail 16 UPressure]).
Proof. intros H. specialize (H (demo t) _ [] eq_refl). lazy in H. discriminate H. Qed.

Print Assumptions C35_isolation.
Print Assumptions C35_legal.
Print Assumptions C35_null.
Print Assumptions C36_detail.
Print Assumptions C36_gerg.
Print Assumptions C36_roundtrip.
