(* C18, C19: history independence, for histories in which any two compositions (and any two
   temperatures) the equation of state is asked for are equal or told apart by the code's own
   comparison (|a - b| > 1e-7), and none is within 1e-7 of the zeros of a new object. *)
From Coq Require Import ZArith List Bool Floats.
From Verif Require Import FArith Prelude Composition DetailModel GergModel ArithPrim
  Api SpecGeneric SpecHistory HistoryDetail HistoryGerg.
Import ListNotations.

(* After history l, a new object is given the public fields of s (dcopy s); every continuation l2
   then returns the same results on both and leaves the same public fields. *)
Theorem C18_detail_partial {A : Arith} : forall k l l2 s r, dexec k l = Some (s, r) ->
  separated 0 (dasked (l ++ l2)) ->
  exists s1 r1, dexec k (dcopy s) = Some (s1, r1) /\
  exists s2 s3 r2, drun l2 s = Some (s2, r2) /\ drun l2 s1 = Some (s3, r2) /\ dsame s2 s3.
Proof. exact dhistory. Qed.
Theorem C19_gerg_partial {A : Arith} : forall k l l2 s r, gexec k l = Some (s, r) ->
  separated 1 (gasked (l ++ l2)) ->
  exists s1 r1, gexec k (gcopy s) = Some (s1, r1) /\
  exists s2 s3 r2, grun l2 s = Some (s2, r2) /\ grun l2 s1 = Some (s3, r2) /\ gsame s2 s3.
Proof. exact ghistory. Qed.

(* The hypothesis holds for an ordinary history: two compositions, two temperatures, evaluations in
   between (binary64 arithmetic). *)
Section Example.
Local Existing Instance ArithPrim.
Local Open Scope float_scope.
Definition ex_comp (a b : float) : Composition :=
  @mkComposition ArithPrim a b 0 0 0 0 0 0 0 0 0 0 0 0 0 0 0 0 0 0 0.
Definition ex_history : list op :=
  [SetComp (ex_comp 0.75 0.25); @Poke ArithPrim PT 300; @Poke ArithPrim PD 5; Pressure;
   @Poke ArithPrim PT 350; @Poke ArithPrim PP 10000; Density 0; Properties;
   SetComp (ex_comp 0.5 0.5); @Poke ArithPrim PT 300; Properties].

Ltac sep :=
  split;
  [intros x t x' t' H H';
   repeat (destruct H as [H|H]; [injection H as <- <-|]); try contradiction;
   repeat (destruct H' as [H'|H']; [injection H' as <- <-|]); try contradiction;
   (split; [first [left; reflexivity|right; exists 1%nat; split; [cbn; repeat constructor|reflexivity]]
           |first [left; reflexivity|right; reflexivity]])
  |intros x t H;
   repeat (destruct H as [H|H]; [injection H as <- <-|]); try contradiction;
   (split; [exists 1%nat; split; [cbn; repeat constructor|reflexivity]|reflexivity])].
Example C18_detail_applies : separated 0 (dasked ex_history).
Proof. let v := eval vm_compute in (dasked ex_history) in
  change (separated 0 v). sep. Qed.
Example C19_gerg_applies : separated 1 (gasked ex_history).
Proof. let v := eval vm_compute in (gasked ex_history) in change (separated 1 v).
  split;
  [intros x t x' t' H H';
   repeat (destruct H as [H|H]; [injection H as <- <-|]); try contradiction;
   repeat (destruct H' as [H'|H']; [injection H' as <- <-|]); try contradiction;
   (split; [first [left; reflexivity|right; exists 2%nat; split; [cbn; repeat constructor|reflexivity]]
           |first [left; reflexivity|right; reflexivity]])
  |intros x t H;
   repeat (destruct H as [H|H]; [injection H as <- <-|]); try contradiction;
   (split; [exists 2%nat; split; [cbn; repeat constructor|reflexivity]|reflexivity])]. Qed.
End Example.

Print Assumptions C18_detail_partial.
Print Assumptions C19_gerg_partial.
