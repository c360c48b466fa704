(* Running the model on the test vectors of /repo/tests with the executable arithmetic.
   Each check is a vm_compute run that fails the build when the model does not reproduce the
   recorded value within the tolerance of the repository's own test. *)
From Coq Require Import ZArith List Floats.
From Verif Require Import FArith Prelude Composition DetailModel GergModel ArithPrim.
Import ListNotations.
Set Warnings "-inexact-float".
Local Open Scope bool_scope.
Local Open Scope float_scope.

Local Existing Instance ArithPrim.

Ltac check t :=
  let v := eval vm_compute in t in
  match v with true => idtac | ?x => fail 0 "check failed:" x end.

Definition ok (o : option bool) : bool := match o with Some b => b | None => false end.
Definition close (x y tol : float) : bool := abs (x - y) <? tol.

(* /repo/tests/detail_tests.rs:4-26 COMP_FULL *)
Definition COMP_FULL : Composition := @mkComposition ArithPrim
  0.77824 0.02 0.06 0.08 0.03 0.0015 0.003 0.0005 0.00165 0.00215 0.00088 0.00024 0.00015
  0.00009 0.004 0.005 0.002 0.0001 0.0025 0.007 0.001.
(* /repo/tests/gerg-tests.rs:29-51 COMP_PARTIAL *)
Definition COMP_PARTIAL : Composition := @mkComposition ArithPrim
  0.965 0.003 0.006 0.018 0.0045 0.001 0.001 0.0005 0.0003 0.0007 0 0 0 0 0 0 0 0 0 0 0.

Definition d_setx (l : list float) (s : Detail) : Detail := @set_d_x ArithPrim l s.

(* /repo/tests/detail_tests.rs:28-63 detail_demo_example *)
Definition detail_demo : option (list float * list float) :=
  s <- detail_new ;;
  '(s, _) <- set_composition COMP_FULL s ;;
  '(s, _) <- molar_mass s ;;
  let s := @set_d_t ArithPrim 400 (@set_d_p ArithPrim 50000 (@set_d_d ArithPrim 6.3657
           (@set_d_z ArithPrim 0 s))) in
  '(s, r) <- density s ;;
  s <- properties s ;;
  match r with
  | RErr _ => None
  | ROk => Some ([d_d s; d_mm s; d_p s; d_z s; d_dp_dd s; d_d2p_dd2 s; d_dp_dt s; d_u s; d_h s;
             d_s s; d_cv s; d_cp s; d_w s; d_g s; d_jt s; d_kappa s],
       [12.80792403648801; 20.54333051; 50000; 1.173801364147326; 6971.38769092409;
        1118.80363663952; 235.6641493068212; -2739.134175817231; 1164.699096269404;
        -38.54882684677111; 39.12076154430332; 58.54617672380667; 712.6393684057903;
        16584.22983497785; 7.432969304794577E-5; 2.672509225184606])
  end.
Definition all_close (tol : float) (o : option (list float * list float)) : bool :=
  match o with
  | Some (a, b) => forallb (fun p => close (fst p) (snd p) tol) (combine a b)
  | None => false
  end.

Goal True. check (all_close 1e-10 detail_demo). exact I. Qed.

(* /repo/tests/detail_tests.rs:66-80 detail_calculate_pressure *)
Definition detail_pressure_test : option (list float * list float) :=
  s <- detail_new ;;
  '(s, _) <- set_composition COMP_FULL s ;;
  let s := @set_d_t ArithPrim (18 + 273.15) (@set_d_d ArithPrim 7.558334 s) in
  '(s, p) <- pressure s ;; Some ([p], [13067.068161509907]).
Goal True. check (all_close 1e-10 detail_pressure_test). exact I. Qed.

(* /repo/tests/integration-tests.rs:3-66 test_gas_2: four state points on one object *)
Definition gas2_point (t d : float) (s : Detail) (e : list float)
  : option (Detail * (list float * list float)) :=
  let s := @set_d_t ArithPrim t (@set_d_d ArithPrim d s) in
  '(s, _) <- pressure s ;;
  s <- properties s ;;
  Some (s, ([d_p s * 0.001; d_cv s; d_cp s; d_w s], e)).
Definition gas2 : option (list float * list float) :=
  s <- detail_new ;;
  let s := d_setx [0.9969531; 0.002016; 0.0000937; 0.0007671; 0.0000679; 0.0000197; 0.0000068;
    0.0000156; 0; 0; 0; 0; 0; 0; 0; 0; 0; 0; 0; 0.0000601; 0] s in
  '(s, r1) <- gas2_point 165.933 1 s [1.1792; 26.4849; 41.4919; 309.7709] ;;
  '(s, r2) <- gas2_point 169.184 2 s [2.0506; 29.6179; 58.791; 286.869] ;;
  '(s, r3) <- gas2_point 176.24 3 s [2.8088; 32.196; 84.3401; 275.0685] ;;
  '(s, r4) <- gas2_point 181.681 4 s [3.4227; 34.3978; 126.207; 266.3933] ;;
  Some (fst r1 ++ fst r2 ++ fst r3 ++ fst r4, snd r1 ++ snd r2 ++ snd r3 ++ snd r4).
Goal True. check (all_close 1e-4 gas2). exact I. Qed.

(* /repo/tests/gerg-tests.rs:53-86 gerg_demo_example *)
Definition gerg_demo : option (list float * list float) :=
  s <- gerg_new ;;
  '(s, _) <- gerg_set_composition COMP_FULL s ;;
  s <- gerg_molar_mass s ;;
  let s := @set_g_t ArithPrim 400 (@set_g_p ArithPrim 50000 (@set_g_d ArithPrim 6.3657
           (@set_g_z ArithPrim 0 s))) in
  '(s, r) <- gerg_density 0 s ;;
  '(s, _) <- gerg_properties s ;;
  match r with
  | RErr _ => None
  | ROk => Some ([g_d s; g_mm s; g_p s; g_z s; g_dp_dd s; g_d2p_dd2 s; g_dp_dt s; g_u s; g_h s;
             g_s s; g_cv s; g_cp s; g_w s; g_g s; g_jt s; g_kappa s],
       [12.79828626082062; 20.5427445016; 50000; 1.174690666383717; 7000.694030193327;
        1129.526655214841; 235.9832292593096; -2746.49290121253; 1160.280160510973;
        -38.57590392409089; 39.02948218156372; 58.45522051000366; 714.4248840596024;
        16590.64173014733; 7.155629581480913E-5; 2.683820255058032])
  end.
Goal True. check (all_close 1e-10 gerg_demo). exact I. Qed.

(* /repo/tests/gerg-tests.rs:88-107 gerg_test_01 *)
Definition gerg_test_01 : option (list float * list float) :=
  s <- gerg_new ;;
  '(s, _) <- gerg_set_composition COMP_PARTIAL s ;;
  let s := @set_g_t ArithPrim (18 + 273.15) (@set_g_p ArithPrim 14601.325 s) in
  '(s, r) <- gerg_density 0 s ;;
  '(s, _) <- gerg_properties s ;;
  Some ([g_d s; g_mm s], [7.730483295277388; 16.803030286]).
Goal True. check (all_close 1e-10 gerg_test_01). exact I. Qed.

(* /repo/tests/gerg-tests.rs:109-123 gerg_calculate_pressure *)
Definition gerg_pressure_test : option (list float * list float) :=
  s <- gerg_new ;;
  '(s, _) <- gerg_set_composition COMP_FULL s ;;
  let s := @set_g_t ArithPrim (18 + 273.15) (@set_g_d ArithPrim 7.558334 s) in
  '(s, p) <- gerg_pressure s ;; Some ([p], [13050.037472144]).
Goal True. check (all_close 1e-10 gerg_pressure_test). exact I. Qed.
