(* Molar masses from chemical formulas and standard atomic weights.  Nothing is shared with the model. *)
From Coq Require Import Reals ZArith List.
From Verif Require Import SpecDetail.
Import ListNotations.
Local Open Scope R_scope.

(* atomic weights (g/mol) of C, H, N, O, S, He, Ar *)
Definition WEIGHTS : list Z := [12010700; 1007940; 14006700; 15999400; 32065000; 4002602; 39948000]%Z.
(* atoms of C, H, N, O, S, He, Ar in one molecule, in the order of the composition struct *)
Definition FORMULA : list (list Z) := [
  (* methane *) [1; 4; 0; 0; 0; 0; 0]; (* nitrogen *) [0; 0; 2; 0; 0; 0; 0];
  (* carbon dioxide *) [1; 0; 0; 2; 0; 0; 0]; (* ethane *) [2; 6; 0; 0; 0; 0; 0];
  (* propane *) [3; 8; 0; 0; 0; 0; 0]; (* isobutane *) [4; 10; 0; 0; 0; 0; 0];
  (* n-butane *) [4; 10; 0; 0; 0; 0; 0]; (* isopentane *) [5; 12; 0; 0; 0; 0; 0];
  (* n-pentane *) [5; 12; 0; 0; 0; 0; 0]; (* hexane *) [6; 14; 0; 0; 0; 0; 0];
  (* heptane *) [7; 16; 0; 0; 0; 0; 0]; (* octane *) [8; 18; 0; 0; 0; 0; 0];
  (* nonane *) [9; 20; 0; 0; 0; 0; 0]; (* decane *) [10; 22; 0; 0; 0; 0; 0];
  (* hydrogen *) [0; 2; 0; 0; 0; 0; 0]; (* oxygen *) [0; 0; 0; 2; 0; 0; 0];
  (* carbon monoxide *) [1; 0; 0; 1; 0; 0; 0]; (* water *) [0; 2; 0; 1; 0; 0; 0];
  (* hydrogen sulfide *) [0; 2; 0; 0; 1; 0; 0]; (* helium *) [0; 0; 0; 0; 0; 1; 0];
  (* argon *) [0; 0; 0; 0; 0; 0; 1]]%Z.
Definition micrograms (i : nat) : Z :=
  fold_right Z.add 0%Z (map (fun p => fst p * snd p)%Z (combine (nth i FORMULA []) WEIGHTS)).
(* g/mol *)
Definition weight (i : nat) : R := IZR (micrograms i) / 1000000.
