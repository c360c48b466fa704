(* The ideal gas of AGA8 and GERG-2008 (Jaeschke and Schley): heat capacity, enthalpy and entropy of
   each component as functions of the temperature, and the ideal mixture.  Nothing is shared with
   the model, not even the table of coefficients. *)
From Coq Require Import Reals ZArith List.
From Verif Require Import FArith ArithR SpecDetail.
Import ListNotations.
Local Open Scope R_scope.

(* Components in the order of the composition struct.  Row: entropy constant N, enthalpy constant A
   (K), B, C, E, G, I of the heat capacity; then the temperatures D, F, H, J (K). *)
Definition IG : list (list lit) := [
  (* methane *) [L 2983843397 (-8); L (-1599969151) (-5); L 400088 (-5); L 76315 (-5); L 46 (-4); L 874432 (-5); L (-446921) (-5);
    L 820659 (-3); L 17841 (-2); L 106282 (-2); L 109053 (-2)];
  (* nitrogen *) [L 1756770785 (-8); L (-2801729072) (-6); L 350031 (-5); L 13732 (-5); L (-1466) (-4); L 90066 (-5); L 0 0;
    L 662738 (-3); L 680562 (-3); L 174006 (-2); L 0 0];
  (* carbon_dioxide *) [L 2065844696 (-8); L (-4902171516) (-6); L 350002 (-5); L 204452 (-5); L (-106044) (-5); L 203366 (-5); L 1393 (-5);
    L 919306 (-3); L 86507 (-2); L 483553 (-3); L 341109 (-3)];
  (* ethane *) [L 3673005938 (-8); L (-2363965301) (-5); L 400263 (-5); L 433939 (-5); L 123722 (-5); L 131974 (-4); L (-601989) (-5);
    L 559314 (-3); L 223284 (-3); L 103138 (-2); L 107129 (-2)];
  (* propane *) [L 4470909619 (-8); L (-3123663551) (-5); L 402939 (-5); L 660569 (-5); L 3197 (-3); L 191921 (-4); L (-837267) (-5);
    L 479856 (-3); L 200893 (-3); L 955312 (-3); L 102729 (-2)];
  (* isobutane *) [L 3430180349 (-8); L (-3852550276) (-5); L 406714 (-5); L 897575 (-5); L 525156 (-5); L 251423 (-4); L 161388 (-4);
    L 43827 (-2); L 198018 (-3); L 190502 (-2); L 893765 (-3)];
  (* n_butane *) [L 3653237783 (-8); L (-3895780933) (-5); L 433944 (-5); L 944893 (-5); L 689406 (-5); L 244618 (-4); L 147824 (-4);
    L 46827 (-2); L 183636 (-3); L 19141 (-1); L 903185 (-3)];
  (* isopentane *) [L 4317218626 (-8); L (-5119830946) (-5); L 4 0; L 117618 (-4); L 201101 (-4); L 331688 (-4); L 0 0;
    L 292503 (-3); L 910237 (-3); L 191937 (-2); L 0 0];
  (* n_pentane *) [L 4267837089 (-8); L (-4521583) (-2); L 4 0; L 895043 (-5); L 21836 (-3); L 334032 (-4); L 0 0;
    L 17867 (-2); L 840538 (-3); L 177425 (-2); L 0 0];
  (* hexane *) [L 4699717188 (-8); L (-5274683318) (-5); L 4 0; L 116977 (-4); L 268142 (-4); L 386164 (-4); L 0 0;
    L 182326 (-3); L 859207 (-3); L 182659 (-2); L 0 0];
  (* heptane *) [L 5207631631 (-8); L (-5710481056) (-5); L 4 0; L 137266 (-4); L 304707 (-4); L 435561 (-4); L 0 0;
    L 169789 (-3); L 836195 (-3); L 176046 (-2); L 0 0];
  (* octane *) [L 5725830934 (-8); L (-6054676385) (-5); L 4 0; L 156865 (-4); L 338029 (-4); L 481731 (-4); L 0 0;
    L 158922 (-3); L 815064 (-3); L 169307 (-2); L 0 0];
  (* nonane *) [L 6209646901 (-8); L (-6660012837) (-5); L 4 0; L 180241 (-4); L 381235 (-4); L 533415 (-4); L 0 0;
    L 156854 (-3); L 814882 (-3); L 169379 (-2); L 0 0];
  (* decane *) [L 6593909154 (-8); L (-7413145483) (-5); L 4 0; L 210069 (-4); L 434931 (-4); L 583657 (-4); L 0 0;
    L 164947 (-3); L 836264 (-3); L 175024 (-2); L 0 0];
  (* hydrogen *) [L 1307520288 (-8); L (-5836943696) (-6); L 247906 (-5); L 95806 (-5); L 45444 (-5); L 156039 (-5); L (-13756) (-4);
    L 228734 (-3); L 326843 (-3); L 165171 (-2); L 167169 (-2)];
  (* oxygen *) [L 168017173 (-7); L (-231832269) (-5); L 350146 (-5); L 107558 (-5); L 101334 (-5); L 0 0; L 0 0;
    L 223571 (-2); L 111669 (-2); L 0 0; L 0 0];
  (* carbon_monoxide *) [L 1745786899 (-8); L (-2635244116) (-6); L 350055 (-5); L 102865 (-5); L 493 (-5); L 0 0; L 0 0;
    L 155045 (-2); L 704525 (-3); L 0 0; L 0 0];
  (* water *) [L 2157882705 (-8); L (-7766733078) (-6); L 400392 (-5); L 1059 (-5); L 98763 (-5); L 306904 (-5); L 0 0;
    L 268795 (-3); L 114141 (-2); L 250737 (-2); L 0 0];
  (* hydrogen_sulfide *) [L 215830944 (-7); L (-6069035869) (-6); L 4 0; L 311942 (-5); L 100243 (-5); L 0 0; L 0 0;
    L 183363 (-2); L 847181 (-3); L 0 0; L 0 0];
  (* helium *) [L 1004639507 (-8); L (-745375) (-3); L 25 (-1); L 0 0; L 0 0; L 0 0; L 0 0;
    L 0 0; L 0 0; L 0 0; L 0 0];
  (* argon *) [L 1004639507 (-8); L (-745375) (-3); L 25 (-1); L 0 0; L 0 0; L 0 0; L 0 0;
    L 0 0; L 0 0; L 0 0; L 0 0]
].
Definition ig (i j : nat) : R := Rlit (nth j (nth i IG []) (L 0 0)).

Section Component.
Variables (i : nat) (T : R).
Let N := ig i 0.
Let A := ig i 1.
Let B := ig i 2.
Let C := ig i 3.
Let E := ig i 4.
Let G := ig i 5.
Let I := ig i 6.
Let D := ig i 7.
Let F := ig i 8.
Let H := ig i 9.
Let J := ig i 10.
Definition coth (y : R) : R := cosh y / sinh y.
(* isobaric heat capacity divided by the gas constant *)
Definition cp0 : R := B
  + C * (D / T / sinh (D / T)) ^ 2 + E * (F / T / cosh (F / T)) ^ 2
  + G * (H / T / sinh (H / T)) ^ 2 + I * (J / T / cosh (J / T)) ^ 2.
(* enthalpy divided by the gas constant, in K *)
Definition h0 : R := A + B * T
  + C * D * coth (D / T) - E * F * tanh (F / T) + G * H * coth (H / T) - I * J * tanh (J / T).
(* entropy divided by the gas constant, at the density of the reference state *)
Definition s0 : R := - N + (B - 1) * (1 + ln T)
  + C * (D / T * coth (D / T) - ln (sinh (D / T))) - E * (F / T * tanh (F / T) - ln (cosh (F / T)))
  + G * (H / T * coth (H / T) - ln (sinh (H / T))) - I * (J / T * tanh (J / T) - ln (cosh (J / T))).
End Component.

(* the reference state: 298.15 K and 101.325 kPa *)
Definition T0 : R := 29815 / 100.
Definition ref_density (rg : R) : R := 101325 / 1000 / (rg * T0).
(* the ideal mixture with fractions x of the components 0..20; rg gas constant of the mixture, rs that
   of the component equations *)
Definition mix_cv (rs : R) (x : nat -> R) (T : R) : R := rs * sum 21 (fun i => x i * (cp0 i T - 1)).
Definition mix_h (rs : R) (x : nat -> R) (T : R) : R := rs * sum 21 (fun i => x i * h0 i T).
Definition mix_s (rg rs : R) (x : nat -> R) (T d : R) : R :=
  sum 21 (fun i => x i * (rs * s0 i T - rg * ln (d / ref_density rg) - rg * ln (x i))).
Definition RD : R := 831451 / 100000.
(* GERG numbers its components from 1 *)
Definition down (x : nat -> R) (i : nat) : R := x (S i).
(* only component i, with fraction 1 *)
Definition only (i j : nat) : R := if Nat.eqb j i then 1 else 0.
(* the fractions x of DETAIL (slots 0..20) in the slots 1..21 of GERG *)
Definition up (x : nat -> R) (j : nat) : R := match j with O => 0 | S i => x i end.
